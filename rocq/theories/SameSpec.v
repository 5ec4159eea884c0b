(** * SameSpec: comparing the arrays two calls return, and templates whose light
    is known given some variables. *)
From Coq Require Import Reals List Bool.
From Verif Require Import Num Arr Spec MomSpec Moments MomLemmas.
Import ListNotations.
Local Open Scope R_scope.

(** both calls succeed, and at the bins in Q the entries at the given positions
    are the same (perhaps both nan) *)
Definition alike (g : grid) (ra rb : res (arr num)) (pa pb : bin -> list nat) (Q : bin -> Prop) : Prop :=
  exists a b, ra = Ok a /\ rb = Ok b /\ forall i, in_grid g i -> Q i -> ent a (pa i) = ent b (pb i).

(** the light of the template of bin i *)
Definition bright (g : grid) (i : bin) : R := Lw g (bt i) (bz i).
(** the variables in C determine the light of the template *)
Definition light_by (g : grid) (C : vset) : Prop :=
  forall i j, in_grid g i -> in_grid g j -> coords C i = coords C j -> bright g i = bright g j.

(** all the statistics of coordinate k: those given C with weighting lw, and
    those given C' with weighting lw' *)
Definition statistics_alike (o : obj) (g : grid) (k : coord) (C C' : vset) (lw lw' : bool) (Q : bin -> Prop) : Prop :=
  let w := dname (cvar k) C in let w' := dname (cvar k) C' in
  let m := mcoords k C in let m' := mcoords k C' in
  alike g (get_mean o w lw) (get_mean o w' lw') m m' Q /\
  (forall j mu mu', shp mu = mdims k C g -> shp mu' = mdims k C' g ->
     alike g (get_noncentral_moment o w j mu lw) (get_noncentral_moment o w' j mu' lw') m m'
       (fun i => Q i /\ exists c, ent mu (m i) = Fin c /\ ent mu' (m' i) = Fin c)) /\
  (forall j, alike g (get_central_moment o w j lw) (get_central_moment o w' j lw') m m' Q) /\
  alike g (get_variance o w lw) (get_variance o w' lw') m m' Q /\
  alike g (get_dispersion o w lw) (get_dispersion o w' lw') m m' Q /\
  alike g (get_skewness o w lw) (get_skewness o w' lw') m m' Q /\
  alike g (get_kurtosis o w lw) (get_kurtosis o w' lw') m m' Q /\
  (forall q, alike g (get_excess_kurtosis q o w lw) (get_excess_kurtosis q o w' lw') m m' Q) /\
  (is_x k = false -> forall j, alike g (get_l_moment o w (S j) lw) (get_l_moment o w' (S j) lw') m m' Q).
(** covariance and correlation of coordinates a and b *)
Definition covariances_alike (o : obj) (g : grid) (a b : coord) (C C' : vset) (lw lw' : bool) (Q : bin -> Prop) : Prop :=
  let w := dname (union (cvar a) (cvar b)) C in let w' := dname (union (cvar a) (cvar b)) C' in
  let m := mcoords (xkey a b) C in let m' := mcoords (xkey a b) C' in
  alike g (get_covariance o w lw) (get_covariance o w' lw') m m' Q /\
  alike g (get_correlation o w lw) (get_correlation o w' lw') m m' Q.
