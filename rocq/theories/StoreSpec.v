(** * StoreSpec: components made from the densities which other components
    return. *)
From Coq Require Import Reals List Bool.
From Verif Require Import Num Arr Cube Base Spec MomSpec Moments MomLemmas SameSpec Particle.
Import ListNotations.
Local Open Scope R_scope.

(** [self] is Component(cube=c, log_p=r) for the returned value r *)
Definition stored (c : cube) (r : res (arr num)) (self : component) : Prop :=
  exists a, r = Ok a /\ component_init c a = Ok self.

(** the density of bin probabilities P *)
Definition density_of (g : grid) (P : joint) : joint := fun t v x y z =>
  P t v x y z / vol g all_vars (Bin t v x y z).

(** all the statistics of coordinate k given C: of object o with weighting lw,
    and of o' with weighting lw' *)
Definition same_statistics (o o' : obj) (g : grid) (k : coord) (C : vset) (lw lw' : bool) (Q : bin -> Prop) : Prop :=
  let w := dname (cvar k) C in let m := mcoords k C in
  alike g (get_mean o w lw) (get_mean o' w lw') m m Q /\
  (forall j mu, shp mu = mdims k C g ->
     alike g (get_noncentral_moment o w j mu lw) (get_noncentral_moment o' w j mu lw') m m (fun i => Q i /\ exists c, ent mu (m i) = Fin c)) /\
  (forall j, alike g (get_central_moment o w j lw) (get_central_moment o' w j lw') m m Q) /\
  alike g (get_variance o w lw) (get_variance o' w lw') m m Q /\
  alike g (get_dispersion o w lw) (get_dispersion o' w lw') m m Q /\
  alike g (get_skewness o w lw) (get_skewness o' w lw') m m Q /\
  alike g (get_kurtosis o w lw) (get_kurtosis o' w lw') m m Q /\
  (forall q, alike g (get_excess_kurtosis q o w lw) (get_excess_kurtosis q o' w lw') m m Q) /\
  (is_x k = false -> forall j, alike g (get_l_moment o w (S j) lw) (get_l_moment o' w (S j) lw') m m Q).
Definition same_covariances (o o' : obj) (g : grid) (a b : coord) (C : vset) (lw lw' : bool) (Q : bin -> Prop) : Prop :=
  let w := dname (union (cvar a) (cvar b)) C in let m := mcoords (xkey a b) C in
  alike g (get_covariance o w lw) (get_covariance o' w lw') m m Q /\
  alike g (get_correlation o w lw) (get_correlation o' w lw') m m Q.

(** one particle at the centre of each bin, weighted by the bin's probability *)
Definition centre (g : grid) (i : bin) : particle :=
  Particle (Fin (mid (tE g) (bt i))) (Fin (mid (vE g) (bv i))) (Fin (mid (xE g) (bx i))) (Fin (mid (yE g) (by_ i))) (Fin (mid (zE g) (bz i))).
Definition first_bin : bin := Bin 0 0 0 0 0.
Definition centres (g : grid) (P : joint) : list (particle * R) :=
  map (fun i => (centre g i, P (bt i) (bv i) (bx i) (by_ i) (bz i))) (bins_over g all_vars first_bin).
