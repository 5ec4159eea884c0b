(** * ParSpec: what the distributions of a parametric component should be.

    The component is given by the densities p(t), p(x|t), p(z|t,x), the maps of
    mean velocity and dispersion and a cumulative distribution function F.
    Strings with v refer to the product of all four factors, where the velocity
    factor is the probability of the velocity bin; strings without v refer to
    the product of the first three. *)
From Coq Require Import Reals List Bool.
From Verif Require Import Num Spec.
Import ListNotations.
Local Open Scope R_scope.

Record par_model := ParModel {
  pm_t : nat -> R;                       (* p(t)      at bin t *)
  pm_x : nat -> nat -> nat -> R;         (* p(x|t)    at t, x, y *)
  pm_z : nat -> nat -> nat -> nat -> R;  (* p(z|t,x)  at t, x, y, z *)
  pm_mu : nat -> nat -> nat -> R;        (* at t, x, y *)
  pm_sig : nat -> nat -> nat -> R;
  pm_F : R -> R
}.

(** probability of velocity bin v for Gaussian-like velocities at t, x, y *)
Definition vbin (g : grid) (m : par_model) (t v x y : nat) : R :=
  pm_F m ((vE g (S v) - pm_mu m t x y) / pm_sig m t x y) -
  pm_F m ((vE g v - pm_mu m t x y) / pm_sig m t x y).

(** probability of a (t,x,y,z) bin *)
Definition txz_mass (g : grid) (m : par_model) (t x y z : nat) : R :=
  pm_t m t * wid (tE g) t *
  (pm_x m t x y * (wid (xE g) x * wid (yE g) y)) *
  (pm_z m t x y z * wid (zE g) z).

(** the same grid with a single velocity bin *)
Definition flat (g : grid) : grid :=
  Grid (nt g) 1 (nx g) (ny g) (nz g) (tE g) (vE g) (xE g) (yE g) (zE g) (Lw g).

(** grid and joint which a string refers to, according to whether it has v *)
Definition pgrid (g : grid) (v : bool) : grid := if v then g else flat g.
Definition pjoint (g : grid) (m : par_model) (has_v : bool) : joint := fun t v x y z =>
  txz_mass g m t x y z * (if has_v then vbin g m t v x y else 1).
Definition pprob (g : grid) (m : par_model) (lw : bool) (has_v : bool) : joint :=
  if lw then light (pgrid g has_v) (pjoint g m has_v) else pjoint g m has_v.

(** probability of the S-coordinates of bin i *)
Definition par_prob (g : grid) (m : par_model) (lw : bool) (S : vset) (i : bin) : R :=
  marg (pgrid g (has_v S)) (pprob g m lw (has_v S)) S i.

(** densities are non-negative, those of x and z normalised, dispersions
    positive and F a non-decreasing function with values in [0,1] *)
Record good_par (g : grid) (m : par_model) : Prop := {
  gp_t : forall t, (t < nt g)%nat -> 0 <= pm_t m t;
  gp_x : forall t x y, (t < nt g)%nat -> (x < nx g)%nat -> (y < ny g)%nat -> 0 <= pm_x m t x y;
  gp_z : forall t x y z, (t < nt g)%nat -> (x < nx g)%nat -> (y < ny g)%nat -> (z < nz g)%nat ->
         0 <= pm_z m t x y z;
  gp_x1 : forall t, (t < nt g)%nat ->
         Sum (nx g) (fun x => Sum (ny g) (fun y => pm_x m t x y * (wid (xE g) x * wid (yE g) y))) = 1;
  gp_z1 : forall t x y, (t < nt g)%nat -> (x < nx g)%nat -> (y < ny g)%nat ->
         Sum (nz g) (fun z => pm_z m t x y z * wid (zE g) z) = 1;
  gp_sig : forall t x y, (t < nt g)%nat -> (x < nx g)%nat -> (y < ny g)%nat -> 0 < pm_sig m t x y;
  gp_F : forall x, 0 <= pm_F m x <= 1;
  gp_F_mono : forall x y, x <= y -> pm_F m x <= pm_F m y
}.

(** light weighting is defined *)
Definition par_lw_ok (g : grid) (m : par_model) (lw has_v : bool) : Prop :=
  lw = true -> 0 < total (pgrid g has_v) (lit (pgrid g has_v) (pjoint g m has_v)).
