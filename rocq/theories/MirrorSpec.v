(** * MirrorSpec: mirror images. *)
From Coq Require Import Reals List Bool Arith.
From Verif Require Import Num Spec MomSpec ParSpec Particle.
Import ListNotations.
Local Open Scope R_scope.

(** which coordinates change sides: velocity, the two positions *)
Record flips := Flips { fl_v : bool; fl_x1 : bool; fl_x2 : bool }.
Definition flipped (fl : flips) (k : coord) : bool :=
  match k with Cv => fl_v fl | Cx1 => fl_x1 fl | Cx2 => fl_x2 fl | _ => false end.

(** bin k counted from the other end *)
Definition other_end (b : bool) (n k : nat) : nat := if b then (n - 1 - k)%nat else k.
Definition mirror (g : grid) (fl : flips) (i : bin) : bin :=
  Bin (bt i) (other_end (fl_v fl) (nv g) (bv i)) (other_end (fl_x1 fl) (nx g) (bx i)) (other_end (fl_x2 fl) (ny g) (by_ i)) (bz i).

(** the edges of the flipped coordinates lie symmetrically about the centre *)
Definition centred (g : grid) (fl : flips) (ctr : coord -> R) : Prop :=
  forall k, flipped fl k = true -> forall n, (n <= cn g k)%nat -> cedge g k (cn g k - n) = 2 * ctr k - cedge g k n.

(** mirror image of a value of coordinate k, and of one that may be nan *)
Definition mirrored (fl : flips) (ctr : coord -> R) (k : coord) (r : R) : R := if flipped fl k then 2 * ctr k - r else r.
Definition num_mirrored (fl : flips) (ctr : coord -> R) (k : coord) (a : num) : num := if flipped fl k then nsub (Fin (2 * ctr k)) a else a.
Definition sign (fl : flips) (k : coord) : R := if flipped fl k then -1 else 1.

(** f' is the mirror image of f *)
Definition image (g : grid) (fl : flips) (f f' : joint) : Prop :=
  forall i, in_grid g i -> let j := mirror g fl i in f' (bt i) (bv i) (bx i) (by_ i) (bz i) = f (bt j) (bv j) (bx j) (by_ j) (bz j).

(** the same for parametric components *)
Record par_image (g : grid) (fl : flips) (ctr : coord -> R) (m m' : par_model) : Prop := {
  pi_t : forall t, (t < nt g)%nat -> pm_t m' t = pm_t m t;
  pi_x : forall t x y, (t < nt g)%nat -> (x < nx g)%nat -> (y < ny g)%nat ->
    pm_x m' t x y = pm_x m t (other_end (fl_x1 fl) (nx g) x) (other_end (fl_x2 fl) (ny g) y);
  pi_z : forall t x y z, (t < nt g)%nat -> (x < nx g)%nat -> (y < ny g)%nat -> (z < nz g)%nat ->
    pm_z m' t x y z = pm_z m t (other_end (fl_x1 fl) (nx g) x) (other_end (fl_x2 fl) (ny g) y) z;
  pi_mu : forall t x y, (t < nt g)%nat -> (x < nx g)%nat -> (y < ny g)%nat ->
    pm_mu m' t x y = mirrored fl ctr Cv (pm_mu m t (other_end (fl_x1 fl) (nx g) x) (other_end (fl_x2 fl) (ny g) y));
  pi_sig : forall t x y, (t < nt g)%nat -> (x < nx g)%nat -> (y < ny g)%nat ->
    pm_sig m' t x y = pm_sig m t (other_end (fl_x1 fl) (nx g) x) (other_end (fl_x2 fl) (ny g) y);
  pi_F : forall r, pm_F m' r = pm_F m r;
  pi_even : fl_v fl = true -> forall r, pm_F m (- r) = 1 - pm_F m r
}.

(** nothing in C changes sides *)
Definition untouched (fl : flips) (C : vset) : Prop :=
  (has_v C = true -> fl_v fl = false) /\ (has_x C = true -> fl_x1 fl = false /\ fl_x2 fl = false).

(** reflections under which a disk whose major axis is turned by rot looks the
    same: half a turn of the image for every rot, and about the axes of the
    image if they are those of the disk.  Approaching and receding sides are
    swapped if the sides along the major axis are *)
Definition disk_symmetry (rot : R) (fl : flips) : Prop :=
  fl = Flips true true true \/
  sin rot = 0 /\ (fl = Flips true true false \/ fl = Flips false false true) \/
  cos rot = 0 /\ (fl = Flips false true false \/ fl = Flips true false true).

(** mirror images of particles; none of the flipped coordinates is at an edge
    between bins *)
Definition mirror_particle (fl : flips) (ctr : coord -> R) (p : particle) : particle :=
  Particle (p_t p) (num_mirrored fl ctr Cv (p_v p)) (num_mirrored fl ctr Cx1 (p_x1 p)) (num_mirrored fl ctr Cx2 (p_x2 p)) (p_z p).
Definition between_edges (g : grid) (fl : flips) (p : particle) : Prop :=
  forall k a, In (k, a) [(Cv, p_v p); (Cx1, p_x1 p); (Cx2, p_x2 p)] -> flipped fl k = true ->
    forall n, (0 < n)%nat -> (n < cn g k)%nat -> a <> Fin (cedge g k n).
