(** * ParSetSpec: what the setters of parametric components should compute. *)
From Coq Require Import Reals List Bool.
From Verif Require Import Num Spec ParSpec.
Import ListNotations.
Local Open Scope R_scope.

(** what claims assume of the normal cdf and of a beta cdf and its inverse on [0,1] *)
Definition good_norm (F : R -> R) : Prop :=
  (forall x, 0 < F x < 1) /\ (forall x y, x < y -> F x < F y).
Definition good_cdf (F : R -> R) : Prop :=
  F 0 = 0 /\ F 1 = 1 /\ (forall x y, 0 <= x -> x <= y -> y <= 1 -> F x <= F y).
Definition good_ppf (Q : R -> R) : Prop :=
  (forall p, 0 <= p <= 1 -> 0 <= Q p <= 1) /\ (forall p q, 0 <= p -> p < q -> q <= 1 -> Q p < Q q).

(** the mass of an age bin *)
Definition sfh_mass (g : grid) (F : R -> R) (t : nat) : R :=
  F ((tE g (S t) - tE g 0) / (tE g (nt g) - tE g 0)) - F ((tE g t - tE g 0) / (tE g (nt g) - tE g 0)).

(** the value at age tau of a quantity going from young at age s to old at age e *)
Definition at_age (s e : R) (yo : R * R) (tau : R) : R :=
  if Rlt_dec tau s then fst yo else if Rlt_dec e tau then snd yo
  else fst yo + (snd yo - fst yo) * ((tau - s) / (e - s)).

(** elliptical radius *)
Definition ell (q x y : R) : R := sqrt (x * x + (y / q) * (y / q)).

(** image positions of pixels in component coordinates *)
Definition map2d := nat -> nat -> R.

(** integral of a map over the image *)
Definition over_image (g : grid) (f : nat -> nat -> R) : R :=
  Sum (nx g) (fun x => Sum (ny g) (fun y => f x y * (wid (xE g) x * wid (yE g) y))).

(** cored power law *)
Definition cored (q rc alpha x y : R) : R := Rpower (ell q x y + rc) (- alpha).

(** rotation curve with peak [vmax] at [rmax] on the major axis, for unit ratio
    of vertical to horizontal scale it is vmax * 27 rmax^2 x / (r + 2 rmax)^3 *)
Definition disk_mu (q rmax vmax x y : R) : R :=
  vmax * (27 * rmax ^ 2 * x / (ell q x y + 2 * rmax) ^ 3).

(** from v_in at radius 0 to v_out at radius m and beyond, as a power of radius *)
Definition pow0 (x a : R) : R := if Req_EM_T a 0 then 1 else if Rlt_dec 0 x then Rpower x a else 0.
Definition in_out (v_in v_out m alpha r : R) : R :=
  v_in + (v_out - v_in) * Rmin 1 (pow0 (r / m) alpha).

(** largest |x| in the image *)
Fixpoint Max (n : nat) (f : nat -> R) : R :=
  match n with O => 0 | S n' => Rmax (Max n' f) (f n') end.
Definition max_abs (g : grid) (X : map2d) : R :=
  Max (nx g) (fun x => Max (ny g) (fun y => Rabs (X x y))).

(** probability of metallicity bin k for normal metallicities with mean mu and
    variance s2, the edges being 10^zE *)
Definition znorm (g : grid) (F : R -> R) (mu s2 : R) (k : nat) : R :=
  F ((Rpower 10 (zE g (S k)) - mu) / sqrt s2) - F ((Rpower 10 (zE g k) - mu) / sqrt s2).
