(** * DatacubeSpec: what the datacube should be, independently of the model. *)
From Coq Require Import Reals List Bool Arith ZArith.
From Verif Require Import Num Arr Cube Spec Repr Fft FourierSpec.
Import ListNotations.
Local Open Scope R_scope.

(** template spectra: S t z w is the flux of template (t,z) in pixel w *)
Definition spectra := nat -> nat -> nat -> R.

(** the SSP object holds the templates [S] on [n] pixels of [dv], with their
    transforms, as a cube leaves it *)
Record templates (s : ssps) (g : grid) (n : nat) (dv : R) (S : spectra) : Prop := {
  tp_n : (0 < n)%nat;
  tp_dv : ssp_dv s = Fin dv;
  tp_fft : n_fft s = n;
  tp_X : shp (Xw s) = [n; (nz g * nt g)%nat];
  tp_S : forall t z w, (t < nt g)%nat -> (z < nz g)%nat -> (w < n)%nat -> ent (Xw s) [w; (z * nt g + t)%nat] = Fin (S t z w);
  tp_F : shp (FXw s) = [(n / 2 + 1)%nat; (nz g * nt g)%nat];
  tp_dft : forall k c, (k < n / 2 + 1)%nat -> (c < nz g * nt g)%nat ->
    ent (FXw s) [k; c] = dft n n (fun w => ent (Xw s) [w; c]) k
}.

(** transform of a velocity distribution p_0 .. p_(nv-1) about bin v0 *)
Definition vel_re (nv v0 : nat) (p : nat -> R) (j : nat) : R :=
  Sum nv (fun v => p v * cos (2 * PI * (INR v - INR v0) * INR j / INR nv)).
Definition vel_im (nv v0 : nat) (p : nat -> R) (j : nat) : R :=
  Sum nv (fun v => p v * - sin (2 * PI * (INR v - INR v0) * INR j / INR nv)).

(** the broadening function on n pixels: the signal with the transform of p
    interpolated to the n/2+1 frequencies *)
Definition broadening (W : nat -> nat -> nat -> nat -> R) (n nv v0 : nat) (p : nat -> R) : R -> R :=
  signal n (fun k => Sum (nv / 2 + 1) (fun j => W (nv / 2 + 1)%nat (n / 2 + 1)%nat k j * vel_re nv v0 p j))
           (fun k => Sum (nv / 2 + 1) (fun j => W (nv / 2 + 1)%nat (n / 2 + 1)%nat k j * vel_im nv v0 p j)).

(** the datacube: sum over templates of their convolution with the broadening
    function of the probabilities p(t,v,x,z) dt dv dx dz at the pixel *)
Definition bin_prob (g : grid) (f : joint) (dv : R) (t i j z : nat) (v : nat) : R :=
  f t v i j z * (wid (tE g) t * dv * wid (xE g) i * wid (yE g) j * wid (zE g) z).
Definition datacube (W : nat -> nat -> nat -> nat -> R) (g : grid) (f : joint) (n : nat) (dv : R) (v0 : nat) (S : spectra)
    (w i j : nat) : R :=
  Sum (nt g) (fun t => Sum (nz g) (fun z =>
    conv n (S t z) (broadening W n (nv g) v0 (bin_prob g f dv t i j z)) w)).

(** a velocity grid that can be used: bins as wide as the template pixels
    (np.isclose), increasing centres, and the centre of bin [v0] the first one
    at zero (np.isclose), in the middle *)
Definition close (a b : R) : Prop := Rabs (a - b) <= 1 / 100000000 + 1 / 100000 * Rabs b.
Record velocity_ok (nv : nat) (E : nat -> R) (dv : R) (v0 : nat) : Prop := {
  vo_width : forall v, (v < nv)%nat -> close (wid E v) dv;
  vo_sorted : forall v, (S v < nv)%nat -> mid E v <= mid E (S v);
  vo_in : (v0 < nv)%nat;
  vo_zero : close (mid E v0) 0;
  vo_first : forall v, (v < v0)%nat -> ~ close (mid E v) 0;
  vo_centre : if Nat.eqb (nv mod 2) 1 then (2 * v0 = nv - 1)%nat else (2 * v0 = nv)%nat
}.
