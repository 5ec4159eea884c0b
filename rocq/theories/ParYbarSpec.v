(** * ParYbarSpec: the datacube of normal velocity distributions, independently of the model. *)
From Coq Require Import Reals List Bool Arith ZArith.
From Verif Require Import Num Arr Cube Spec Repr Fft FourierSpec DatacubeSpec.
Import ListNotations.
Local Open Scope R_scope.

(** frequency k in radians per pixel: equal steps from 0 to pi over n/2 intervals *)
Definition freq (n k : nat) : R := INR k * (PI / INR (n / 2)).

(** signal on n pixels of dv with the transform of a normal distribution *)
Definition normal_re (n : nat) (dv mu sig : R) (k : nat) : R := exp (- (sig / dv * freq n k) ^ 2 / 2) * cos (mu / dv * freq n k).
Definition normal_im (n : nat) (dv mu sig : R) (k : nat) : R := exp (- (sig / dv * freq n k) ^ 2 / 2) * - sin (mu / dv * freq n k).
Definition losvd (n : nat) (dv mu sig : R) : R -> R := signal n (normal_re n dv mu sig) (normal_im n dv mu sig).

(** templates convolved with the velocity distributions, weighted by the
    probabilities P t i j z *)
Definition par_datacube (g : grid) (P : nat -> nat -> nat -> nat -> R) (mu sig : nat -> nat -> nat -> R) (n : nat) (dv : R) (S : spectra)
    (w i j : nat) : R :=
  Sum (nt g) (fun t => Sum (nz g) (fun z => P t i j z * conv n (S t z) (losvd n dv (mu t i j) (sig t i j)) w)).
