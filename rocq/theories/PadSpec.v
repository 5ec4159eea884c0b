(** * PadSpec: padded spectra, independently of the model. *)
From Coq Require Import Reals List Bool Arith ZArith.
From Verif Require Import Num Spec DatacubeSpec.
Local Open Scope R_scope.

(** the least power of two that is not below nl *)
Definition least_power (nl n : nat) : Prop := (exists k, n = 2 ^ k)%nat /\ (nl <= n < 2 * nl)%nat.

(** a spectrum followed by zeros *)
Definition zero_padded (nl : nat) (S : spectra) : spectra := fun t z w => if Nat.ltb w nl then S t z w else 0.

(** a spectrum of nl pixels moved by k pixels, nothing entering from the other end *)
Definition moved (nl : nat) (x : nat -> R) (k : Z) (w : nat) : R :=
  if ((0 <=? Z.of_nat w - k) && (Z.of_nat w - k <? Z.of_nat nl))%Z%bool then x (Z.to_nat (Z.of_nat w - k)) else 0.
