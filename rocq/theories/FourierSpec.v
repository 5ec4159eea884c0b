(** * FourierSpec: real trigonometric sums, independently of the model.

    A half spectrum of length n/2+1 is given by its real and imaginary parts. *)
From Coq Require Import Reals List Bool Arith ZArith.
From Verif Require Import Num.
Import ListNotations.
Local Open Scope R_scope.

(** weight of frequency k among the n/2+1 of a real signal of length n: the zero
    and (for even n) the highest frequency count once, the others twice *)
Definition wt (n k : nat) : R := if Nat.eqb k 0 || Nat.eqb (2 * k) n then 1 else 2.

(** the real periodic signal with half spectrum a + i b, at displacement d *)
Definition signal (n : nat) (a b : nat -> R) (d : R) : R :=
  Sum (n / 2 + 1) (fun k => wt n k * (a k * cos (2 * PI * d * INR k / INR n) - b k * sin (2 * PI * d * INR k / INR n))) / INR n.

(** circular convolution of x_0 .. x_(n-1) with a signal *)
Definition conv (n : nat) (x : nat -> R) (K : R -> R) (w : nat) : R := Sum n (fun s => x s * K (INR w - INR s)).
