(** * GaussSpec: moments of a normal distribution, by integrals. *)
From Coq Require Import Reals.
Local Open Scope R_scope.

(** the Riemann integral of f from a to b is I *)
Definition integral (f : R -> R) (a b I : R) : Prop :=
  exists pr : Riemann_integrable f a b, RiemannInt pr = I.

(** density of a normal distribution, up to a constant *)
Definition gauss (mu s v : R) : R := exp (- (v - mu) ^ 2 / (2 * s ^ 2)).

(** M is the j-th moment about c of the normal distribution of mean mu and
    dispersion s: the limit of the moments of its restrictions to [-n,n] *)
Definition gauss_moment (mu s c : R) (j : nat) (M : R) : Prop :=
  exists N D : nat -> R,
    (forall n, integral (fun v => (v - c) ^ j * gauss mu s v) (- INR n) (INR n) (N n)) /\
    (forall n, integral (gauss mu s) (- INR n) (INR n) (D n)) /\
    Un_cv (fun n => N n / D n) M.
