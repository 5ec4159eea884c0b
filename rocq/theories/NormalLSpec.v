(** * NormalLSpec: L-moments, by integrals.  No arrays here. *)
From Coq Require Import Reals.
From Verif Require Import Num Spec MomSpec GaussSpec.
Local Open Scope R_scope.

(** q is the quantile function of the unit normal distribution: the part of the
    normal density below q(p) is the fraction p of the whole *)
Definition normal_quantile (q : R -> R) : Prop :=
  forall p, 0 < p < 1 -> exists B D : nat -> R,
    (forall n, integral (gauss 0 1) (- INR n) (q p) (B n)) /\
    (forall n, integral (gauss 0 1) (- INR n) (INR n) (D n)) /\
    Un_cv (fun n => B n / D n) p.

(** shifted Legendre polynomials: the weights in L-moments of orders 1 to 4 *)
Definition lweight (order : nat) (u : R) : R :=
  match order with
  | 1%nat => 1
  | 2%nat => 2 * u - 1
  | 3%nat => 6 * u ^ 2 - 6 * u + 1
  | _ => 20 * u ^ 3 - 30 * u ^ 2 + 12 * u - 1
  end.

(** the midpoint rule with N cells for the integral of quantile times weight *)
Definition midpoint_sum (q : R -> R) (N order : nat) : R :=
  Sum N (fun k => let u := (INR k + 1 / 2) / INR N in q u * lweight order u / INR N).

(** the probability of bin n of coordinate k, given the C-variables of bin i *)
Definition bin_prob (g : grid) (P : joint) (k : coord) (C : vset) (i : bin) (n : nat) : R :=
  marg g P (union (cvar k) C) (at_ k n i) / marg g P C i.

(** the quantile function of a distribution with constant density in each bin:
    between edges a and b, reached at cumulative probabilities u and v *)
Definition line (a b u v w : R) : R := a + (w - u) * ((b - a) / (v - u)).

(** M is the L-moment (order 1, 2 or 3) of coordinate k given the C-variables of
    bin i, when the probability of each bin is spread evenly over the bin:
    the integral of quantile times weight *)
Definition is_l_moment (g : grid) (P : joint) (k : coord) (C : vset) (i : bin) (order : nat) (M : R) : Prop :=
  exists I : nat -> R,
    (forall n, (n < cn g k)%nat ->
       integral (fun w => line (cedge g k n) (cedge g k (S n)) (cdf g P k C i n) (cdf g P k C i (S n)) w * lweight order w)
                (cdf g P k C i n) (cdf g P k C i (S n)) (I n)) /\
    M = Sum (cn g k) I.
