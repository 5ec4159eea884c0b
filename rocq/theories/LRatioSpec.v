(** * LRatioSpec: L-skewness and L-kurtosis.  No arrays here. *)
From Coq Require Import Reals.
From Verif Require Import Num Spec MomSpec NormalLSpec.
Local Open Scope R_scope.

(** by how much the trapezoid rule exceeds the L-moments of orders 2, 3 and 4 of
    the histogram: p bin probabilities, w widths, c centres, F the cumulative
    probability at the edges *)
Definition over2 (n : nat) (p w : nat -> R) : R := Sum n (fun k => w k * p k ^ 2 / 3).
Definition over3 (n : nat) (p w c F : nat -> R) : R :=
  Sum n (fun k => p k ^ 2 * w k * (F k + F (S k) - 1) + p k ^ 3 * c k).
Definition over4 (n : nat) (p w c F : nat -> R) : R :=
  Sum n (fun k => let h := (F k + F (S k)) / 2 in
    p k ^ 2 * w k * (10 * h ^ 2 - 10 * h + 2) + p k ^ 3 * c k * (10 * h - 5) + p k ^ 4 * w k).

(** d, s, u, x: L-dispersion, L-skewness, L-kurtosis and excess L-kurtosis; r the
    L-kurtosis of the normal distribution *)
Definition l_ratios_at (g : grid) (P : joint) (k : coord) (C : vset) (i : bin) (r : R) (d s u x : num) : Prop :=
  let p := bin_prob g P k C i in let w := wid (cedge g k) in let c := mid (cedge g k) in let F := cdf g P k C i in
  exists M2 M3 M4, is_l_moment g P k C i 2 M2 /\ is_l_moment g P k C i 3 M3 /\ is_l_moment g P k C i 4 M4 /\
    let L2 := M2 + over2 (cn g k) p w in
    let L3 := M3 + over3 (cn g k) p w c F in
    let L4 := M4 + over4 (cn g k) p w c F in
    0 < M2 /\ 0 < over2 (cn g k) p w /\ d = Fin L2 /\ s = Fin (L3 / L2) /\ u = Fin (L4 / L2) /\ x = Fin (L4 / L2 - r).

(** how the third and fourth trapezoid sums change with the origin *)
Definition drift3 (n : nat) (p : nat -> R) : R := Sum n (fun k => p k ^ 3).
Definition drift4 (n : nat) (p F : nat -> R) : R := Sum n (fun k => p k ^ 3 * (5 * F k + 5 * F (S k) - 5)).
