(** * MixStatSpec: textbook statistics of a distribution P given the C-variables
    of bin i, as numbers that may be nan. *)
From Coq Require Import Reals List Bool.
From Verif Require Import Num Spec MomSpec LMom NormalLSpec.
Import ListNotations.
Local Open Scope R_scope.

(** v is the variance and s the standard deviation of coordinate k *)
Definition variance_at (g : grid) (P : joint) (k : coord) (C : vset) (i : bin) (v s : num) : Prop :=
  exists V, v = Fin V /\ s = Fin (sqrt V) /\
    V = Ex g P (cvar k) C (fun b => cmid g k b ^ 2) i - Mean g P k C i ^ 2 /\
    0 <= V <= (mid (cedge g k) (cn g k - 1) - mid (cedge g k) 0) ^ 2 / 4 /\
    (V = 0 <-> forall j, In j (bins_over g (cvar k) i) -> 0 < marg g P (union (cvar k) C) j -> cmid g k j = Mean g P k C i).
(** skewness, kurtosis and excess kurtosis; nan without spread *)
Definition shape_at (g : grid) (P : joint) (k : coord) (C : vset) (i : bin) (sk ku ek : num) : Prop :=
  (0 < Variance g P k C i -> exists a b, sk = Fin a /\ ku = Fin b /\ ek = Fin (b - 3) /\
     a = Moment g P k C 3 (Mean g P k C i) i / sqrt (Variance g P k C i) ^ 3 /\
     b = Moment g P k C 4 (Mean g P k C i) i / sqrt (Variance g P k C i) ^ 4 /\ a ^ 2 + 1 <= b) /\
  (Variance g P k C i = 0 -> sk = NaN /\ ku = NaN /\ ek = NaN).
(** correlation of coordinates a and b; nan when one of them has no spread *)
Definition correlation_at (g : grid) (P : joint) (a b : coord) (C : vset) (i : bin) (r : num) : Prop :=
  (0 < Variance g P a C i -> 0 < Variance g P b C i -> exists c, r = Fin c /\
     c = Covar g P a b C i / sqrt (Variance g P a C i * Variance g P b C i) /\ -1 <= c <= 1) /\
  (Variance g P a C i * Variance g P b C i = 0 -> r = NaN).
(** the first three L-moments of the histogram, the second and third with the
    excess of the trapezoid rule (claim C79) *)
Definition l_moments_at (g : grid) (P : joint) (k : coord) (C : vset) (i : bin) (a b c : num) : Prop :=
  let p := bin_prob g P k C i in let w := wid (cedge g k) in let F := cdf g P k C i in
  exists M1 M2 M3, is_l_moment g P k C i 1 M1 /\ is_l_moment g P k C i 2 M2 /\ is_l_moment g P k C i 3 M3 /\
    a = Fin M1 /\ M1 = Mean g P k C i /\
    b = Fin (M2 + Sum (cn g k) (fun n => w n * p n ^ 2 / 3)) /\
    c = Fin (M3 + Sum (cn g k) (fun n => p n ^ 2 * w n * (F n + F (S n) - 1) + p n ^ 3 * mid (cedge g k) n)).
