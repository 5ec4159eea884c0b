(** * ParMomMath: the binomial sum of __get_noncentral_moment_v__. *)
From Coq Require Import Reals Lra Lia List Bool Arith ZArith.
From Verif Require Import Num NumLemmas Arr ArrLemmas MilesLemmas Moments MomArr MomLemmas5 ParMoments GaussSpec GaussLemmas.
Import ListNotations.
Local Open Scope R_scope.

Lemma binom_big n k : (n < k)%nat -> binom n k = 0%nat.
Proof.
  revert k; induction n as [|n IH]; intros [|k] H; cbn; try lia.
  rewrite !IH by lia. reflexivity.
Qed.
Lemma binom_absorb n : forall k, (S k * binom (S n) (S k) = S n * binom n k)%nat.
Proof.
  induction n as [|n IH]; intros k.
  - destruct k; cbn; lia.
  - destruct k as [|k].
    + specialize (IH 0%nat). cbn [binom] in *. destruct n; cbn [binom] in *; lia.
    + change (binom (S (S n)) (S (S k))) with (binom (S n) (S k) + binom (S n) (S (S k)))%nat.
      pose proof (IH k) as A. pose proof (IH (S k)) as B.
      change (binom (S n) (S k)) with (binom n k + binom n (S k))%nat in A at 1.
      change (binom (S n) (S k)) with (binom n k + binom n (S k))%nat.
      change (binom (S n) (S k)) with (binom n k + binom n (S k))%nat in B. nia.
Qed.

(** the binomial sum, for any sequence c *)
Definition bsum (d : R) (c : nat -> R) (j : nat) : R :=
  Sum (S j) (fun k => INR (binom j k) * (d ^ (j - k) * c k)).

Lemma bsum_0 d c : bsum d c 0 = c 0%nat.
Proof. unfold bsum; cbn. lra. Qed.
Lemma bsum_S d c j : bsum d c (S j) = d * bsum d c j + bsum d (fun k => c (S k)) j.
Proof.
  unfold bsum. rewrite (Sum_shift (S j)).
  rewrite (Sum_ext (S j) (fun k => INR (binom (S j) (S k)) * (d ^ (S j - S k) * c (S k)))
    (fun k => INR (binom j (S k)) * (d ^ (S j - S k) * c (S k)) + INR (binom j k) * (d ^ (j - k) * c (S k)))).
  2:{ intros k Hk. cbn [binom Nat.sub]. rewrite plus_INR. ring. }
  rewrite Sum_plus, <- Rplus_assoc. f_equal.
  rewrite <- (Sum_scal (S j)).
  assert (E0 : INR (binom (S j) 0) * (d ^ (S j - 0) * c 0%nat) = (fun k => INR (binom j k) * (d ^ (S j - k) * c k)) 0%nat)
    by (destruct j; reflexivity).
  rewrite E0.
  rewrite <- (Sum_shift (S j) (fun k => INR (binom j k) * (d ^ (S j - k) * c k))).
  change (Sum (S (S j)) ?f) with (Sum (S j) f + f (S j)).
  cbv beta. rewrite (binom_big j (S j)) by lia. cbn [INR]. rewrite Rmult_0_l, Rplus_0_r.
  apply Sum_ext. intros k Hk. rewrite (Nat.sub_succ_l k j) by lia. cbn [pow]. ring.
Qed.
Lemma bsum_ext d c c' j : (forall k, c k = c' k) -> bsum d c j = bsum d c' j.
Proof. intros H. apply Sum_ext; intros. rewrite H. reflexivity. Qed.

(** central moments of a normal distribution; q stands for factorial2(-1) *)
Definition cmom (q s : R) (k : nat) : R :=
  match k with
  | O => q
  | _ => if Nat.even k then s ^ k * INR (odd_factorial2 (Nat.div2 k)) else 0
  end.
Lemma cmom_SS s k : cmom 1 s (S (S k)) = INR (S k) * s ^ 2 * cmom 1 s k.
Proof.
  unfold cmom. cbn [Nat.even Nat.div2].
  destruct (Nat.even k) eqn:E; [|destruct k; [discriminate|ring]].
  apply Nat.even_spec in E. destruct E as [h ->].
  rewrite Nat.div2_double.
  cbn [odd_factorial2]. replace (2 * S h - 1)%nat with (S (2 * h)) by lia. rewrite mult_INR.
  destruct h as [|h]; [cbn; ring|].
  assert (M : forall n (a b : R), (0 < n)%nat -> match n with O => a | S _ => b end = b) by (intros [|n]; [lia|reflexivity]).
  rewrite M by lia.
  replace (S (S (2 * S h))) with (2 * S h + 2)%nat by lia. rewrite pow_add. ring.
Qed.
Lemma cmom_1 q s : cmom q s 1 = 0. Proof. reflexivity. Qed.

Lemma bsum_down d c j : bsum d (fun k => INR k * c (k - 1)%nat) (S j) = INR (S j) * bsum d c j.
Proof.
  unfold bsum. rewrite (Sum_shift (S j)), <- (Sum_scal (S j)).
  change (INR 0) with 0. rewrite Rmult_0_l, !Rmult_0_r, Rplus_0_l.
  apply Sum_ext. intros k Hk. cbn [Nat.sub]. rewrite Nat.sub_0_r.
  assert (E : INR (S k) * INR (binom (S j) (S k)) = INR (S j) * INR (binom j k)).
  { rewrite <- !mult_INR. f_equal. apply binom_absorb. }
  transitivity (INR (S k) * INR (binom (S j) (S k)) * (d ^ (j - k) * c k)); [ring|].
  rewrite E. ring.
Qed.

Lemma bsum_gmom d s j : bsum d (cmom 1 s) j = gmom d s j.
Proof.
  assert (H : bsum d (cmom 1 s) j = gmom d s j /\ bsum d (cmom 1 s) (S j) = gmom d s (S j)); [|apply H].
  induction j as [|j [IH1 IH2]].
  - split; [rewrite bsum_0; reflexivity|]. rewrite bsum_S, !bsum_0, gmom_1. cbn. ring.
  - split; [exact IH2|]. rewrite gmom_SS, bsum_S, IH2. f_equal.
    rewrite (bsum_ext d _ (fun k => INR k * ((fun k => s ^ 2 * cmom 1 s k) (k - 1)%nat))).
    + rewrite (bsum_down d (fun k => s ^ 2 * cmom 1 s k)), <- IH1. unfold bsum. rewrite Rmult_assoc. f_equal. rewrite <- Sum_scal.
      apply Sum_ext; intros; ring.
    + intros [|k]; [cbn; ring|]. rewrite cmom_SS. cbn [Nat.sub]. rewrite Nat.sub_0_r. ring.
Qed.

(** the value computed when factorial2(-1) = q *)
Definition gval (q d s : R) (j : nat) : R := gmom d s j + (q - 1) * d ^ j.
Lemma bsum_gval q d s j : bsum d (cmom q s) j = gval q d s j.
Proof.
  unfold gval. rewrite <- bsum_gmom. unfold bsum. rewrite !(Sum_shift j).
  assert (E0 : INR (binom j 0) = 1) by (destruct j; reflexivity). rewrite E0, Nat.sub_0_r. cbn [cmom]. ring.
Qed.
Lemma gval_1 d s j : gval 1 d s j = gmom d s j.
Proof. unfold gval. ring. Qed.

(** ** the same in the arithmetic of [num] *)
Definition cmn (f2m1 s : num) (k : nat) : num :=
  if Nat.even k then nmul (npow s k) (factorial2_even f2m1 k) else Fin 0.
Lemma cmn_fin q s k : cmn (Fin q) (Fin s) k = Fin (cmom q s k).
Proof.
  unfold cmn, cmom, factorial2_even. destruct k as [|k]; [cbn [Nat.even]; rewrite npow_Fin, nmul_Fin; f_equal; cbn; ring|].
  destruct (Nat.even (S k)); [|reflexivity]. rewrite npow_Fin, nmul_Fin. reflexivity.
Qed.

Definition msum {A} (f2m1 : num) (j : nat) (l : list A) (D G P : A -> num) : num :=
  nsum (map (fun k => nmul (Fin (INR (binom j k)))
    (nsum (map (fun a => nmul (nmul (npow (D a) (j - k)) (cmn f2m1 (G a) k)) (P a)) l))) (seq 0 (S j))).

Lemma msum_fin {A} q j (l : list A) D G P (d s p : A -> R) :
  (forall a, In a l -> D a = Fin (d a) /\ G a = Fin (s a) /\ P a = Fin (p a)) ->
  msum (Fin q) j l D G P = Fin (sumR (map (fun a => p a * gval q (d a) (s a) j) l)).
Proof.
  intros H. unfold msum.
  rewrite (nsum_seq (S j) _ (fun k => INR (binom j k) * sumR (map (fun a => d a ^ (j - k) * cmom q (s a) k * p a) l))).
  - f_equal. clear H. induction l as [|a l IH].
    + cbn [map sumR fold_right]. transitivity (Sum (S j) (fun _ => 0)); [|apply Sum_0]. apply Sum_ext. intros; ring.
    + cbn [map]. change (sumR (?x :: ?r)) with (x + sumR r). rewrite <- IH, <- bsum_gval. unfold bsum.
      rewrite <- Sum_scal, <- Sum_plus. apply Sum_ext. intros k Hk.
      change (sumR (?x :: ?r)) with (x + sumR r). ring.
  - intros k Hk. rewrite (nsum_map_Fin _ (fun a => d a ^ (j - k) * cmom q (s a) k * p a)); [apply nmul_Fin|].
    intros a Ha. destruct (H a Ha) as (-> & -> & ->). rewrite npow_Fin, cmn_fin, !nmul_Fin. reflexivity.
Qed.
Lemma nmul_nan_r a : nmul a NaN = NaN. Proof. destruct a; reflexivity. Qed.
Lemma msum_nan {A} f2m1 j (l : list A) D G P : (exists a, In a l /\ P a = NaN) -> msum f2m1 j l D G P = NaN.
Proof.
  intros (a & Ha & Hp). unfold msum. apply nsum_seq_nan; [lia|].
  rewrite (nsum_nan (map _ l)); [apply nmul_nan_r|]. apply in_map_iff. exists a. split; [|exact Ha].
  rewrite Hp. apply nmul_nan_r.
Qed.
