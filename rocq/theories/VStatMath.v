(** * VStatMath: third and fourth moments of mixtures of normal and of discrete
    distributions. *)
From Coq Require Import Reals Lra Lia List Bool Arith.
From Verif Require Import Num NumLemmas Arr ArrLemmas SpecLemmas Stat GaussLemmas MomArr MomLemmas3 MomClaims.
Import ListNotations.
Local Open Scope R_scope.

(** mean of (a + b u + u^2)^2 from the moments of u *)
Definition quart (a b : R) (M : nat -> R) : R := a ^ 2 * M 0%nat + 2 * a * b * M 1%nat + (b ^ 2 + 2 * a) * M 2%nat + 2 * b * M 3%nat + M 4%nat.

Lemma gmom_2 d s : gmom d s 2 = d ^ 2 + s ^ 2.
Proof. rewrite gmom_SS, gmom_1, gmom_0. cbn [INR]. ring. Qed.
Lemma gmom_3 d s : gmom d s 3 = d ^ 3 + 3 * d * s ^ 2.
Proof. rewrite gmom_SS, gmom_2, gmom_1. rewrite !S_INR. cbn [INR]. ring. Qed.
Lemma gmom_4 d s : gmom d s 4 = d ^ 4 + 6 * d ^ 2 * s ^ 2 + 3 * s ^ 4.
Proof. rewrite gmom_SS, gmom_3, gmom_2. rewrite !S_INR. cbn [INR]. ring. Qed.
Lemma quart_gauss a b d s : quart a b (gmom d s) = (a + b * d + d ^ 2 + s ^ 2) ^ 2 + (b + 2 * d) ^ 2 * s ^ 2 + 2 * s ^ 4.
Proof. unfold quart. rewrite gmom_4, gmom_3, gmom_2, gmom_1, gmom_0. ring. Qed.

(** kurtosis against skewness, from positivity on squares *)
Lemma quart_kurt (M : nat -> R) : M 0%nat = 1 -> M 1%nat = 0 -> 0 < M 2%nat -> 0 <= quart (- M 2%nat) (- (M 3%nat / M 2%nat)) M ->
  (M 3%nat / sqrt (M 2%nat) ^ 3) ^ 2 + 1 <= M 4%nat / sqrt (M 2%nat) ^ 4.
Proof.
  intros H0 H1 H2 H. unfold quart in H. rewrite H0, H1 in H. set (V := M 2%nat) in *. set (T := M 3%nat) in *. set (K := M 4%nat) in *.
  pose proof (sqrt_sqrt V ltac:(lra)) as S. pose proof (sqrt_lt_R0 _ H2) as S0. set (s := sqrt V) in *.
  apply Rmult_le_reg_r with (s ^ 6); [apply pow_lt; assumption|].
  replace (((T / s ^ 3) ^ 2 + 1) * s ^ 6) with (T ^ 2 + (s * s) ^ 3) by (field; lra).
  replace (K / s ^ 4 * s ^ 6) with (K * (s * s)) by (field; lra). rewrite S.
  apply Rmult_le_compat_r with (r := V) in H; [|lra].
  replace (((- V) ^ 2 * 1 + 2 * - V * - (T / V) * 0 + ((- (T / V)) ^ 2 + 2 * - V) * V + 2 * - (T / V) * T + K) * V) with (K * V - V ^ 3 - T ^ 2) in H by (field; lra).
  lra.
Qed.
Lemma quart_kurt_strict (M : nat -> R) : M 0%nat = 1 -> M 1%nat = 0 -> 0 < M 2%nat -> 0 < quart (- M 2%nat) (- (M 3%nat / M 2%nat)) M ->
  (M 3%nat / sqrt (M 2%nat) ^ 3) ^ 2 + 1 < M 4%nat / sqrt (M 2%nat) ^ 4.
Proof.
  intros H0 H1 H2 H. unfold quart in H. rewrite H0, H1 in H. set (V := M 2%nat) in *. set (T := M 3%nat) in *. set (K := M 4%nat) in *.
  pose proof (sqrt_sqrt V ltac:(lra)) as S. pose proof (sqrt_lt_R0 _ H2) as S0. set (s := sqrt V) in *.
  apply Rmult_lt_reg_r with (s ^ 6); [apply pow_lt; assumption|].
  replace (((T / s ^ 3) ^ 2 + 1) * s ^ 6) with (T ^ 2 + (s * s) ^ 3) by (field; lra).
  replace (K / s ^ 4 * s ^ 6) with (K * (s * s)) by (field; lra). rewrite S.
  apply Rmult_lt_compat_r with (r := V) in H; [|lra].
  replace (((- V) ^ 2 * 1 + 2 * - V * - (T / V) * 0 + ((- (T / V)) ^ 2 + 2 * - V) * V + 2 * - (T / V) * T + K) * V) with (K * V - V ^ 3 - T ^ 2) in H by (field; lra).
  lra.
Qed.

(** averages of moments *)
Section Avg.
Context {A : Type} (l : list A) (w : A -> R) (Hw : forall j, In j l -> 0 <= w j) (H1 : sumR (map w l) = 1).
Lemma E_pos h : (forall j, In j l -> 0 < h j) -> 0 < E l w h.
Proof.
  intros Hh. assert (K : 0 <= E l w h) by (apply E_nonneg; [exact Hw|]; intros j Hj; left; apply Hh, Hj).
  destruct K as [K|K]; [exact K|]. exfalso. unfold E in K.
  assert (Z : sumR (map w l) = 0).
  { rewrite (sumR_map_ext w (fun _ => 0 * 0)); [rewrite sumR_map_scal; ring|]. intros j Hj.
    pose proof (sumR_zero_terms (fun j => h j * w j) l) as T. cbn in T.
    specialize (T (fun j Hj => Rmult_le_pos _ _ (Rlt_le _ _ (Hh j Hj)) (Hw j Hj)) (eq_sym K) j Hj).
    specialize (Hh j Hj). apply Rmult_integral in T. destruct T; [lra|]. rewrite H. ring. }
  lra.
Qed.
Lemma E_quart a b (M : A -> nat -> R) : E l w (fun j => quart a b (M j)) = quart a b (fun k => E l w (fun j => M j k)).
Proof.
  unfold quart. rewrite !E_plus, !E_scal. reflexivity.
Qed.
End Avg.

(** ** dividing moments by powers of the dispersion *)
Lemma nrm_arr m v sh j : shp m = sh -> shp v = sh ->
  exists q, bop ndiv m (amap (fun d => npow d j) (amap nsqrt v)) = Ok q /\ shp q = sh /\
    forall k, inb k sh -> ent q k = ndiv (ent m k) (npow (nsqrt (ent v k)) j).
Proof. intros Hm Hv. exact (bop_same_is ndiv m (amap (fun d => npow d j) (amap nsqrt v)) sh Hm Hv). Qed.
Lemma nrm_pos M V j : 0 < V -> ndiv (Fin M) (npow (nsqrt (Fin V)) j) = Fin (M / sqrt V ^ j).
Proof.
  intros HV. rewrite nsqrt_Fin by lra. rewrite npow_Fin, ndiv_Fin; [reflexivity|]. apply pow_nonzero. pose proof (sqrt_lt_R0 _ HV). lra.
Qed.
Lemma nrm_zero j : (0 < j)%nat -> ndiv (Fin 0) (npow (nsqrt (Fin 0)) j) = NaN.
Proof. intros Hj. rewrite nsqrt_Fin, sqrt_0, npow_Fin, pow_i by (assumption || lra). apply zero_over_zero. Qed.
