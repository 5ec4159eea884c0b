(** * NumLemmas: facts about the scalar model. *)
From Coq Require Import Reals Lra Lia List Bool ZArith Psatz.
From Verif Require Import Num.
Import ListNotations.
Local Open Scope R_scope.

Lemma Rltb_true x y : Rltb x y = true <-> x < y.
Proof. unfold Rltb; destruct (Rlt_dec x y); split; intros; auto; discriminate. Qed.
Lemma Rltb_false x y : Rltb x y = false <-> ~ x < y.
Proof. unfold Rltb; destruct (Rlt_dec x y); split; intros; auto; try discriminate; try contradiction. Qed.
Lemma Rleb_true x y : Rleb x y = true <-> x <= y.
Proof. unfold Rleb; destruct (Rle_dec x y); split; intros; auto; discriminate. Qed.
Lemma Reqb_true x y : Reqb x y = true <-> x = y.
Proof. unfold Reqb; destruct (Req_EM_T x y); split; intros; auto; discriminate. Qed.
Lemma Reqb_false x y : Reqb x y = false <-> x <> y.
Proof. unfold Reqb; destruct (Req_EM_T x y); split; intros; auto; try discriminate; try contradiction. Qed.

(** ** sums of reals *)
Lemma sumR_app l1 l2 : sumR (l1 ++ l2) = sumR l1 + sumR l2.
Proof. induction l1; unfold sumR in *; cbn; [lra | rewrite IHl1; lra]. Qed.

Lemma sumR_nonneg l : (forall x, In x l -> 0 <= x) -> 0 <= sumR l.
Proof.
  induction l as [|a l IH]; cbn; intros H; [lra|].
  assert (0 <= a) by (apply H; auto).
  assert (0 <= sumR l) by (apply IH; intros; apply H; auto).
  unfold sumR in *; lra.
Qed.

Lemma sumR_map_seq n f : sumR (map f (seq 0 n)) = Sum n f.
Proof.
  induction n as [|n IH]; [reflexivity|].
  rewrite seq_S, map_app, sumR_app, IH; cbn; lra.
Qed.

Lemma sumR_scal k l : sumR (map (Rmult k) l) = k * sumR l.
Proof. induction l as [|a l IH]; cbn; [lra|]; unfold sumR in IH; rewrite IH; unfold sumR; lra. Qed.

Lemma Sum_ext n f g : (forall i, (i < n)%nat -> f i = g i) -> Sum n f = Sum n g.
Proof.
  induction n as [|n IH]; intros H; cbn; [reflexivity|].
  rewrite IH by (intros; apply H; lia). rewrite H by lia. reflexivity.
Qed.

Lemma Sum_nonneg n f : (forall i, (i < n)%nat -> 0 <= f i) -> 0 <= Sum n f.
Proof.
  induction n as [|n IH]; intros H; cbn; [lra|].
  assert (0 <= Sum n f) by (apply IH; intros; apply H; lia).
  assert (0 <= f n) by (apply H; lia). lra.
Qed.

Lemma Sum_plus n f g : Sum n (fun i => f i + g i) = Sum n f + Sum n g.
Proof. induction n as [|n IH]; cbn; [lra|rewrite IH; lra]. Qed.
Lemma Sum_minus n f g : Sum n (fun i => f i - g i) = Sum n f - Sum n g.
Proof. induction n as [|n IH]; cbn; [lra|rewrite IH; lra]. Qed.
Lemma Sum_scal n k f : Sum n (fun i => k * f i) = k * Sum n f.
Proof. induction n as [|n IH]; cbn; [lra|rewrite IH; lra]. Qed.
Lemma Sum_scal_r n k f : Sum n (fun i => f i * k) = Sum n f * k.
Proof. induction n as [|n IH]; cbn; [lra|rewrite IH; lra]. Qed.
Lemma Sum_const n k : Sum n (fun _ => k) = INR n * k.
Proof. induction n as [|n IH]; [cbn; lra|]. rewrite S_INR; cbn [Sum]; rewrite IH; lra. Qed.
Lemma Sum_0 n : Sum n (fun _ => 0) = 0.
Proof. rewrite Sum_const; lra. Qed.

Lemma Sum_swap n m f :
  Sum n (fun i => Sum m (fun j => f i j)) = Sum m (fun j => Sum n (fun i => f i j)).
Proof.
  induction n as [|n IH]; cbn.
  - rewrite Sum_0; reflexivity.
  - rewrite IH, <- Sum_plus; reflexivity.
Qed.

Lemma Sum_le n f g : (forall i, (i < n)%nat -> f i <= g i) -> Sum n f <= Sum n g.
Proof.
  induction n as [|n IH]; intros H; cbn; [lra|].
  assert (Sum n f <= Sum n g) by (apply IH; intros; apply H; lia).
  assert (f n <= g n) by (apply H; lia). lra.
Qed.

Lemma Sum_ge_term n f k : (k < n)%nat -> (forall i, (i < n)%nat -> 0 <= f i) -> f k <= Sum n f.
Proof.
  induction n as [|n IH]; intros Hk H; [lia|]; cbn.
  destruct (Nat.eq_dec k n) as [->|Hne].
  - assert (0 <= Sum n f) by (apply Sum_nonneg; intros; apply H; lia). lra.
  - assert (f k <= Sum n f) by (apply IH; [lia|intros; apply H; lia]).
    assert (0 <= f n) by (apply H; lia). lra.
Qed.

Lemma Sum_pos n f k : (k < n)%nat -> (forall i, (i < n)%nat -> 0 <= f i) -> 0 < f k -> 0 < Sum n f.
Proof. intros Hk H Hp. pose proof (Sum_ge_term n f k Hk H). lra. Qed.

Lemma Sum_zero_terms n f :
  (forall i, (i < n)%nat -> 0 <= f i) -> Sum n f = 0 -> forall i, (i < n)%nat -> f i = 0.
Proof.
  intros H H0 i Hi. pose proof (Sum_ge_term n f i Hi H). specialize (H i Hi). lra.
Qed.

Lemma Sum_single n f k : (k < n)%nat -> (forall i, (i < n)%nat -> i <> k -> f i = 0) -> Sum n f = f k.
Proof.
  induction n as [|n IH]; intros Hk H; [lia|]; cbn.
  destruct (Nat.eq_dec k n) as [->|Hne].
  - rewrite (Sum_ext n f (fun _ => 0)), Sum_0; [lra|intros; apply H; lia].
  - rewrite IH, (H n); [lra|lia|lia|lia|intros; apply H; lia].
Qed.

Lemma Sum_split n m f : Sum (n + m) f = Sum n f + Sum m (fun i => f (n + i)%nat).
Proof.
  induction m as [|m IH]; cbn.
  - rewrite Nat.add_0_r; lra.
  - rewrite Nat.add_succ_r; cbn; rewrite IH; lra.
Qed.

Lemma Sum_telescope n f : Sum n (fun i => f (S i) - f i) = f n - f 0%nat.
Proof. induction n as [|n IH]; cbn; [lra|rewrite IH; lra]. Qed.

(** ** logs of non-negative reals *)
(** [lg x] is np.log(x) for a finite x; below we use it for x >= 0 only, where
    it is [Fin (ln x)] or -inf. *)
Definition lg (x : R) : num := nlog (Fin x).

Lemma lg_pos x : 0 < x -> lg x = Fin (ln x).
Proof. intros H; unfold lg, nlog; destruct (Rlt_dec 0 x); [reflexivity|contradiction]. Qed.
Lemma lg_0 : lg 0 = NInf.
Proof.
  unfold lg, nlog; destruct (Rlt_dec 0 0) as [H|H]; [lra|].
  destruct (Req_EM_T 0 0); [reflexivity|contradiction].
Qed.
Lemma lg_neg x : x < 0 -> lg x = NaN.
Proof.
  intros H; unfold lg, nlog; destruct (Rlt_dec 0 x); [lra|].
  destruct (Req_EM_T x 0); [lra|reflexivity].
Qed.

Lemma nlog_Fin x : nlog (Fin x) = lg x. Proof. reflexivity. Qed.

Lemma nexp_lg x : 0 <= x -> nexp (lg x) = Fin x.
Proof.
  intros [H|<-].
  - rewrite lg_pos by assumption; cbn; rewrite exp_ln by assumption; reflexivity.
  - rewrite lg_0; reflexivity.
Qed.

Lemma nadd_lg x y : 0 <= x -> 0 <= y -> nadd (lg x) (lg y) = lg (x * y).
Proof.
  intros [Hx|<-] [Hy|<-].
  - rewrite !lg_pos; auto using Rmult_lt_0_compat. cbn; rewrite ln_mult; auto.
  - rewrite lg_0, (lg_pos x), Rmult_0_r, lg_0 by assumption; reflexivity.
  - rewrite lg_0, (lg_pos y), Rmult_0_l, lg_0 by assumption; reflexivity.
  - rewrite Rmult_0_l, lg_0; reflexivity.
Qed.

Lemma nsub_lg x y : 0 <= x -> 0 < y -> nsub (lg x) (lg y) = lg (x / y).
Proof.
  intros [Hx|<-] Hy; unfold nsub.
  - rewrite !lg_pos by (auto; unfold Rdiv; apply Rmult_lt_0_compat; auto using Rinv_0_lt_compat).
    cbn. unfold Rdiv; rewrite ln_mult, ln_Rinv by (auto using Rinv_0_lt_compat); reflexivity.
  - rewrite (lg_pos y), lg_0 by assumption. unfold Rdiv; rewrite Rmult_0_l, lg_0; reflexivity.
Qed.

(** conditioning on an impossible event: -inf - -inf = nan *)
Lemma nsub_lg_00 : nsub (lg 0) (lg 0) = NaN.
Proof. rewrite lg_0; reflexivity. Qed.

Lemma nsub_lg_x0 x : 0 < x -> nsub (lg x) (lg 0) = PInf.
Proof. intros; rewrite lg_0, lg_pos by assumption; reflexivity. Qed.

Lemma nadd_lg_Fin x r : 0 <= x -> nadd (lg x) (Fin r) = lg (x * exp r).
Proof.
  intros H. replace (Fin r) with (lg (exp r)).
  - rewrite nadd_lg; auto. left; apply exp_pos.
  - rewrite lg_pos, ln_exp by apply exp_pos; reflexivity.
Qed.

Lemma lg_not_nan x : 0 <= x -> lg x <> NaN.
Proof. intros [H|<-]; [rewrite lg_pos by assumption|rewrite lg_0]; discriminate. Qed.

Lemma lg_inj x y : 0 <= x -> 0 <= y -> lg x = lg y -> x = y.
Proof.
  intros Hx Hy H. apply (f_equal nexp) in H. rewrite !nexp_lg in H by assumption.
  congruence.
Qed.

Lemma nsum_Fin l : nsum (map Fin l) = Fin (sumR l).
Proof. induction l as [|a l IH]; [reflexivity|]. cbn; unfold nsum in IH; rewrite IH; reflexivity. Qed.

Lemma nsum_map_Fin {A} (f : A -> num) (g : A -> R) l :
  (forall x, In x l -> f x = Fin (g x)) -> nsum (map f l) = Fin (sumR (map g l)).
Proof.
  intros H. rewrite <- nsum_Fin, map_map. f_equal. apply map_ext_in; exact H.
Qed.

Lemma nsum_nan l : In NaN l -> nsum l = NaN.
Proof.
  induction l as [|a l IH]; cbn; [contradiction|].
  intros [->|H]; [reflexivity|]. unfold nsum in IH; rewrite (IH H). destruct a; reflexivity.
Qed.

(** The shift by the (finite) maximum cancels exactly. *)
Lemma lse_shift (xs : list R) r :
  (forall x, In x xs -> 0 <= x) ->
  nadd (nlog (nsum (map (fun x => nexp (nsub x (Fin r))) (map lg xs)))) (Fin r)
  = lg (sumR xs).
Proof.
  intros H.
  rewrite map_map.
  rewrite (nsum_map_Fin _ (fun x => exp (- r) * x)).
  - rewrite <- (map_map (fun x => x) (fun x => exp (- r) * x)), map_id.
    rewrite (sumR_scal (exp (- r))). rewrite nlog_Fin.
    pose proof (sumR_nonneg xs H) as Hs.
    rewrite nadd_lg_Fin.
    + f_equal. rewrite Rmult_comm, <- Rmult_assoc, <- exp_plus.
      replace (r + - r) with 0 by lra. rewrite exp_0; lra.
    + apply Rmult_le_pos; [left; apply exp_pos|assumption].
  - intros x Hx. unfold nsub; cbn [nneg].
    rewrite nadd_lg_Fin by auto.
    rewrite nexp_lg; [f_equal; ring|].
    apply Rmult_le_pos; [auto|left; apply exp_pos].
Qed.

(** logsumexp of the logs of non-negative numbers is the log of their sum. *)
Lemma lse_lg xs : (forall x, In x xs -> 0 <= x) -> lse (map lg xs) = lg (sumR xs).
Proof.
  intros H. unfold lse. destruct (amax (map lg xs)) as [r| | |]; cbn [is_fin];
    apply lse_shift; assumption.
Qed.

Lemma lse_map_lg {A} (f : A -> num) (g : A -> R) l :
  (forall a, In a l -> f a = lg (g a)) -> (forall a, In a l -> 0 <= g a) ->
  lse (map f l) = lg (sumR (map g l)).
Proof.
  intros Hf Hg. rewrite <- lse_lg.
  - rewrite map_map. f_equal. apply map_ext_in; assumption.
  - intros x Hx. apply in_map_iff in Hx as [a [<- Ha]]; auto.
Qed.

(** logsumexp with weights [1,-1]: log of a difference. *)
Lemma lse_b_diff x y :
  0 <= y -> 0 <= x -> lse_b [(lg x, Fin 1); (lg y, Fin (-1))] = lg (x - y).
Proof.
  intros Hy Hx. unfold lse_b. cbn [map fst snd].
  unfold neqb, Reqb.
  destruct (Req_EM_T 1 0); [lra|]. destruct (Req_EM_T (-1) 0); [lra|].
  set (m := amax _). clearbody m.
  assert (Hm : exists r, (if is_fin m then m else Fin 0) = Fin r).
  { destruct m; cbn; eauto. }
  destruct Hm as [r Hr]. rewrite Hr. cbn [map fst snd].
  unfold nsub; cbn [nneg].
  rewrite !nadd_lg_Fin by assumption.
  rewrite !nexp_lg by (apply Rmult_le_pos; [assumption|left; apply exp_pos]).
  cbn [nmul nsum fold_right nadd].
  replace (1 * (x * exp (- r)) + (-1 * (y * exp (- r)) + 0)) with ((x - y) * exp (- r)) by ring.
  pose proof (exp_pos (- r)) as He.
  destruct (Rtotal_order x y) as [Hlt|[Heq|Hgt]].
  - rewrite lg_neg by lra. rewrite nlog_Fin, lg_neg by nra. reflexivity.
  - subst y. replace ((x - x) * exp (- r)) with 0 by ring.
    replace (x - x) with 0 by ring. rewrite nlog_Fin, lg_0; reflexivity.
  - rewrite nlog_Fin, nadd_lg_Fin by nra. f_equal.
    rewrite Rmult_assoc, <- exp_plus. replace (- r + r) with 0 by lra. rewrite exp_0; lra.
Qed.

(** ** powers *)
Lemma npow_S a j : npow a (S j) = match j with O => a | _ => nmul a (npow a j) end.
Proof. destruct j; reflexivity. Qed.

Lemma npow_Fin x j : npow (Fin x) j = Fin (x ^ j).
Proof.
  induction j as [|j IH]; [reflexivity|]. rewrite npow_S.
  destruct j as [|j]; [cbn; f_equal; ring|]. rewrite IH; reflexivity.
Qed.

Lemma nsqrt_Fin x : 0 <= x -> nsqrt (Fin x) = Fin (sqrt x).
Proof. intros H; unfold nsqrt; destruct (Rle_dec 0 x); [reflexivity|contradiction]. Qed.

Lemma ndiv_Fin x y : y <> 0 -> ndiv (Fin x) (Fin y) = Fin (x / y).
Proof. intros H; unfold ndiv; destruct (Req_EM_T y 0); [contradiction|reflexivity]. Qed.
Lemma nadd_Fin x y : nadd (Fin x) (Fin y) = Fin (x + y). Proof. reflexivity. Qed.
Lemma nsub_Fin x y : nsub (Fin x) (Fin y) = Fin (x - y). Proof. reflexivity. Qed.
Lemma nmul_Fin x y : nmul (Fin x) (Fin y) = Fin (x * y). Proof. reflexivity. Qed.

Lemma nmul_nan_l a : nmul NaN a = NaN. Proof. reflexivity. Qed.
Lemma nmul_nan_r a : nmul a NaN = NaN. Proof. destruct a; reflexivity. Qed.
Lemma nadd_nan_l a : nadd NaN a = NaN. Proof. reflexivity. Qed.
Lemma nadd_nan_r a : nadd a NaN = NaN. Proof. destruct a; reflexivity. Qed.
Lemma ndiv_nan_l a : ndiv NaN a = NaN. Proof. reflexivity. Qed.
Lemma ndiv_nan_r a : ndiv a NaN = NaN. Proof. destruct a; reflexivity. Qed.
Lemma nsub_nan_l a : nsub NaN a = NaN. Proof. reflexivity. Qed.
Lemma nsub_nan_r a : nsub a NaN = NaN. Proof. destruct a; reflexivity. Qed.

Lemma nmax_nan_l a : nmax NaN a = NaN. Proof. reflexivity. Qed.
Lemma nmax_nan_r a : nmax a NaN = NaN. Proof. destruct a; reflexivity. Qed.

Lemma lse_nan l : In NaN l -> lse l = NaN.
Proof.
  intros H. unfold lse. set (m := if is_fin _ then _ else _). clearbody m.
  rewrite (nsum_nan (map _ l)); [reflexivity|].
  apply in_map_iff; exists NaN; split; [reflexivity|assumption].
Qed.
