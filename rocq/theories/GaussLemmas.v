(** * GaussLemmas: moments of a normal distribution by recursion. *)
From Coq Require Import Reals Lra Lia Arith FunctionalExtensionality.
From Verif Require Import GaussSpec.
Local Open Scope R_scope.

(** ** integrals *)
Lemma integral_unique f a b I J : integral f a b I -> integral f a b J -> I = J.
Proof. intros (p & <-) (q & <-). apply RiemannInt_P5. Qed.
Lemma integral_cont f a b : a <= b -> continuity f -> exists I, integral f a b I.
Proof.
  intros Hab Hf. assert (pr : Riemann_integrable f a b) by (apply continuity_implies_RiemannInt; [assumption|intros; apply Hf]).
  exists (RiemannInt pr), pr. reflexivity.
Qed.
Lemma integral_lin f g a b l I J : integral f a b I -> integral g a b J -> integral (fun x => f x + l * g x) a b (I + l * J).
Proof.
  intros (p & <-) (q & <-). exists (RiemannInt_P10 l p q). apply RiemannInt_P13.
Qed.
Lemma integral_ext f g a b I : (forall x, f x = g x) -> integral f a b I -> integral g a b I.
Proof. intros H. replace g with f by (apply functional_extensionality; assumption). auto. Qed.
Lemma integral_mono f g a b I J : a <= b -> integral f a b I -> integral g a b J -> (forall x, a < x < b -> f x <= g x) -> I <= J.
Proof. intros Hab (p & <-) (q & <-) H. apply RiemannInt_P19; assumption. Qed.
Lemma integral_const c a b : integral (fun _ => c) a b (c * (b - a)).
Proof. exists (RiemannInt_P14 a b c). apply RiemannInt_P15. Qed.
Lemma integral_split f a b c I J K : integral f a b I -> integral f b c J -> integral f a c K -> K = I + J.
Proof. intros (p & <-) (q & <-) (r & <-). symmetry. apply RiemannInt_P26. Qed.
Lemma integral_derive f f' a b : a <= b -> (forall x, derivable_pt_lim f x (f' x)) -> continuity f' -> integral f' a b (f b - f a).
Proof.
  intros Hab Hd Hc.
  assert (d : derivable f) by (intros x; exists (f' x); apply Hd).
  assert (E : derive f d = f').
  { apply functional_extensionality. intros x. unfold derive. apply derive_pt_eq_0. apply Hd. }
  assert (Cd : continuity (derive f d)) by (rewrite E; exact Hc).
  pose (F := @mkC1 f d Cd).
  assert (pr : Riemann_integrable (derive F (diff0 F)) a b).
  { apply continuity_implies_RiemannInt; [assumption|]. intros. apply (cont1 F). }
  pose proof (FTC_Riemann F pr) as HF. cbn [c1 F diff0] in pr, HF.
  revert pr HF. change (derive F (diff0 F)) with (derive f d). rewrite E. intros pr HF. exists pr. exact HF.
Qed.

(** ** the recursion *)
Fixpoint gmom2 (d s : R) (j : nat) : R * R :=  (* moments j and j+1 *)
  match j with
  | O => (1, d)
  | S k => let (a, b) := gmom2 d s k in (b, d * b + INR (S k) * s ^ 2 * a)
  end.
Definition gmom (d s : R) (j : nat) : R := fst (gmom2 d s j).
Lemma gmom_0 d s : gmom d s 0 = 1. Proof. reflexivity. Qed.
Lemma gmom_1 d s : gmom d s 1 = d. Proof. reflexivity. Qed.
Lemma gmom_SS d s j : gmom d s (S (S j)) = d * gmom d s (S j) + INR (S j) * s ^ 2 * gmom d s j.
Proof. unfold gmom. cbn [gmom2]. destruct (gmom2 d s j) as [a b]. reflexivity. Qed.

Section G.
Context (mu s c : R) (Hs : 0 < s).
Notation phi := (gauss mu s).
Definition hj (j : nat) (v : R) : R := (v - c) ^ j * phi v.

Lemma phi_derive v : derivable_pt_lim phi v (phi v * (- (v - mu) / s ^ 2)).
Proof.
  unfold gauss.
  assert (H1 : derivable_pt_lim (fun v => - (v - mu) ^ 2 / (2 * s ^ 2)) v (- (v - mu) / s ^ 2)).
  { replace (- (v - mu) / s ^ 2) with (- / (2 * s ^ 2) * (1 * (v - mu) + (v - mu) * 1)) by (field; lra).
    replace (fun v => - (v - mu) ^ 2 / (2 * s ^ 2)) with (mult_real_fct (- / (2 * s ^ 2)) (mult_fct (id - fct_cte mu)%F (id - fct_cte mu)%F)).
    2:{ apply functional_extensionality. intros x. unfold mult_real_fct, mult_fct, minus_fct, id, fct_cte. field. lra. }
    apply derivable_pt_lim_scal.
    assert (H0 : derivable_pt_lim (id - fct_cte mu)%F v 1).
    { replace 1 with (1 - 0) by ring. apply derivable_pt_lim_minus; [apply derivable_pt_lim_id|apply derivable_pt_lim_const]. }
    apply (derivable_pt_lim_mult _ _ v 1 1 H0 H0). }
  exact (derivable_pt_lim_comp _ exp v _ _ H1 (derivable_pt_lim_exp _)).
Qed.
Lemma phi_cont : continuity phi.
Proof. intros v. apply derivable_continuous_pt. eexists. apply phi_derive. Qed.
Lemma pow_derive j v : derivable_pt_lim (fun v => (v - c) ^ j) v (INR j * (v - c) ^ pred j).
Proof.
  assert (H0 : derivable_pt_lim (id - fct_cte c)%F v 1).
  { replace 1 with (1 - 0) by ring. apply derivable_pt_lim_minus; [apply derivable_pt_lim_id|apply derivable_pt_lim_const]. }
  pose proof (derivable_pt_lim_comp _ (fun y => y ^ j) v _ _ H0 (derivable_pt_lim_pow ((id - fct_cte c)%F v) j)) as H.
  rewrite Rmult_1_r in H. exact H.
Qed.
Lemma hj_derive j v : derivable_pt_lim (hj j) v (INR j * (v - c) ^ pred j * phi v + (v - c) ^ j * (phi v * (- (v - mu) / s ^ 2))).
Proof. exact (derivable_pt_lim_mult _ _ v _ _ (pow_derive j v) (phi_derive v)). Qed.
Lemma hj_cont j : continuity (hj j).
Proof. intros v. apply derivable_continuous_pt. eexists. apply hj_derive. Qed.

Lemma cont_lin f g l : continuity f -> continuity g -> continuity (fun x => f x + l * g x).
Proof.
  intros Hf Hg x. apply (continuity_pt_plus f (mult_real_fct l g)); [apply Hf|]. apply continuity_pt_scal, Hg.
Qed.

(** integral of h_{j+2} by parts *)
Lemma parts j a b I0 I1 I2 : a <= b -> integral (hj j) a b I0 -> integral (hj (S j)) a b I1 -> integral (hj (S (S j))) a b I2 ->
  I2 = (mu - c) * I1 + INR (S j) * s ^ 2 * I0 - s ^ 2 * (hj (S j) b - hj (S j) a).
Proof.
  intros Hab H0 H1 H2.
  (* derivative of h_{j+1} in terms of h *)
  assert (D : forall v, derivable_pt_lim (hj (S j)) v (INR (S j) * hj j v + (mu - c) / s ^ 2 * hj (S j) v + - / s ^ 2 * hj (S (S j)) v)).
  { intros v. pose proof (hj_derive (S j) v) as K. cbn [pred] in K.
    replace (INR (S j) * hj j v + (mu - c) / s ^ 2 * hj (S j) v + - / s ^ 2 * hj (S (S j)) v) with
      (INR (S j) * (v - c) ^ j * phi v + (v - c) ^ S j * (phi v * (- (v - mu) / s ^ 2))); [exact K|].
    unfold hj. rewrite (tech_pow_Rmult (v - c) j) || idtac. rewrite <- !tech_pow_Rmult. field. lra. }
  set (f' := fun v => INR (S j) * hj j v + (mu - c) / s ^ 2 * hj (S j) v + - / s ^ 2 * hj (S (S j)) v).
  assert (Z : integral (fun _ => 0) a b 0) by (pose proof (integral_const 0 a b) as K; rewrite Rmult_0_l in K; exact K).
  pose proof (integral_lin _ _ a b (INR (S j)) _ _ Z H0) as A0.
  pose proof (integral_lin _ _ a b ((mu - c) / s ^ 2) _ _ A0 H1) as A1.
  pose proof (integral_lin _ _ a b (- / s ^ 2) _ _ A1 H2) as A2. cbn beta in A2.
  assert (E : integral f' a b (hj (S j) b - hj (S j) a)).
  { apply integral_derive; [assumption|exact D|]. unfold f'.
    apply cont_lin; [|apply hj_cont]. apply cont_lin; [|apply hj_cont].
    intros x. apply (continuity_pt_scal (hj j)). apply hj_cont. }
  assert (A3 : integral f' a b (0 + INR (S j) * I0 + (mu - c) / s ^ 2 * I1 + - / s ^ 2 * I2)).
  { eapply integral_ext; [|exact A2]. intros x. unfold f'. ring. }
  pose proof (integral_unique _ _ _ _ _ E A3) as K. rewrite K. field. lra.
Qed.
Lemma parts0 a b I0 I1 : a <= b -> integral (hj 0) a b I0 -> integral (hj 1) a b I1 ->
  I1 = (mu - c) * I0 - s ^ 2 * (hj 0 b - hj 0 a).
Proof.
  intros Hab H0 H1.
  assert (D : forall v, derivable_pt_lim (hj 0) v ((mu - c) / s ^ 2 * hj 0 v + - / s ^ 2 * hj 1 v)).
  { intros v. pose proof (hj_derive 0 v) as K. cbn [pred INR] in K.
    replace ((mu - c) / s ^ 2 * hj 0 v + - / s ^ 2 * hj 1 v) with
      (0 * (v - c) ^ 0 * phi v + (v - c) ^ 0 * (phi v * (- (v - mu) / s ^ 2))); [exact K|].
    unfold hj. rewrite pow_1, pow_O. field. lra. }
  set (f' := fun v => (mu - c) / s ^ 2 * hj 0 v + - / s ^ 2 * hj 1 v).
  assert (Z : integral (fun _ => 0) a b 0) by (pose proof (integral_const 0 a b) as K; rewrite Rmult_0_l in K; exact K).
  pose proof (integral_lin _ _ a b ((mu - c) / s ^ 2) _ _ Z H0) as A1.
  pose proof (integral_lin _ _ a b (- / s ^ 2) _ _ A1 H1) as A2. cbn beta in A2.
  assert (E : integral f' a b (hj 0 b - hj 0 a)).
  { apply integral_derive; [assumption|exact D|]. unfold f'. apply cont_lin; [|apply hj_cont].
    intros x. apply (continuity_pt_scal (hj 0)). apply hj_cont. }
  assert (A3 : integral f' a b (0 + (mu - c) / s ^ 2 * I0 + - / s ^ 2 * I1)).
  { eapply integral_ext; [|exact A2]. intros x. unfold f'. ring. }
  pose proof (integral_unique _ _ _ _ _ E A3) as K. rewrite K. field. lra.
Qed.

(** ** the boundary terms vanish *)
Lemma exp_ge_pow k y : (0 < k)%nat -> 0 <= y -> (y / INR k) ^ k <= exp y.
Proof.
  intros Hk Hy. assert (HK : 0 < INR k) by (apply lt_0_INR; lia).
  replace (exp y) with (exp (y / INR k) ^ k).
  - apply pow_incr. split; [apply Rmult_le_pos; [assumption|left; apply Rinv_0_lt_compat; assumption]|].
    pose proof (exp_ineq1_le (y / INR k)). lra.
  - rewrite <- Rpower_pow by apply exp_pos. unfold Rpower. rewrite ln_exp. f_equal. field. lra.
Qed.

Definition Kj (j : nat) : R := 2 ^ j * (2 * s ^ 2 * INR (S j)) ^ S j.
Lemma Kj_pos j : 0 < Kj j.
Proof.
  unfold Kj. apply Rmult_lt_0_compat; [apply pow_lt; lra|]. apply pow_lt.
  apply Rmult_lt_0_compat; [|apply lt_0_INR; lia]. apply Rmult_lt_0_compat; [lra|apply pow_lt; assumption].
Qed.
Lemma hj_bound j v : 1 <= Rabs (v - mu) -> Rabs (mu - c) <= Rabs (v - mu) -> Rabs (hj j v) <= Kj j / Rabs (v - mu).
Proof.
  intros H1 H2. set (u := Rabs (v - mu)) in *.
  assert (Hu2 : (v - mu) ^ 2 = u ^ 2) by (unfold u; rewrite pow2_abs; reflexivity).
  assert (Hphi : phi v <= (2 * s ^ 2 * INR (S j)) ^ S j / u ^ (2 * S j)).
  { unfold gauss. rewrite Hu2. replace (- u ^ 2 / (2 * s ^ 2)) with (- (u ^ 2 / (2 * s ^ 2))) by (field; lra). rewrite exp_Ropp.
    pose proof (exp_ge_pow (S j) (u ^ 2 / (2 * s ^ 2)) ltac:(lia)) as K.
    assert (Hy : 0 < u ^ 2 / (2 * s ^ 2)) by (apply Rdiv_lt_0_compat; [apply pow_lt; lra|pose proof (pow_lt s 2 Hs); lra]).
    specialize (K (Rlt_le _ _ Hy)).
    assert (HN : 0 < INR (S j)) by (apply lt_0_INR; lia).
    assert (Hz : 0 < u ^ 2 / (2 * s ^ 2) / INR (S j)) by (apply Rdiv_lt_0_compat; assumption).
    replace ((2 * s ^ 2 * INR (S j)) ^ S j / u ^ (2 * S j)) with (/ (u ^ 2 / (2 * s ^ 2) / INR (S j)) ^ S j).
    - apply Rinv_le_contravar; [apply pow_lt; assumption|exact K].
    - rewrite pow_mult. unfold Rdiv. rewrite !Rpow_mult_distr, !pow_inv, !Rpow_mult_distr, !Rinv_mult, !Rinv_inv.
      ring. }
  unfold hj. rewrite Rabs_mult, <- RPow_abs.
  assert (Hp : 0 < phi v) by apply exp_pos. rewrite (Rabs_right (phi v)) by lra.
  assert (Hb : Rabs (v - c) <= 2 * u).
  { replace (v - c) with ((v - mu) + (mu - c)) by ring. eapply Rle_trans; [apply Rabs_triang|]. fold u. lra. }
  apply Rle_trans with ((2 * u) ^ j * ((2 * s ^ 2 * INR (S j)) ^ S j / u ^ (2 * S j))).
  { apply Rmult_le_compat; [apply pow_le, Rabs_pos|lra|apply pow_incr; split; [apply Rabs_pos|exact Hb]|exact Hphi]. }
  unfold Kj. rewrite Rpow_mult_distr.
  replace (2 * S j)%nat with (j + (S j + 1))%nat by lia. rewrite (pow_add u j), (pow_add u (S j)), pow_1.
  set (Q := (2 * s ^ 2 * INR (S j)) ^ S j).
  assert (HQ : 0 < Q).
  { apply pow_lt. apply Rmult_lt_0_compat; [|apply lt_0_INR; lia]. pose proof (pow_lt s 2 Hs). lra. }
  assert (Uj : 0 < u ^ j) by (apply pow_lt; lra). assert (US : 1 <= u ^ S j) by (apply pow_R1_Rle; assumption).
  replace (2 ^ j * u ^ j * (Q / (u ^ j * (u ^ S j * u)))) with (2 ^ j * Q / u * / u ^ S j) by (field; repeat split; try lra).
  rewrite <- (Rmult_1_r (2 ^ j * Q / u)) at 2. apply Rmult_le_compat_l.
  - apply Rlt_le, Rdiv_lt_0_compat; [|lra]. apply Rmult_lt_0_compat; [apply pow_lt; lra|assumption].
  - rewrite <- Rinv_1. apply Rinv_le_contravar; lra.
Qed.

Lemma boundary j (e : R) : (e = 1 \/ e = -1) -> Un_cv (fun n => hj j (e * INR n)) 0.
Proof.
  intros He eps Heps.
  destruct (archimed (Kj j / eps + Rabs mu + Rabs (mu - c) + 1)) as [HA _].
  pose proof (Kj_pos j) as HK. assert (HKe : 0 < Kj j / eps) by (apply Rdiv_lt_0_compat; assumption).
  pose proof (Rabs_pos mu). pose proof (Rabs_pos (mu - c)).
  set (z := up (Kj j / eps + Rabs mu + Rabs (mu - c) + 1)) in *.
  exists (Z.to_nat z). intros n Hn.
  assert (Hz : IZR z <= INR n).
  { rewrite INR_IZR_INZ. apply IZR_le. lia. }
  unfold R_dist. rewrite Rminus_0_r.
  assert (Hu : INR n - Rabs mu <= Rabs (e * INR n - mu)).
  { eapply Rle_trans; [|apply Rabs_triang_inv]. rewrite Rabs_mult.
    replace (Rabs e) with 1 by (destruct He as [-> | ->]; [rewrite Rabs_R1; reflexivity|rewrite Rabs_left by lra; ring]).
    rewrite (Rabs_right (INR n)) by (apply Rle_ge, pos_INR). lra. }
  eapply Rle_lt_trans; [apply hj_bound; lra|].
  apply (Rmult_lt_reg_r (Rabs (e * INR n - mu))); [lra|]. unfold Rdiv. rewrite Rmult_assoc, Rinv_l, Rmult_1_r by lra.
  apply Rlt_le_trans with (eps * (Kj j / eps + 1)); [|apply Rmult_le_compat_l; lra].
  replace (eps * (Kj j / eps + 1)) with (Kj j + eps) by (field; lra). lra.
Qed.

(** ** ratios converge *)
Lemma ex_int j n : exists I, integral (hj j) (- INR n) (INR n) I.
Proof. apply integral_cont; [|apply hj_cont]. pose proof (pos_INR n). lra. Qed.

Lemma phi_below : exists m, 0 < m /\ forall n I, (1 <= n)%nat -> integral phi (- INR n) (INR n) I -> m <= I.
Proof.
  exists (exp (- (1 + Rabs mu) ^ 2 / (2 * s ^ 2)) * 2). split; [pose proof (exp_pos (- (1 + Rabs mu) ^ 2 / (2 * s ^ 2))); lra|].
  intros n I Hn HI. assert (H1 : 1 <= INR n) by (change 1 with (INR 1); apply le_INR; assumption).
  destruct (integral_cont phi (- INR n) (- 1) ltac:(lra) phi_cont) as (A & HA).
  destruct (integral_cont phi (- 1) 1 ltac:(lra) phi_cont) as (B & HB).
  destruct (integral_cont phi (- INR n) 1 ltac:(lra) phi_cont) as (AB & HAB).
  destruct (integral_cont phi 1 (INR n) ltac:(lra) phi_cont) as (C & HC).
  rewrite (integral_split _ _ _ _ _ _ _ HAB HC HI), (integral_split _ _ _ _ _ _ _ HA HB HAB).
  assert (PA : 0 <= A).
  { pose proof (integral_const 0 (- INR n) (- 1)) as Z. rewrite Rmult_0_l in Z.
    refine (integral_mono _ _ _ _ _ _ _ Z HA _); [lra|]. intros. left. apply exp_pos. }
  assert (PC : 0 <= C).
  { pose proof (integral_const 0 1 (INR n)) as Z. rewrite Rmult_0_l in Z.
    refine (integral_mono _ _ _ _ _ _ _ Z HC _); [lra|]. intros. left. apply exp_pos. }
  enough (exp (- (1 + Rabs mu) ^ 2 / (2 * s ^ 2)) * (1 - - 1) <= B) by lra.
  refine (integral_mono _ _ _ _ _ _ _ (integral_const _ _ _) HB _); [lra|]. intros x Hx. unfold gauss.
  assert (Hsq : (x - mu) ^ 2 <= (1 + Rabs mu) ^ 2).
  { rewrite <- (pow2_abs (x - mu)). apply pow_incr. split; [apply Rabs_pos|].
    unfold Rminus. eapply Rle_trans; [apply Rabs_triang|]. rewrite Rabs_Ropp. apply Rplus_le_compat_r.
    apply Rabs_le. lra. }
  pose proof (pow_lt s 2 Hs) as H2.
  destruct (Req_dec ((x - mu) ^ 2) ((1 + Rabs mu) ^ 2)) as [->|Hne]; [lra|].
  left. apply exp_increasing. apply Rmult_lt_compat_r; [apply Rinv_0_lt_compat; lra|]. lra.
Qed.

Lemma Un_cv_div_bounded (u D : nat -> R) m : 0 < m -> (forall n, (1 <= n)%nat -> m <= D n) -> Un_cv u 0 -> Un_cv (fun n => u n / D n) 0.
Proof.
  intros Hm HD Hu eps He. destruct (Hu (eps * m) ltac:(apply Rmult_lt_0_compat; assumption)) as (N & HN).
  exists (S N). intros n Hn. specialize (HN n ltac:(lia)). unfold R_dist in *. rewrite Rminus_0_r in *.
  specialize (HD n ltac:(lia)). unfold Rdiv. rewrite Rabs_mult, Rabs_inv, (Rabs_right (D n)) by lra.
  apply (Rmult_lt_reg_r (D n)); [lra|]. rewrite Rmult_assoc, Rinv_l, Rmult_1_r by lra.
  apply Rlt_le_trans with (eps * m); [assumption|]. apply Rmult_le_compat_l; lra.
Qed.
Lemma Un_cv_ext_from (u v : nat -> R) l : (forall n, (1 <= n)%nat -> u n = v n) -> Un_cv u l -> Un_cv v l.
Proof.
  intros H Hu eps He. destruct (Hu eps He) as (N & HN). exists (S N). intros n Hn.
  rewrite <- H by lia. apply HN. lia.
Qed.
Lemma Un_cv_const k : Un_cv (fun _ => k) k.
Proof. intros eps He. exists 0%nat. intros. unfold R_dist. rewrite Rminus_diag_eq, Rabs_R0 by reflexivity. assumption. Qed.

Section Seq.
Context (D : nat -> R) (HD : forall n, integral phi (- INR n) (INR n) (D n)).

Lemma D_pos n : (1 <= n)%nat -> 0 < D n.
Proof. intros Hn. destruct phi_below as (m & Hm & K). specialize (K n (D n) Hn (HD n)). lra. Qed.
Lemma bdry_cv j : Un_cv (fun n => s ^ 2 * (hj j (INR n) - hj j (- INR n)) / D n) 0.
Proof.
  destruct phi_below as (m & Hm & K). apply (Un_cv_div_bounded _ D m Hm (fun n Hn => K n (D n) Hn (HD n))).
  replace 0 with (s ^ 2 * (0 - 0)) by ring. apply CV_mult; [apply Un_cv_const|]. apply CV_minus.
  - eapply Un_cv_ext_from; [|apply (boundary j 1); left; reflexivity]. intros n _. cbn beta. rewrite Rmult_1_l. reflexivity.
  - eapply Un_cv_ext_from; [|apply (boundary j (-1)); right; reflexivity]. intros n _. cbn beta. f_equal. ring.
Qed.

Lemma moments_cv : forall (N : nat -> nat -> R), (forall j n, integral (hj j) (- INR n) (INR n) (N j n)) ->
  forall j, Un_cv (fun n => N j n / D n) (gmom (mu - c) s j) /\ Un_cv (fun n => N (S j) n / D n) (gmom (mu - c) s (S j)).
Proof.
  intros N HN.
  assert (N0 : forall n, N 0%nat n = D n).
  { intros n. apply (integral_unique phi (- INR n) (INR n)); [|apply HD].
    eapply integral_ext; [|apply (HN 0%nat)]. intros x. unfold hj. rewrite pow_O. ring. }
  assert (LE : forall n, - INR n <= INR n) by (intros n; pose proof (pos_INR n); lra).
  induction j as [|j [IH1 IH2]].
  - split.
    + rewrite gmom_0. apply (Un_cv_ext_from (fun _ => 1)); [|apply Un_cv_const].
      intros n Hn. rewrite N0. pose proof (D_pos n Hn). field. lra.
    + rewrite gmom_1.
      apply (Un_cv_ext_from (fun n => (mu - c) - s ^ 2 * (hj 0 (INR n) - hj 0 (- INR n)) / D n)).
      * intros n Hn. pose proof (D_pos n Hn). rewrite (parts0 _ _ _ _ (LE n) (HN 0%nat n) (HN 1%nat n)), N0. field. lra.
      * pose proof (CV_minus _ _ _ _ (Un_cv_const (mu - c)) (bdry_cv 0)) as K. rewrite Rminus_0_r in K. exact K.
  - split; [exact IH2|]. rewrite gmom_SS.
    apply (Un_cv_ext_from (fun n => (mu - c) * (N (S j) n / D n) + INR (S j) * s ^ 2 * (N j n / D n)
             - s ^ 2 * (hj (S j) (INR n) - hj (S j) (- INR n)) / D n)).
    + intros n Hn. pose proof (D_pos n Hn). rewrite (parts j _ _ _ _ _ (LE n) (HN j n) (HN (S j) n) (HN (S (S j)) n)). field. lra.
    + pose proof (CV_minus _ _ _ _ (CV_plus _ _ _ _ (CV_mult _ _ _ _ (Un_cv_const (mu - c)) IH2)
        (CV_mult _ _ _ _ (Un_cv_const (INR (S j) * s ^ 2)) IH1)) (bdry_cv (S j))) as K.
      rewrite Rminus_0_r in K. exact K.
Qed.
End Seq.

Lemma sym_le n : - INR n <= INR n.
Proof. pose proof (pos_INR n). lra. Qed.
Definition value (f : R -> R) (Hf : continuity f) (n : nat) : R :=
  RiemannInt (continuity_implies_RiemannInt (sym_le n) (fun x _ => Hf x)).
Lemma value_ok f Hf n : integral f (- INR n) (INR n) (value f Hf n).
Proof. eexists. reflexivity. Qed.

Lemma gmom_ok j : gauss_moment mu s c j (gmom (mu - c) s j).
Proof.
  exists (value (hj j) (hj_cont j)), (value phi phi_cont).
  split; [intros n; apply value_ok|]. split; [intros n; apply value_ok|].
  exact (proj1 (moments_cv (value phi phi_cont) (value_ok phi phi_cont) (fun j => value (hj j) (hj_cont j))
    (fun j n => value_ok (hj j) (hj_cont j) n) j)).
Qed.
End G.

(** the moment is determined *)
Lemma gauss_moment_unique mu s c j M M' : gauss_moment mu s c j M -> gauss_moment mu s c j M' -> M = M'.
Proof.
  intros (N & D & HN & HD & HC) (N' & D' & HN' & HD' & HC').
  apply (UL_sequence (fun n => N n / D n)); [exact HC|].
  apply (Un_cv_ext_from (fun n => N' n / D' n)); [|exact HC'].
  intros n _. rewrite (integral_unique _ _ _ _ _ (HN n) (HN' n)), (integral_unique _ _ _ _ _ (HD n) (HD' n)). reflexivity.
Qed.
