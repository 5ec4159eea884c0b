(** * HeapMixHist: proofs of claim C94. *)
From Coq Require Import Reals Lra String Ascii List Bool Arith ZArith Lia.
From Verif Require Import Num NumLemmas Arr ArrLemmas PyStr Cube Base Parametric Moments ParMoments Mixture Datacube
  Heap HeapLemmas HeapClaims HeapPar HeapParClaims HeapRun HeapHist HeapExample HeapMix HeapMixClaims HeapMixRun.
Import ListNotations.
Local Open Scope nat_scope.

Lemma par_member_in h s self L f y : par_in h s self -> member_in h (HMember (h_par_table L s) y) (par_member L f self).
Proof. apply par_table_in. reflexivity. Qed.

Lemma mix_answer_good h os ls m self q : mix_in h os ls m self -> good h (mix_answer os ls m q) (mix_value self q).
Proof.
  intros H. destruct q as [l w c d lw]. unfold mix_answer, mix_value. cbn.
  destruct l; [apply mix_log_good|apply mix_p_good]; exact H.
Qed.
Lemma mix_query_claim h os ls m self q : mix_in h os ls m self -> fresh_answer h (mix_answer os ls m q) (mix_value self q).
Proof. intros H. apply good_fresh, mix_answer_good, H. Qed.

Lemma bnd_known {A B} (a : A) mm (k : A -> prog B) n h (C : Type) (p : res C) R :
  mm h = (h, Ok a) -> sp n h (k a) p R -> sp n h (bnd mm k) p R.
Proof. intros E. unfold sp, bnd. rewrite E. exact (fun H => H). Qed.
(** ** the datacube *)
Section ybar.
Variables (h0 : heap) (os : objects) (wts : nda) (ws : list num) (n : nat).
Hypothesis L0 : length h0 <= n.
Hypothesis Lw : na_addr wts < n.
Lemma oref_keeps0 h o y : keeps (length h0) h0 h -> oref h0 o y -> oref h o y.
Proof. intros K. apply oref_keeps. exact K. Qed.
Lemma add_sp l ys : Forall2 (fun k y => oref h0 (hm_ybar (object os k)) y) l ys -> forall i h a v,
  during h0 wts ws n h -> i + length l = length ws -> ref n h a v ->
  sp n h (h_add_ybar os wts l i a) (add_members v (combine ys (skipn i ws))) (fun h' r v => ref n h' r v).
Proof.
  induction 1 as [|k y l ys Hy HF IH]; intros i h a v D E Ha.
  - cbn [h_add_ybar combine add_members]. apply sp_ret. exact Ha.
  - cbn [length] in E. cbn [h_add_ybar]. rewrite (wts_len h0 wts ws n h D). destruct (Nat.ltb_spec i (length ws)) as [Hi|]; [|lia].
    rewrite (skipn_nth ws i Hi). cbn [combine add_members].
    apply (bnd_known (nth i ws NaN)); [unfold h_item; rewrite (item_is h0 wts ws n h i D Hi); reflexivity|].
    assert (Hy' : oref h (hm_ybar (object os k)) y) by (apply oref_keeps0; [apply D|exact Hy]).
    eapply st_attrN; [exact Hy'|]. intros r vr Hr _.
    assert (Nh : n <= length h) by apply D.
    eapply st_ok; [exact Nh|eapply good_map; exact Hr|]. intros h1 t N1 K1 Ht.
    assert (D1 : during h0 wts ws n h1) by (eapply during_keeps; [exact L0|exact Lw|exact D|eapply keeps_weak; [exact Nh|exact K1]]).
    apply (ref_keeps _ _ _ _ _ K1) in Ha.
    eapply sp_bind; [apply le_n|eapply sp_iop; [exact Ha|exact Ht]|]. intros h2 r2 v2 K2 (-> & H2 & _).
    apply IH; [eapply during_keeps; [exact L0|exact Lw|exact D1|exact K2]|lia|exact H2].
Qed.
End ybar.
Lemma ybar_claim h os ls m ys ws :
  Forall2 (fun k y => oref h (hm_ybar (object os k)) y) (hx_members ls m) ys ->
  ref 0 h (hx_weights m) (arr1 ws NaN) -> length ws = length ys ->
  fresh_answer h (h_mix_ybar os ls m) (mixture_ybar ys ws).
Proof.
  intros HF Hw E. apply good_fresh. unfold good, h_mix_ybar, mixture_ybar. pose proof (F2_length _ _ _ HF) as EL.
  destruct HF as [|k y l ys Hy HF]; [apply sp_err|].
  eapply st_attrN; [exact Hy|]. intros r vr Hr _. assert (Er : na_shp r = shp vr) by apply Hr. rewrite Er.
  eapply st_ok; [apply le_n|apply good_alloc|]. intros h1 a N1 K1 Ha.
  apply (add_sp h os (hx_weights m) ws (length h) (le_n _) (proj2 (proj1 Hw)) (k :: l) (y :: ys)) with (i := 0).
  - constructor; assumption.
  - split; [exact K1|]. split; [exact N1|]. eapply ref_keeps; eassumption.
  - cbn in *. lia.
  - exact Ha.
Qed.

(** ** the constructor *)
Lemma items_is h wts ws : ref 0 h wts (arr1 ws NaN) -> h_items wts h = (h, Ok ws).
Proof.
  intros (_ & _ & S1 & S2). unfold h_items. repeat f_equal. cbn in S1. rewrite S1. cbn [hd].
  apply (nth_ext _ _ NaN NaN); [rewrite map_length, seq_length; reflexivity|].
  intros i Hi. rewrite map_length, seq_length in Hi. rewrite (nth_map_in _ _ i NaN 0) by (rewrite seq_length; exact Hi).
  rewrite seq_nth by exact Hi. rewrite S2; [reflexivity|]. cbn. rewrite S1. repeat constructor. exact Hi.
Qed.
Lemma init_sp h os ls c cv k wts ws mvs :
  cube_in h c cv -> Forall2 (fun i mb => member_in h (object os i) mb) (nth k ls []) mvs -> ref 0 h wts (arr1 ws NaN) ->
  sp (length h) h (h_mixture c ls k wts) (mixture_init cv mvs ws)
    (fun h' m self => mix_in h' os ls m self /\ length h <= na_addr (hx_weights m) < length h' /\ hx_list m = k /\ hx_cube m = c /\
       self = Mixture cv mvs ws).
Proof.
  intros Hc HF Hw. unfold h_mixture, mixture_init. cbv zeta.
  assert (Es : na_shp wts = [length ws]) by (destruct Hw as (_ & _ & S1 & _); exact S1). rewrite Es. cbn [hd].
  pose proof (F2_length _ _ _ HF) as EL. rewrite EL.
  destruct (Nat.eqb_spec (length mvs) (length ws)) as [E|]; [|apply sp_err].
  cbn [py_assert bind]. apply (bnd_ret tt).
  eapply sp_bind_ok; [apply le_n|eapply good_copy; exact Hw|]. intros h1 w1 K1 H1.
  apply (bnd_known ws); [apply items_is; eapply ref_weak; [|exact H1]; lia|].
  destruct (forallb _ ws); [|apply sp_err]. cbn [py_assert bind]. apply (bnd_ret tt).
  destruct (isclose1 _); [|apply sp_err]. cbn [py_assert bind]. apply (bnd_ret tt). apply sp_ret.
  split; [|split; [apply H1|auto]].
  split; [eapply cube_keeps; [exact K1|exact Hc]|]. split; [eapply F2_impl; [|exact HF]; intros; eapply member_keeps; [exact K1|assumption]|].
  split; [eapply ref_weak; [|exact H1]; lia|]. split; [reflexivity|symmetry; exact E].
Qed.

(** ** histories *)
Lemma set_nth_nth {A} n (x : A) l d : n < length l -> nth n (set_nth n x l) d = x.
Proof. intros H. apply nth_error_nth. apply set_nth_same. exact H. Qed.
Lemma set_nth_In {A} n (x y : A) l : In y (set_nth n x l) -> y = x \/ In y l.
Proof.
  revert n; induction l as [|z l IH]; intros [|n]; cbn; auto.
  - intros [->|H]; auto.
  - intros [->|H]; [auto|]. apply IH in H as [->|H]; auto.
Qed.

Section hist.
Variables (h0 h1 : heap) (os : objects) (vals : nat -> member) (c : cube) (m : hmix) (wa : nda) (ws : list num) (N : nat).
Hypothesis Hc : cube_in h0 (hx_cube m) c.
Hypothesis Hm : forall k, k < length os -> member_in h0 (object os k) (vals k).
Hypothesis Hwa : na_addr wa = length h0.
Hypothesis K1 : keeps (length h0) h0 h1.
Hypothesis Hw : ref 0 h1 (hx_weights m) (arr1 ws NaN).
Hypothesis Lw : length h0 < na_addr (hx_weights m).
Hypothesis Hn : hx_n m = N.
Hypothesis Hl : length ws = N.
Definition inv (h : heap) : Prop :=
  length h1 <= length h /\ forall a, a < length h1 -> a <> length h0 -> nth_error h a = nth_error h1 a.
Lemma inv_keeps h : inv h -> keeps (length h0) h0 h.
Proof. intros [I1 I2]. split; [destruct K1; lia|]. intros a Ha. rewrite I2; [apply K1; exact Ha| |lia]. destruct K1. lia. Qed.
Lemma inv_mix h ls ids : inv h -> hx_members ls m = ids -> Forall (fun k => k < length os) ids -> length ids = N ->
  mix_in h os ls m (Mixture c (map vals ids) ws).
Proof.
  intros I E F L. pose proof (inv_keeps h I) as K. split; [eapply cube_keeps; [exact K|exact Hc]|].
  split; [rewrite E; clear -F Hm K; cbn; induction F; constructor; auto; eapply member_keeps; [exact K|auto]|].
  split; [|cbn; rewrite map_length; split; congruence].
  destruct I as [I1 I2]. destruct Hw as (A & B & C). split; [lia|]. split; [exact B|].
  unfold value, buffer in *. cbn [mx_weights].
  replace (nth (na_addr (hx_weights m)) h (scal NaN)) with (nth (na_addr (hx_weights m)) h1 (scal NaN)); [exact C|].
  pose proof (I2 (na_addr (hx_weights m)) ltac:(lia) ltac:(lia)) as E2.
  pose proof (buffer_nth h (na_addr (hx_weights m))) as B1. pose proof (buffer_nth h1 (na_addr (hx_weights m))) as B2.
  unfold buffer in *. rewrite B1, B2, E2. reflexivity.
Qed.
Lemma mrun_claim es : Forall (names (length os)) es -> forall h ls ids held,
  inv h -> (forall r, In r held -> length h1 <= na_addr r) -> hx_list m < length ls -> hx_members ls m = ids ->
  Forall (fun k => k < length os) ids -> length ids = N ->
  keeps (length h0) h0 (fst (mrun os m wa es h ls held)) /\
  Forall2 (fun qi o => ressame o (mix_value (Mixture c (map vals (snd qi)) ws) (fst qi))) (masked es ids) (snd (mrun os m wa es h ls held)).
Proof.
  induction 1 as [|e es He HE IH]; intros h ls ids held I Hh Lls E F L; [split; [apply inv_keeps; exact I|constructor]|].
  destruct e as [q|k v|i k|v]; cbn [mrun masked fst snd].
  - pose proof (mix_answer_good h os ls m _ q (inv_mix h ls ids I E F L)) as G.
    assert (S : ressame (seen (mix_answer os ls m q h)) (mix_value (Mixture c (map vals ids) ws) q)).
    { unfold good, sp, seen in *. destruct (mix_answer os ls m q h) as [h' [r|e]], (mix_value (Mixture c (map vals ids) ws) q) as [v|e'];
        cbn; destruct G as [_ G]; try contradiction; auto. apply G. }
    unfold good, sp in G. destruct (mix_answer os ls m q h) as [h' x] eqn:Ea. cbn [fst snd] in *. destruct G as [Kh G].
    assert (I' : inv h').
    { destruct I as [I1 I2]. destruct Kh as [K2 K3]. split; [lia|]. intros a Ha Na. rewrite K3 by lia. apply I2; assumption. }
    edestruct IH with (h := h') (ls := ls) (ids := ids) (held := match x with Ok r => (held ++ [r])%list | Err _ => held end) as [J1 J2]; auto.
    { destruct x as [r|e]; [|exact Hh]. intros r' Hr. apply in_app_iff in Hr as [Hr|[<-|[]]]; [auto|].
      destruct (mix_value _ q); [|contradiction]. destruct G as [G _]. destruct I. lia. }
  - apply IH; auto. destruct (nth_error held k) as [r|] eqn:Er; [|exact I]. apply nth_error_In, Hh in Er.
    destruct I as [I1 I2]. split; [rewrite store_length; exact I1|]. intros a Ha Na. unfold store. rewrite set_nth_other by lia. apply I2; assumption.
  - apply IH; auto.
    + unfold set_member. rewrite set_nth_length. exact Lls.
    + unfold hx_members at 1, set_member. rewrite set_nth_nth by exact Lls. rewrite E. reflexivity.
    + apply Forall_forall. intros y Hy. apply set_nth_In in Hy as [->|Hy]; [exact He|]. rewrite Forall_forall in F. apply F; exact Hy.
    + rewrite set_nth_length. exact L.
  - apply IH; auto. destruct I as [I1 I2]. split; [rewrite store_length; exact I1|]. intros a Ha Na. unfold store.
    rewrite set_nth_other by lia. apply I2; assumption.
Qed.
End hist.

Lemma mix_history_claim h0 os vals hc c ls k ws self :
  cube_in h0 hc c -> (forall i, i < length os -> member_in h0 (object os i) (vals i)) ->
  k < length ls -> Forall (fun i => i < length os) (nth k ls []) ->
  mixture_init c (map vals (nth k ls [])) ws = Ok self ->
  let wa := whole (length h0) (arr1 ws NaN) in
  exists h1 m, h_mixture hc ls k wa (h0 ++ [arr1 ws NaN]) = (h1, Ok m) /\
    forall es, Forall (names (length os)) es ->
      (forall a, a < length h0 -> nth_error (fst (mrun os m wa es h1 ls [])) a = nth_error h0 a) /\
      Forall2 (fun qi o => ressame o (mix_value (Mixture c (map vals (snd qi)) ws) (fst qi)))
        (masked es (nth k ls [])) (snd (mrun os m wa es h1 ls [])).
Proof.
  intros Hc Hm Hk F Ei wa. set (h := h0 ++ [arr1 ws NaN]).
  assert (K0 : keeps (length h0) h0 h) by apply keeps_app.
  assert (Hwa : ref 0 h wa (arr1 ws NaN)).
  { apply whole_ref. unfold h. rewrite nth_error_app2, Nat.sub_diag by lia. reflexivity. }
  assert (HF : Forall2 (fun i mb => member_in h (object os i) mb) (nth k ls []) (map vals (nth k ls []))).
  { revert F. generalize (nth k ls []). intros l F. induction F; constructor; auto. eapply member_keeps; [exact K0|auto]. }
  pose proof (init_sp h os ls hc c k wa ws _ (cube_keeps _ _ _ _ K0 Hc) HF Hwa) as S. rewrite Ei in S. unfold sp in S.
  destruct (h_mixture hc ls k wa h) as [h1 [m|e]] eqn:Em; destruct S as [K1 S]; [|contradiction].
  destruct S as ((M1 & M2 & M3 & M4 & M5) & Lw & El & Ec & Es).
  exists h1, m. split; [reflexivity|]. intros es HE. subst self. cbn [mx_cube mx_members mx_weights] in *.
  assert (Lh : length h = length h0 + 1) by (unfold h; rewrite app_length; reflexivity).
  destruct (mrun_claim h0 h1 os vals c m wa ws (length (nth k ls []))) with (es := es) (h := h1) (ls := ls) (ids := nth k ls []) (held := @nil nda) as [J1 J2]; auto.
  - rewrite Ec. exact Hc.
  - eapply keeps_trans; [exact K0|]. eapply keeps_weak; [|exact K1]. lia.
  - lia.
  - rewrite M4, map_length. reflexivity.
  - rewrite M5, map_length. reflexivity.
  - split; auto.
  - intros r [].
  - rewrite El. exact Hk.
  - unfold hx_members. rewrite El. reflexivity.
  - split; [apply J1|exact J2].
Qed.

(** ** a component keeps the array it was given *)
Lemma component_alias_claim h s self w :
  comp_in h s self -> shp w = na_shp (ho_log_p s) ->
  (forall r, In r [hq_delta_t (ho_cube s); hq_delta_z (ho_cube s); hq_v_edg (ho_cube s); hq_light_weights (ho_cube s)] ->
     na_addr r <> na_addr (ho_log_p s)) ->
  comp_in (store h (ho_log_p s) w) s (Component (comp_cube self) w).
Proof.
  intros [(C1 & C2 & C3 & C4 & C5) Hl] Hs Ho. split; [|eapply store_ref; [exact Hl|exact Hs]].
  cbn [comp_cube]. split; [|split; [|split; [|split; [|exact C5]]]]; (apply store_other; [apply Ho; cbn; tauto|assumption]).
Qed.
