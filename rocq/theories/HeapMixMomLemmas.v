(** * HeapMixMomLemmas: moments of a mixture on the heap against those on values. *)
From Coq Require Import Reals String Ascii List Bool Arith ZArith Lia.
From Verif Require Import Num Arr ArrLemmas PyStr Cube Base Moments Mixture MixStat Heap HeapLemmas HeapClaims HeapParClaims
  HeapMix HeapMixClaims HeapMom HeapMomLemmas HeapMixMom.
Import ListNotations.
Local Open Scope nat_scope.

(** [k] is a component object with the methods of [m]; its means may share memory
    with it *)
Definition part_in (h : heap) (k : hpart) (m : member) : Prop :=
  member_in h (hk_member k) m /\
  (forall h' w d lw, keeps (length h) h h' -> good h' (hk_get_p k w d lw) (mb_get_p m w d lw)) /\
  (forall h' w lw, keeps (length h) h h' -> sp (length h') h' (hk_mean k w lw) (mb_mean m w lw) sees) /\
  (forall h' w j mu vmu lw, keeps (length h) h h' -> sees h' mu vmu ->
     sp (length h') h' (hk_noncentral k w j mu lw) (mb_noncentral m w j vmu lw) sees).
Lemma part_keeps h h' k m : keeps (length h) h h' -> part_in h k m -> part_in h' k m.
Proof.
  intros K (H1 & H2 & H3 & H4).
  assert (T : forall h2, keeps (length h') h' h2 -> keeps (length h) h h2).
  { intros h2 K2. eapply keeps_trans; [exact K|eapply keeps_weak; [apply K|exact K2]]. }
  split; [eapply member_keeps; eassumption|]. split; [auto|]. split; auto.
Qed.
Lemma obj_part_in h t o ov m : obj_in h o ov -> member_in h t m ->
  mb_get_p m = o_get_p ov -> mb_mean m = get_mean ov -> mb_noncentral m = get_noncentral_moment ov ->
  part_in h (obj_part t o) m.
Proof.
  intros O M E1 E2 E3. split; [exact M|]. rewrite E1, E2, E3. cbn [obj_part hk_get_p hk_mean hk_noncentral].
  split; [intros h' w d lw K; apply O; exact K|]. split.
  - intros h' w lw K. apply (obj_keeps _ _ _ _ K) in O. apply mean_sp; exact O.
  - intros h' w j mu vmu lw K S. apply (obj_keeps _ _ _ _ K) in O. eapply makes_sees. apply (noncentral_makes o ov 0); [exact O|lia|exact S].
Qed.

Section mix.
Variables (ps : hparts) (ls : lists) (m : hmix) (self : mixture).
Definition mixm_in (h : heap) : Prop :=
  mix_in h (part_objects ps) ls m self /\
  Forall2 (fun k mb => part_in h (get_part ps k) mb) (hx_members ls m) (mx_members self).
Lemma mixm_keeps h h' : keeps (length h) h h' -> mixm_in h -> mixm_in h'.
Proof.
  intros K [H1 H2]. split; [eapply mix_keeps; eassumption|]. eapply F2_impl; [|exact H2]. intros; eapply part_keeps; eassumption.
Qed.
Ltac mmv :=
  match goal with
  | K : keeps (length ?h) ?h ?h' |- _ =>
      repeat match goal with S : sees h _ _ |- _ => apply (sees_keeps _ _ _ _ K) in S end;
      repeat match goal with S : mixm_in h |- _ => apply (mixm_keeps _ _ K) in S end;
      repeat match goal with N : ?n <= length h |- _ => apply (fun x => Nat.le_trans _ _ _ x (proj1 K)) in N end;
      clear K
  end.
#[local] Hint Resolve sees_T sees_tail sees_init Nat.le_0_l Nat.le_refl : sees.
Ltac op :=
  first [ eapply mk_bop; eauto with sees | eapply mk_map; eauto with sees | eapply mk_sum; eauto with sees
        | eapply mk_sum_all; eauto with sees | apply mk_alloc; eauto with sees ].
Ltac st r := let h := fresh "h" in let K := fresh "K" in let v := fresh "val_" r in
  eapply g_step; [op|]; intros h r v K [_ ?S]; mmv.
Ltac st_ok r := let h := fresh "h" in let K := fresh "K" in
  eapply g_step_ok; [op|]; intros h r K [_ ?S]; mmv.
Ltac vi r := let v := fresh "val_" r in
  eapply v_step; [first [eapply sees_getitem | eapply sees_moveaxis]; eauto with sees|]; intros r v _ ?S.

Lemma per_member_makes n h f g : mixm_in h -> n <= length h ->
  (forall h' k mb, keeps (length h) h h' -> part_in h' k mb -> sp (length h') h' (f k) (g mb) sees) ->
  makes n h (h_per_member ps ls m f) (per_member self g).
Proof.
  intros H N HF. unfold h_per_member, per_member, makes.
  eapply g_step.
  { apply (list_sp h); [|apply keeps_refl]. eapply F2_impl; [|apply H]. intros k mb Hk h' K.
    apply HF; [exact K|]. eapply part_keeps; eassumption. }
  intros h1 l vl K Sl. mmv. apply mk_stack; assumption.
Qed.
Lemma mixp_makes n h w c d lw : mixm_in h -> n <= length h ->
  makes n h (h_mix_get_p (part_objects ps) ls m w c d lw) (mix_get_p self w c d lw).
Proof. intros [H _] N. apply good_makes; [exact N|]. apply mix_p_good; exact H. Qed.
Ltac mp r := let h := fresh "h" in let K := fresh "K" in let v := fresh "val_" r in
  eapply g_step; [eapply (mixp_makes 0); eauto with sees|]; intros h r v K [_ ?S]; mmv.
Lemma per_p n h w d lw : mixm_in h -> n <= length h ->
  makes n h (h_per_member ps ls m (fun k => hk_get_p k w d lw)) (per_member self (fun mb => mb_get_p mb w d lw)).
Proof.
  intros H N. apply per_member_makes; auto. intros h' k mb K (_ & P & _). eapply makes_sees.
  apply (good_makes 0); [lia|]. apply P, keeps_refl.
Qed.
Lemma lw_sees h : mixm_in h -> sees h (hq_light_weights (hx_cube m)) (light_weights (c_ssps (mx_cube self))).
Proof. intros [[(_ & _ & _ & H & _) _] _]. eapply ref_sees; exact H. Qed.
Lemma w_sees h : mixm_in h -> sees h (hx_weights m) (mx_w self).
Proof. intros [(_ & _ & H & _) _]. eapply ref_sees; exact H. Qed.
Lemma reweightings_makes n h : mixm_in h -> n <= length h -> makes n h (h_reweightings ps ls m) (mix_reweightings self).
Proof.
  intros H N. unfold h_reweightings, mix_reweightings, makes. cbv zeta. mp p.
  eapply g_step; [apply (per_p 0); [exact H|lia]|]. intros h1 pi vpi K [_ Spi]. mmv.
  pose proof (lw_sees _ H) as SL. st a. st nm. st b. st_ok den. op.
Qed.
Lemma mix_mean_makes n h w lw : mixm_in h -> n <= length h ->
  makes n h (h_mix_mean ps ls m w lw) (mix_mean self w lw).
Proof.
  intros H N. unfold h_mix_mean, mix_mean, makes.
  eapply g_step; [apply (per_member_makes 0) with (g := fun mb => mb_mean mb w lw); [exact H|lia|]|].
  { intros h' k mb K (_ & _ & P & _). apply P, keeps_refl. }
  intros h1 mu vmu K [_ Smu]. mmv.
  eapply (g_step _ _ _ (newer 0)).
  { destruct lw; [apply reweightings_makes; [exact H|lia]|]. destruct H as [(_ & _ & _ & E & _) _]. rewrite E. apply mk_alloc; lia. }
  intros h2 rw vrw K [_ Srw]. mmv. pose proof (w_sees _ H) as SW. destruct (negb (has_char "_" w)).
  - st a. st b. eapply g_step; [eapply (mk_sum n); eauto with sees|]. intros h5 s vs K [A Ss]. apply mk_ret; [exact A|apply sees_T; exact Ss].
  - cbv zeta. apply l_step. intros cs _.
    eapply g_step; [apply (per_p 0); [exact H|lia]|]. intros h3 pc vpc K [_ Spc]. mmv.
    st wp.
    eapply (g_step _ _ _ sees).
    { destruct (String.eqb (part0 w) "x"); [|apply sp_ret; apply sees_T; eassumption]. eapply makes_sees. eapply (v_last 0); [|lia].
      apply sees_getitem. apply sees_T; eassumption. }
    intros h4 wp' vwp' K Swp'. mmv. mp dn. st a. st b. st s. op.
Qed.
Lemma mix_central_makes n h w j lw : mixm_in h -> n <= length h ->
  makes n h (h_mix_central ps ls m w j lw) (mix_central_moment self w j lw).
Proof.
  intros H N. unfold h_mix_central, mix_central_moment, makes.
  eapply g_step; [apply (mix_mean_makes 0); [exact H|lia]|]. intros h1 mu vmu K [_ Smu]. mmv.
  eapply g_step; [apply (per_member_makes 0) with (g := fun mb => mb_noncentral mb w j vmu lw); [exact H|lia|]|].
  { intros h' k mb K (_ & _ & _ & P). apply P; [apply keeps_refl|]. eapply sees_keeps; eassumption. }
  intros h2 mi vmi K [_ Smi]. mmv. pose proof (w_sees _ H) as SW. destruct (negb (has_char "_" w)).
  - vi mi'. destruct lw.
    + eapply g_step; [apply (reweightings_makes 0); [exact H|lia]|]. intros h3 rw vrw K [_ Srw]. mmv. st a. st b. op.
    + st b. op.
  - cbv zeta. apply l_step. intros cs _. mp wp.
    eapply (g_step _ _ _ sees).
    { destruct (String.eqb (part0 w) "x"); [|apply sp_ret; eassumption]. eapply makes_sees. eapply (v_last 0); [|lia].
      apply sees_getitem. eassumption. }
    intros h4 wp' vwp' K Swp'. mmv. st a. st nm. st dn. op.
Qed.
Ltac cm r := let h := fresh "h" in let K := fresh "K" in let v := fresh "val_" r in
  eapply g_step; [eapply (mix_central_makes 0); eauto with sees|]; intros h r v K [_ ?S]; mmv.
Lemma mix_dispersion_makes n h w lw : mixm_in h -> n <= length h ->
  makes n h (h_mix_dispersion ps ls m w lw) (mix_dispersion self w lw).
Proof. intros H N. unfold h_mix_dispersion, mix_dispersion, makes. cm vr. op. Qed.
Lemma mix_normalised_makes n h w j lw : mixm_in h -> n <= length h ->
  makes n h (h_mix_normalised ps ls m w j lw) (mix_normalised self w j lw).
Proof.
  intros H N. unfold h_mix_normalised, mix_normalised, makes. cm c.
  eapply g_step; [eapply (mix_dispersion_makes 0); eauto with sees|]. intros h1 d vd K [_ Sd]. mmv. st_ok e. op.
Qed.
Lemma mix_excess_makes f2m1 n h w j lw : mixm_in h -> n <= length h ->
  makes n h (h_mix_excess ps ls m f2m1 w j lw) (mix_excess f2m1 self w j lw).
Proof.
  intros H N. unfold h_mix_excess, mix_excess, makes.
  eapply g_step; [eapply (mix_normalised_makes 0); eauto with sees|]. intros h1 d vd K [_ Sd]. mmv. st_ok e. op.
Qed.
Lemma mix_own_in h g : mixm_in h -> grid_in h g (mx_cube self) -> obj_in h (h_mix_own ps ls m g) (mix_own self).
Proof.
  intros H G. split; [exact G|]. split.
  { intros h' w d lw K. apply mix_p_good. eapply mix_keeps; [exact K|apply H]. }
  split; [|intros; exact I]. intros h' w lw K. cbn [hb_mean o_mean h_mix_own mix_own]. eapply makes_sees.
  apply (mix_mean_makes 0); [eapply mixm_keeps; eassumption|lia].
Qed.
Lemma mix_correlation_makes n h g w lw : mixm_in h -> grid_in h g (mx_cube self) -> n <= length h ->
  makes n h (h_mix_correlation ps ls m g w lw) (mix_correlation self w lw).
Proof.
  intros H G N. unfold h_mix_correlation, mix_correlation, mix_covariance, mix_variance, makes. apply l_step. intros parts _.
  destruct (chars (fst parts)) as [|a [|b [|c cs]]]; try apply sp_err.
  eapply g_step; [eapply (covariance_makes _ _ 0); [apply mix_own_in; assumption|lia]|]. intros h1 cv vcv K [_ Sc]. mmv.
  cm v0. cm v1. st v. st_ok s. op.
Qed.
End mix.
