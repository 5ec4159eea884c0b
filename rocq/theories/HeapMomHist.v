(** * HeapMomHist: proofs of claim C95. *)
From Coq Require Import Reals String Ascii List Bool Arith ZArith Lia.
From Verif Require Import Num Arr ArrLemmas PyStr Cube Base Moments NormalL Parametric ParMoments Mixture MixStat
  Heap HeapLemmas HeapClaims HeapPar HeapParClaims HeapRun HeapHist HeapExample HeapMix HeapMixClaims HeapMixHist HeapMom HeapMomLemmas
  HeapParMom HeapParMomLemmas HeapMixMom HeapMixMomLemmas HeapMomRun.
Import ListNotations.
Local Open Scope nat_scope.

Lemma makes_fresh h m p : makes (length h) h m p -> fresh_answer h m p.
Proof.
  unfold makes, sp, fresh_answer. destruct (m h) as [h' x]. cbn. intros [[_ K] H]. split; [exact K|].
  destruct x, p; auto. destruct H as (H1 & H2 & H3). auto.
Qed.

(** ** histories *)
Section hist.
Variables (answer : mom_question -> prog nda) (val : mom_question -> res (arr num)) (h0 : heap) (ok : mom_question -> Prop).
Hypothesis HA : forall h q, ok q -> keeps (length h0) h0 h -> makes (length h) h (answer q) (val q).
Lemma qseen h q : makes (length h) h (answer q) (val q) -> ressame (seen (answer q h)) (val q).
Proof.
  unfold makes, sp, seen. destruct (answer q h) as [h' [r|e]], (val q) as [v|e']; cbn; intros [_ H]; try contradiction; auto.
  apply H.
Qed.
Lemma qrun_claim es : Forall ok (qasked es) -> forall h held,
  keeps (length h0) h0 h -> (forall r, In r held -> length h0 <= na_addr r) ->
  keeps (length h0) h0 (fst (qrun answer es h held)) /\
  Forall2 (fun q o => ressame o (val q)) (qasked es) (snd (qrun answer es h held)).
Proof.
  induction es as [|[q|k v] es IH]; intros F h held K Hh; cbn [qrun qasked fst snd] in *.
  - split; [exact K|constructor].
  - inversion F as [|? ? Fq F']; subst.
    pose proof (HA h q Fq K) as G. pose proof (qseen h q G) as S. unfold makes, sp in G.
    destruct (answer q h) as [h' x] eqn:E. cbn [fst snd] in *. destruct G as [K1 G].
    assert (L : length h0 <= length h) by apply K.
    assert (K' : keeps (length h0) h0 h') by (eapply keeps_trans; [exact K|eapply keeps_weak; [exact L|exact K1]]).
    assert (Hh' : forall r, In r (match x with Ok r => (held ++ [r])%list | Err _ => held end) -> length h0 <= na_addr r).
    { destruct x as [r|e]; [|exact Hh]. intros r' Hr. apply in_app_iff in Hr as [Hr|[<-|[]]]; [auto|].
      destruct (val q); [|contradiction]. destruct G as [G _]. lia. }
    destruct (IH F' h' _ K' Hh') as [I1 I2]. split; [exact I1|]. constructor; assumption.
  - apply IH; [exact F| |exact Hh]. destruct (nth_error held k) as [r|] eqn:E; [|exact K].
    eapply keeps_trans; [exact K|]. apply store_keeps. apply Hh. eapply nth_error_In; exact E.
Qed.
Lemma qhistory es : Forall ok (qasked es) ->
  (forall a, a < length h0 -> nth_error (fst (qrun answer es h0 [])) a = nth_error h0 a) /\
  Forall2 (fun q o => ressame o (val q)) (qasked es) (snd (qrun answer es h0 [])).
Proof.
  intros F. destruct (qrun_claim es F h0 []) as [[_ H1] H2]; [apply keeps_refl|intros r []|]. split; assumption.
Qed.
End hist.

(** ** any object *)
Lemma noncentral_new o ov h w j mu lw : obj_in h o ov ->
  makes (length h) h (m <~ alloc mu ;; h_noncentral o w j m lw) (get_noncentral_moment ov w j mu lw).
Proof.
  intros O. unfold makes. eapply g_step_ok; [apply (mk_alloc 0 h mu); lia|]. intros h1 m K [_ S].
  apply noncentral_makes; [eapply obj_keeps; eassumption|apply K|exact S].
Qed.
Lemma obj_makes f2m1 ppf h o ov q : obj_in h o ov ->
  (forall w lw, q = QMean w lw -> makes (length h) h (h_get_mean o w lw) (get_mean ov w lw)) ->
  makes (length h) h (obj_answer f2m1 ppf o q) (obj_value f2m1 ppf ov q).
Proof.
  intros O M. pose proof (le_n (length h)) as N. destruct q; cbn [obj_answer obj_value].
  - apply p_makes; assumption.
  - apply M; reflexivity.
  - apply noncentral_new; exact O.
  - apply central_makes; assumption.
  - apply dispersion_makes; assumption.
  - apply normalised_makes; assumption.
  - apply excess_makes; assumption.
  - apply covariance_makes; assumption.
  - apply correlation_makes; assumption.
  - apply l_moment_makes; assumption.
  - apply normalised_l_makes; assumption.
  - apply excess_l_makes; assumption.
Qed.

(** ** base components *)
Lemma base_obj_in h g s self : comp_in h s self -> grid_in h g (comp_cube self) ->
  obj_in h (h_base_obj g s) (base_obj self).
Proof.
  intros H G. split; [exact G|]. split; [|split; intros; exact I].
  intros h' w d lw K. apply base_good. eapply comp_keeps; eassumption.
Qed.
Lemma base_mom_makes f2m1 ppf h g s self q : comp_in h s self -> grid_in h g (comp_cube self) ->
  makes (length h) h (obj_answer f2m1 ppf (h_base_obj g s) q) (obj_value f2m1 ppf (base_obj self) q).
Proof.
  intros H G. pose proof (base_obj_in h g s self H G) as O. apply obj_makes; [exact O|]. intros w lw _.
  apply mean_makes; [exact O|reflexivity|lia].
Qed.
Lemma base_mom_query f2m1 ppf h g s self q : comp_in h s self -> grid_in h g (comp_cube self) ->
  fresh_answer h (obj_answer f2m1 ppf (h_base_obj g s) q) (obj_value f2m1 ppf (base_obj self) q).
Proof. intros. apply makes_fresh, base_mom_makes; assumption. Qed.
Lemma base_mom_history f2m1 ppf h g s self es : comp_in h s self -> grid_in h g (comp_cube self) ->
  (forall a, a < length h -> nth_error (fst (qrun (obj_answer f2m1 ppf (h_base_obj g s)) es h [])) a = nth_error h a) /\
  Forall2 (fun q o => ressame o (obj_value f2m1 ppf (base_obj self) q)) (qasked es)
    (snd (qrun (obj_answer f2m1 ppf (h_base_obj g s)) es h [])).
Proof.
  intros H G. apply (qhistory _ _ h (fun _ => True)).
  - intros h' q _ K. apply base_mom_makes; [eapply comp_keeps; eassumption|eapply grid_keeps; eassumption].
  - apply Forall_forall. auto.
Qed.

(** ** parametric components *)
Lemma par_mom_makes L f2m1 ppf h g s self q : par_in h s self -> grid_in h g (pa_cube self) -> ~ shares q ->
  makes (length h) h (obj_answer f2m1 ppf (h_par_obj L f2m1 s g) q) (obj_value f2m1 ppf (par_obj L f2m1 self) q).
Proof.
  intros H G Nq. pose proof (par_obj_in L f2m1 s self h g H G) as O. apply obj_makes; [exact O|]. intros w lw ->.
  unfold h_get_mean, get_mean. apply l_step. intros [] _.
  pose proof (means_sp L s self (length h) h w lw H (le_n _)) as M.
  pose proof (default_mean_makes _ _ (length h) h w lw O (le_n _)) as D.
  cbn [hb_mean o_mean h_par_obj par_obj]. destruct (h_par_means L s w) as [f|], (par_means L self w) as [g'|]; try contradiction.
  - destruct M as [->|[->|M]]; [exfalso; apply Nq; left; reflexivity|exfalso; apply Nq; right; reflexivity|exact M].
  - exact D.
Qed.
Lemma par_mom_query L f2m1 ppf h g s self q : par_in h s self -> grid_in h g (pa_cube self) -> ~ shares q ->
  fresh_answer h (obj_answer f2m1 ppf (h_par_obj L f2m1 s g) q) (obj_value f2m1 ppf (par_obj L f2m1 self) q).
Proof. intros. apply makes_fresh, par_mom_makes; assumption. Qed.
Lemma par_mom_history L f2m1 ppf h g s self es : par_in h s self -> grid_in h g (pa_cube self) ->
  Forall (fun q => ~ shares q) (qasked es) ->
  (forall a, a < length h -> nth_error (fst (qrun (obj_answer f2m1 ppf (h_par_obj L f2m1 s g)) es h [])) a = nth_error h a) /\
  Forall2 (fun q o => ressame o (obj_value f2m1 ppf (par_obj L f2m1 self) q)) (qasked es)
    (snd (qrun (obj_answer f2m1 ppf (h_par_obj L f2m1 s g)) es h [])).
Proof.
  intros H G. apply (qhistory _ _ h (fun q => ~ shares q)).
  intros h' q Nq K. apply par_mom_makes; [eapply par_keeps; eassumption|eapply grid_keeps; eassumption|exact Nq].
Qed.
(** programs which only make views *)
Definition pure {A} (m : prog A) : Prop := exists x, forall h, m h = (h, x).
Lemma pure_lift {A} (x : res A) : pure (lift x).
Proof. exists x. reflexivity. Qed.
Lemma pure_bnd {A B} (m : prog A) (k : A -> prog B) : pure m -> (forall a, pure (k a)) -> pure (bnd m k).
Proof.
  intros [x E] F. destruct x as [a|e].
  - destruct (F a) as [y G]. exists y. intros h. unfold bnd. rewrite E. apply G.
  - exists (Err e). intros h. unfold bnd. rewrite E. reflexivity.
Qed.
(** what get_mean("v_tx") and get_mean("v_txz") return shows mu_v for ever after *)
Lemma live_mean L f2m1 h g s self w lw r : par_in h s self -> w = "v_tx"%string \/ w = "v_txz"%string ->
  snd (h_get_mean (h_par_obj L f2m1 s g) w lw h) = Ok r ->
  fst (h_get_mean (h_par_obj L f2m1 s g) w lw h) = h /\
  (exists mu, hp_mu_v s = Some mu /\ na_addr r = na_addr mu) /\
  forall h' self', par_in h' s self' -> ressame (Ok (value h' r)) (get_mean (par_obj L f2m1 self') w lw).
Proof.
  intros H Hw E.
  assert (F : forall h' self', par_in h' s self' ->
    sp (length h') h' (h_get_mean (h_par_obj L f2m1 s g) w lw) (get_mean (par_obj L f2m1 self') w lw)
      (fun h'' r v => sees h'' r v /\ (exists r0, hp_mu_v s = Some r0 /\ na_addr r = na_addr r0) /\ h'' = h')).
  { intros h' self' H'. unfold h_get_mean, get_mean. apply l_step. intros [] _. destruct Hw as [-> | ->].
    - change (sp (length h') h' (h_mean_v_tx s) (mean_v_tx self')
        (fun h'' r v => sees h'' r v /\ (exists r0, hp_mu_v s = Some r0 /\ na_addr r = na_addr r0) /\ h'' = h')).
      eapply sp_conseq; [|apply mean_tx_sp; exact H']. intros h'' r' v _ (S & Em & ->). eauto.
    - exact (mean_txz_sp s self' h' H'). }
  assert (P : exists x, forall h', h_get_mean (h_par_obj L f2m1 s g) w lw h' = (h', x)).
  { destruct Hw as [-> | ->].
    - change (pure (bnd (lift (py_assert true)) (fun _ => h_mean_v_tx s))). apply pure_bnd; intros; apply pure_lift.
    - change (pure (bnd (lift (py_assert true)) (fun _ => h_mean_v_txz s))). apply pure_bnd; [apply pure_lift|]. intros _.
      apply pure_bnd; [apply pure_lift|]. intros m. unfold h_add_z_axis, h_broadcast, h_moveaxis.
      apply pure_bnd; intros; apply pure_lift. }
  destruct P as [x P]. rewrite P in E. cbn in E. subst x.
  split; [rewrite P; reflexivity|].
  pose proof (F h self H) as F0. unfold sp in F0. rewrite P in F0. destruct F0 as [_ F0].
  destruct (get_mean (par_obj L f2m1 self) w lw); [|contradiction]. destruct F0 as (_ & X & _). split; [exact X|].
  intros h' self' H'. pose proof (F h' self' H') as F1. unfold sp in F1. rewrite P in F1. destruct F1 as [_ F1].
  destruct (get_mean (par_obj L f2m1 self') w lw); [|contradiction]. destruct F1 as ((_ & S) & _). exact S.
Qed.

(** ** mixtures *)
Lemma mixm_makes f2m1 ppf h ps ls m g self q : mixm_in ps ls m self h -> grid_in h g (mx_cube self) ->
  makes (length h) h (mixm_answer f2m1 ppf ps ls m g q) (mixm_value f2m1 ppf self q).
Proof.
  intros H G. pose proof (mix_own_in ps ls m self h g H G) as O. pose proof (le_n (length h)) as N.
  destruct q; cbn [mixm_answer mixm_value obj_answer].
  - exact (p_makes _ _ (length h) h w density lw O N).
  - apply mix_mean_makes; assumption.
  - exact (noncentral_new _ _ h w j mu lw O).
  - apply mix_central_makes; assumption.
  - apply mix_dispersion_makes; assumption.
  - apply mix_normalised_makes; assumption.
  - apply mix_excess_makes; assumption.
  - exact (covariance_makes _ _ (length h) h w lw O N).
  - apply mix_correlation_makes; assumption.
  - exact (l_moment_makes _ _ (length h) h w j lw O N).
  - exact (normalised_l_makes _ _ (length h) h w j lw O N).
  - exact (excess_l_makes _ _ ppf (length h) h w j lw O N).
Qed.
Lemma mixm_query f2m1 ppf h ps ls m g self q : mixm_in ps ls m self h -> grid_in h g (mx_cube self) ->
  fresh_answer h (mixm_answer f2m1 ppf ps ls m g q) (mixm_value f2m1 ppf self q).
Proof. intros. apply makes_fresh, mixm_makes; assumption. Qed.
Lemma mixm_history f2m1 ppf h ps ls m g self es : mixm_in ps ls m self h -> grid_in h g (mx_cube self) ->
  (forall a, a < length h -> nth_error (fst (qrun (mixm_answer f2m1 ppf ps ls m g) es h [])) a = nth_error h a) /\
  Forall2 (fun q o => ressame o (mixm_value f2m1 ppf self q)) (qasked es) (snd (qrun (mixm_answer f2m1 ppf ps ls m g) es h [])).
Proof.
  intros H G. apply (qhistory _ _ h (fun _ => True)).
  - intros h' q _ K. apply mixm_makes; [eapply mixm_keeps; eassumption|eapply grid_keeps; eassumption].
  - apply Forall_forall. auto.
Qed.

(** ** the cube's own arrays *)
Lemma values_own h g : 
  h_values g "t" h = (h, Ok (hg_cents_t g)) /\ h_values g "z" h = (h, Ok (hg_cents_z g)) /\
  h_values g "x1" h = (h, Ok (hg_x g)) /\ h_values g "x2" h = (h, Ok (hg_y g)) /\
  h_edges g "t" h = (h, Ok (hg_edges_t g)) /\ h_edges g "v" h = (h, Ok (hq_v_edg (hg_cube g))) /\
  h_edges g "z" h = (h, Ok (hg_edges_z g)).
Proof. repeat split; reflexivity. Qed.
Lemma values_new h g c : grid_in h g c ->
  fresh_answer h (h_values g "v") (get_variable_values c "v") /\
  fresh_answer h (h_edges g "x1") (get_variable_edges c "x1") /\
  fresh_answer h (h_edges g "x2") (get_variable_edges c "x2").
Proof.
  intros ((C1 & C2 & C3 & C4 & C5 & C6) & H2 & H3 & H4 & H5 & H6 & H7 & H8 & H9).
  split; [|split]; apply makes_fresh.
  - assert (S : sees h (hq_v_edg (hg_cube g)) (c_v_edg c)) by (eapply ref_sees; exact C3).
    unfold makes, h_values, get_variable_values. cbn [String.eqb Ascii.eqb Bool.eqb].
    eapply g_step; [apply (mk_bop (length h)); [lia|apply sees_init; exact S|apply sees_tail; exact S]|]. intros h1 s vs K [_ S1].
    apply mk_map; [apply K|exact S1].
  - unfold h_edges, get_variable_edges. cbn [String.eqb Ascii.eqb Bool.eqb]. rewrite C5. apply pixel_edges_makes; auto.
  - unfold h_edges, get_variable_edges. cbn [String.eqb Ascii.eqb Bool.eqb]. rewrite C6. apply pixel_edges_makes; auto.
Qed.
Definition apart (g : hgrid) (s : hcomp) : Prop :=
  forall r, In r [hq_delta_t (hg_cube g); hq_delta_z (hg_cube g); hq_light_weights (hg_cube g); hg_x g; hg_y g;
                  hg_cents_t g; hg_cents_z g; hg_edges_t g; hg_edges_z g; ho_log_p s] ->
  na_addr r <> na_addr (hq_v_edg (hg_cube g)).
Lemma store_sees h r v r' w : na_addr r' <> na_addr r -> sees h r' w -> sees (store h r v) r' w.
Proof.
  intros N [H1 H2]. split; [rewrite store_length; exact H1|]. unfold value. rewrite store_buffer_other by exact N. exact H2.
Qed.
Lemma edit_edges_in h g s self v : comp_in h s self -> grid_in h g (comp_cube self) -> ho_cube s = hg_cube g -> apart g s ->
  shp v = shp (c_v_edg (comp_cube self)) ->
  let h' := store h (hq_v_edg (hg_cube g)) v in
  let self' := Component (with_v_edg (comp_cube self) v) (log_p_tvxz self) in
  comp_in h' s self' /\ grid_in h' g (comp_cube self').
Proof.
  intros H G Ec Ap Es h' self'.
  pose proof G as ((C1 & C2 & C3 & C4 & C5) & H2 & H3 & H4 & H5 & H6 & H7 & H8 & H9).
  assert (Es' : shp v = na_shp (hq_v_edg (hg_cube g))) by (destruct C3 as (_ & _ & S & _); cbn in S; congruence).
  assert (Hc : cube_in h' (hg_cube g) (with_v_edg (comp_cube self) v)).
  { split; [apply store_other; [apply Ap; cbn; tauto|exact C1]|]. split; [apply store_other; [apply Ap; cbn; tauto|exact C2]|].
    split; [eapply store_ref; [exact C3|exact Es']|]. split; [apply store_other; [apply Ap; cbn; tauto|exact C4]|]. exact C5. }
  split.
  - split; [rewrite Ec; exact Hc|]. cbn. apply store_other; [apply Ap; cbn; tauto|apply H].
  - split; [exact Hc|]. do 6 (split; [apply store_sees; [apply Ap; cbn; tauto|assumption]|]). split; assumption.
Qed.
Lemma edit_edges f2m1 ppf h g s self r v : comp_in h s self -> grid_in h g (comp_cube self) -> ho_cube s = hg_cube g -> apart g s ->
  snd (h_edges g "v" h) = Ok r -> shp v = shp (c_v_edg (comp_cube self)) ->
  let self' := Component (with_v_edg (comp_cube self) v) (log_p_tvxz self) in
  fresh_answer (store h r v) (h_values g "v") (get_variable_values (comp_cube self') "v") /\
  forall q, fresh_answer (store h r v) (obj_answer f2m1 ppf (h_base_obj g s) q) (obj_value f2m1 ppf (base_obj self') q).
Proof.
  intros H G Ec Ap Er Es self'. cbn in Er. injection Er as <-.
  destruct (edit_edges_in h g s self v H G Ec Ap Es) as [H1 H2]. split; [apply values_new, H2|].
  intros q. apply base_mom_query; assumption.
Qed.

(** ** a mixture from its constructor on *)
Lemma part_object ps i : object (part_objects ps) i = hk_member (get_part ps i).
Proof. unfold object, part_objects, get_part. change no_member with (hk_member no_part). apply map_nth. Qed.
Lemma mixm_built f2m1 ppf h0 ps vals hc c g ls k ws self :
  cube_in h0 hc c -> grid_in h0 g c -> (forall i, i < length ps -> part_in h0 (get_part ps i) (vals i)) ->
  Forall (fun i => i < length ps) (nth k ls []) ->
  mixture_init c (map vals (nth k ls [])) ws = Ok self ->
  let wa := Nda (length h0) [length ws] (fun idx => idx) in
  exists h1 m, h_mixture hc ls k wa (h0 ++ [arr1 ws NaN]) = (h1, Ok m) /\
    forall es,
      (forall a, a <= length h0 -> nth_error (fst (qrun (mixm_answer f2m1 ppf ps ls m g) es h1 [])) a = nth_error (h0 ++ [arr1 ws NaN]) a) /\
      Forall2 (fun q o => ressame o (mixm_value f2m1 ppf self q)) (qasked es) (snd (qrun (mixm_answer f2m1 ppf ps ls m g) es h1 [])).
Proof.
  intros Hc Hg Hp F Ei wa. set (h := h0 ++ [arr1 ws NaN]).
  assert (K0 : keeps (length h0) h0 h) by apply keeps_app.
  assert (Hwa : ref 0 h wa (arr1 ws NaN)).
  { change wa with (whole (length h0) (arr1 ws NaN)). apply whole_ref. unfold h. rewrite nth_error_app2, Nat.sub_diag by lia. reflexivity. }
  assert (HF : Forall2 (fun i mb => part_in h (get_part ps i) mb) (nth k ls []) (map vals (nth k ls []))).
  { revert F. generalize (nth k ls []). intros l F. induction F; constructor; auto. eapply part_keeps; [|apply Hp; assumption]. eapply keeps_weak; [|exact K0]. lia. }
  assert (HF' : Forall2 (fun i mb => member_in h (object (part_objects ps) i) mb) (nth k ls []) (map vals (nth k ls []))).
  { eapply F2_impl; [|exact HF]. intros i mb P. rewrite part_object. apply P. }
  pose proof (init_sp h (part_objects ps) ls hc c k wa ws _ (cube_keeps _ _ _ _ K0 Hc) HF' Hwa) as S. rewrite Ei in S. unfold sp in S.
  destruct (h_mixture hc ls k wa h) as [h1 [m|e]] eqn:Em; destruct S as [K1 S]; [|contradiction].
  destruct S as (M & Lw & El & Ec & Es). exists h1, m. split; [reflexivity|]. intros es.
  assert (Lh : length h = length h0 + 1) by (unfold h; rewrite app_length; reflexivity).
  destruct (mixm_history f2m1 ppf h1 ps ls m g self es) as [J1 J2].
  - split; [exact M|]. subst self. cbn [mx_members]. unfold hx_members. rewrite El.
    eapply F2_impl; [|exact HF]. intros i mb P. eapply part_keeps; [exact K1|exact P].
  - subst self. cbn [mx_cube]. eapply grid_keeps; [exact K1|]. eapply grid_keeps; [exact K0|exact Hg].
  - split; [|exact J2]. destruct K1 as [L1 K1]. intros a Ha. rewrite J1 by lia. apply K1. lia.
Qed.

(** ** components as parts of a mixture *)
Lemma base_part_in h g s self y : comp_in h s self -> grid_in h g (comp_cube self) ->
  part_in h (obj_part (HMember (h_table s) y) (h_base_obj g s)) (comp_member self).
Proof.
  intros H G. eapply obj_part_in; [apply base_obj_in; eassumption|apply comp_member_in; exact H|reflexivity|reflexivity|reflexivity].
Qed.
Lemma par_part_in L f2m1 h g s self y : par_in h s self -> grid_in h g (pa_cube self) ->
  part_in h (obj_part (HMember (h_par_table L s) y) (h_par_obj L f2m1 s g)) (par_member L f2m1 self).
Proof.
  intros H G. eapply obj_part_in; [apply par_obj_in; eassumption|apply par_member_in; exact H|reflexivity|reflexivity|reflexivity].
Qed.
