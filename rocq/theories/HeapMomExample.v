(** * HeapMomExample: cubes, components and a mixture laid out in a heap, with what
    the moments use. *)
From Coq Require Import Reals Lra String Ascii List Bool Arith ZArith Lia.
From Verif Require Import Num NumLemmas Arr ArrLemmas PyStr Cube Base Moments Spec Build Parametric ParMoments ParExample ParMomExample
  Mixture MixStat MixSpec MixExample Heap HeapLemmas HeapClaims HeapPar HeapParClaims HeapRun HeapHist HeapExample
  HeapMix HeapMixClaims HeapMixRun HeapMixHist HeapMixExample HeapMom HeapMomLemmas HeapParMom HeapParMomLemmas HeapMixMom HeapMixMomLemmas
  HeapMomRun HeapMomHist.
Import ListNotations.
Local Open Scope nat_scope.

(** the further arrays of a cube, from buffer [n] on *)
Definition grid_heap (c : cube) : heap :=
  [c_x c; c_y c; par_cents_t (c_ssps c); par_cents_z (c_ssps c); par_edges_t (c_ssps c); par_edges_z (c_ssps c)].
Definition grid_obj (n : nat) (c : cube) : hgrid :=
  HGrid (cube_obj c) (whole n (c_x c)) (whole (n + 1) (c_y c)) (whole (n + 2) (par_cents_t (c_ssps c)))
        (whole (n + 3) (par_cents_z (c_ssps c))) (whole (n + 4) (par_edges_t (c_ssps c))) (whole (n + 5) (par_edges_z (c_ssps c))).
Lemma whole_sees h k a : nth_error h k = Some a -> sees h (whole k a) a.
Proof. intros E. eapply ref_sees. apply whole_ref. exact E. Qed.
Lemma grid_obj_in c l n : length (shp (c_x c)) = 1 -> length (shp (c_y c)) = 1 -> n = 4 + length l ->
  grid_in (cube_heap c ++ l ++ grid_heap c) (grid_obj n c) c.
Proof.
  intros H1 H2 ->. split; [apply cube_obj_in|].
  repeat (split; [apply whole_sees; rewrite app_assoc; rewrite nth_error_app2 by (rewrite app_length; cbn; lia);
    rewrite app_length; cbn [cube_heap length]; first
      [replace (4 + length l - (4 + length l)) with 0 by lia; reflexivity
      |replace (4 + length l + 1 - (4 + length l)) with 1 by lia; reflexivity
      |replace (4 + length l + 2 - (4 + length l)) with 2 by lia; reflexivity
      |replace (4 + length l + 3 - (4 + length l)) with 3 by lia; reflexivity
      |replace (4 + length l + 4 - (4 + length l)) with 4 by lia; reflexivity
      |replace (4 + length l + 5 - (4 + length l)) with 5 by lia; reflexivity]|]).
  split; assumption.
Qed.

(** ** every base component, every parametric component *)
Definition compm_heap (self : component) : heap := cube_heap (comp_cube self) ++ [log_p_tvxz self] ++ grid_heap (comp_cube self).
Lemma compm_in self : comp_in (compm_heap self) (comp_obj self) self.
Proof.
  unfold compm_heap. rewrite app_assoc. eapply comp_keeps; [apply keeps_app|apply comp_obj_in].
Qed.
Lemma compm_apart self : apart (grid_obj 5 (comp_cube self)) (comp_obj self).
Proof. intros r Hr. cbn in Hr. repeat destruct Hr as [<-|Hr]; try (cbn; lia); contradiction. Qed.
Definition parm_heap (self : par) : heap :=
  cube_heap (pa_cube self) ++ map obuf [pa_log_p_t self; pa_log_p_x_t self; pa_log_p_z_tx self; pa_mu_v self; pa_sig_v self] ++
  grid_heap (pa_cube self).
Lemma parm_in self : par_in (parm_heap self) (par_object self) self.
Proof.
  unfold parm_heap. rewrite app_assoc. eapply par_keeps; [apply keeps_app|apply par_object_in].
Qed.

(** ** one history for the examples *)
Definition xmom : list mom_event :=
  [QAsk (QMean "v" false); QEdit 0 (Arr [] (fun _ => Fin 0%R)); QAsk (QCovariance "tv_x" true); QAsk (QCorrelation "q" true);
   QEdit 1 (full [2; 1] (Fin 0%R)); QAsk (QExcessL "z" 4 true); QAsk (QMean "v" false)].

(** ** the mixture *)
Definition xgrid : hgrid := grid_obj 11 (cube_of exg).
Definition xmheap : heap := xheap ++ grid_heap (cube_of exg).
Definition xmparts : hparts :=
  [obj_part (HMember (h_table (HComp xcube (whole 4 (log_p_tvxz exc)))) None) (h_base_obj xgrid (HComp xcube (whole 4 (log_p_tvxz exc))));
   obj_part (HMember (h_table (HComp xcube (whole 5 (log_p_tvxz exc1)))) None) (h_base_obj xgrid (HComp xcube (whole 5 (log_p_tvxz exc1))));
   obj_part (HMember (h_par_table exL xpar) None) (h_par_obj exL (Fin 1%R) xpar xgrid)].
Lemma xm_keeps : keeps (length xheap) xheap xmheap. Proof. apply keeps_app. Qed.
Lemma xgrid_in : grid_in xmheap xgrid (cube_of exg).
Proof. unfold xmheap, xheap. rewrite <- app_assoc. apply grid_obj_in; reflexivity. Qed.
Lemma xmparts_in i : i < length xmparts -> part_in xmheap (get_part xmparts i) (xvals i).
Proof.
  intros H. assert (C : cube_in xmheap xcube (cube_of exg)) by (eapply cube_keeps; [apply xm_keeps|exact xcube_in]).
  destruct i as [|[|[|i]]]; [| | |cbn in H; lia]; cbn [get_part nth xmparts xvals].
  - apply base_part_in; [split; [exact C|apply whole_ref; reflexivity]|exact xgrid_in].
  - apply base_part_in; [split; [exact C|apply whole_ref; reflexivity]|exact xgrid_in].
  - apply par_part_in; [|exact xgrid_in]. split; [exact C|]. do 4 (split; [apply oobj_in; reflexivity|]). apply oobj_in; reflexivity.
Qed.

(** ** the bin edges of velocity are shared with the caller *)
Lemma fresh_seen h m p : fresh_answer h m p -> ressame (seen (m h)) p.
Proof.
  unfold fresh_answer, seen. destruct (m h) as [h' [r|e]], p; cbn; intros [_ H]; try contradiction; auto. apply H.
Qed.
Definition xedges : arr num := Arr [3] (fun idx => Fin (2 * INR (nth 0 idx 0%nat))%R).
Lemma edges_shared_claim : exists h g c r v, grid_in h g c /\ h_edges g "v" h = (h, Ok r) /\ shp v = na_shp r /\
  ~ ressame (seen (h_values g "v" (store h r v))) (seen (h_values g "v" h)).
Proof.
  set (g := grid_obj 5 (cube_of exg)). set (h := compm_heap exc).
  assert (G : grid_in h g (comp_cube exc)) by (apply grid_obj_in; reflexivity).
  exists h, g, (comp_cube exc), (hq_v_edg (hg_cube g)), xedges.
  split; [exact G|]. split; [reflexivity|]. split; [reflexivity|].
  pose proof (fresh_seen _ _ _ (proj1 (values_new h g _ G))) as S1.
  destruct (edit_edges_in h g (comp_obj exc) exc xedges (compm_in exc) G eq_refl (compm_apart exc) eq_refl) as [_ G2].
  pose proof (fresh_seen _ _ _ (proj1 (values_new _ g _ G2))) as S2. intros S3.
  pose proof (ressame_trans _ _ _ (ressame_sym _ _ S2) (ressame_trans _ _ _ S3 S1)) as S. clear S1 S2 S3.
  destruct S as [_ S]. specialize (S [0]).
  match type of S with ?P -> _ => assert (X : P) by (repeat constructor; cbn; lia) end. specialize (S X). clear X.
  revert S. cbn. unfold ndiv, nadd. cbn. destruct (Req_EM_T 2 0) as [E|_]; [lra|]. unfold pick. cbn. intros S. injection S. lra.
Qed.

(** ** the answers of [xmom] *)
Lemma xmom_answers (val : mom_question -> res (arr num)) l : Forall2 (fun q o => ressame o (val q)) (qasked xmom) l ->
  exists a b c d e, l = [a; b; c; d; e] /\ ressame a (val (QMean "v" false)) /\ ressame b (val (QCovariance "tv_x" true)) /\
  ressame c (val (QCorrelation "q" true)) /\ ressame d (val (QExcessL "z" 4 true)) /\ ressame e a.
Proof.
  intros H2. inversion H2 as [|? a ? l1 A1 B1]; subst. inversion B1 as [|? b ? l2 A2 B2]; subst.
  inversion B2 as [|? c ? l3 A3 B3]; subst. inversion B3 as [|? d ? l4 A4 B4]; subst. inversion B4 as [|? e ? l5 A5 B5]; subst. inversion B5; subst.
  exists a, b, c, d, e. repeat (split; [first [reflexivity|assumption]|]). eapply ressame_trans; [exact A5|apply ressame_sym; exact A1].
Qed.
Lemma obj_answers f2m1 ppf o l : Forall2 (fun q r => ressame r (obj_value f2m1 ppf o q)) (qasked xmom) l ->
  exists a b c d e, l = [a; b; c; d; e] /\ ressame a (get_mean o "v" false) /\ ressame b (get_covariance o "tv_x" true) /\
  ressame c (get_correlation o "q" true) /\ ressame d (NormalL.get_excess_l_moment ppf o "z" 4 true) /\ ressame e a.
Proof. exact (xmom_answers _ l). Qed.
Lemma mixm_answers f2m1 ppf self l : Forall2 (fun q r => ressame r (mixm_value f2m1 ppf self q)) (qasked xmom) l ->
  exists a b c d e, l = [a; b; c; d; e] /\ ressame a (mix_mean self "v" false) /\ ressame b (mix_covariance self "tv_x" true) /\
  ressame c (mix_correlation self "q" true) /\ ressame d (NormalL.get_excess_l_moment ppf (mix_obj self) "z" 4 true) /\ ressame e a.
Proof. exact (xmom_answers _ l). Qed.
