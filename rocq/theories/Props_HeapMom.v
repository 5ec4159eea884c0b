(** * Claim C95: moments with arrays as objects. *)
From Coq Require Import Reals Lra String Ascii List Bool Arith ZArith Lia.
From Verif Require Import Num Arr Cube Base Moments Parametric ParMoments Build Mixture MixStat MixSpec MixExample ParExample ParMomExample
  Heap HeapLemmas HeapClaims HeapPar HeapParClaims HeapRun HeapHist HeapExample HeapMix HeapMixClaims HeapMixHist HeapMixExample
  HeapMom HeapMomLemmas HeapParMom HeapMixMom HeapMixMomLemmas HeapMomRun HeapMomHist HeapMomExample.
Import ListNotations.
Local Open Scope nat_scope.

(** ** C95 *)
(** A heap holds the arrays of a cube ([grid_in]) and of a component ([comp_in],
    [par_in]); [q] is a call of get_p or of any of the moments of base.py
    ([mom_question]).  Nothing that existed changes, the result is in a new buffer,
    and it is what the models on values say. *)
Theorem C95_base_query : forall f2m1 ppf h g s self q, comp_in h s self -> grid_in h g (comp_cube self) ->
  fresh_answer h (obj_answer f2m1 ppf (h_base_obj g s) q) (obj_value f2m1 ppf (base_obj self) q).
Proof. exact base_mom_query. Qed.
Print Assumptions C95_base_query.
(** So in any sequence of such calls, with the caller overwriting arrays it was
    given, every call answers as the first one would. *)
Theorem C95_base_history : forall f2m1 ppf h g s self es, comp_in h s self -> grid_in h g (comp_cube self) ->
  (forall a, a < length h -> nth_error (fst (qrun (obj_answer f2m1 ppf (h_base_obj g s)) es h [])) a = nth_error h a) /\
  Forall2 (fun q o => ressame o (obj_value f2m1 ppf (base_obj self) q)) (qasked es)
    (snd (qrun (obj_answer f2m1 ppf (h_base_obj g s)) es h [])).
Proof. exact base_mom_history. Qed.
Print Assumptions C95_base_history.
Example C95_base_case : forall ppf, exists a b c d e,
  let o := qrun (obj_answer (Fin 1%R) ppf (h_base_obj (grid_obj 5 (comp_cube exc)) (comp_obj exc))) xmom (compm_heap exc) [] in
  snd o = [a; b; c; d; e] /\
  ressame a (get_mean (base_obj exc) "v" false) /\ ressame b (get_covariance (base_obj exc) "tv_x" true) /\
  ressame c (get_correlation (base_obj exc) "q" true) /\
  ressame d (NormalL.get_excess_l_moment ppf (base_obj exc) "z" 4 true) /\ ressame e a /\
  nth_error (fst o) 4 = Some (log_p_tvxz exc).
Proof.
  intros ppf.
  destruct (C95_base_history (Fin 1%R) ppf (compm_heap exc) (grid_obj 5 (comp_cube exc)) (comp_obj exc) exc xmom) as [H1 H2];
    [apply compm_in|apply grid_obj_in; reflexivity|].
  specialize (H1 4). revert H1 H2. generalize (qrun (obj_answer (Fin 1%R) ppf (h_base_obj (grid_obj 5 (comp_cube exc)) (comp_obj exc))) xmom (compm_heap exc) []).
  intros o H1 H2. destruct (obj_answers _ _ _ _ H2) as (a & b & c & d & e & E & A1 & A2 & A3 & A4 & A5). exists a, b, c, d, e. cbv zeta.
  repeat (split; [assumption|]). rewrite H1 by (cbn; lia). reflexivity.
Qed.

(** A parametric component: the same, except for get_mean("v_tx") and
    get_mean("v_txz") ([shares]). *)
Theorem C95_parametric_query : forall L f2m1 ppf h g s self q,
  par_in h s self -> grid_in h g (pa_cube self) -> ~ shares q ->
  fresh_answer h (obj_answer f2m1 ppf (h_par_obj L f2m1 s g) q) (obj_value f2m1 ppf (par_obj L f2m1 self) q).
Proof. exact par_mom_query. Qed.
Print Assumptions C95_parametric_query.
Theorem C95_parametric_history : forall L f2m1 ppf h g s self es,
  par_in h s self -> grid_in h g (pa_cube self) -> Forall (fun q => ~ shares q) (qasked es) ->
  (forall a, a < length h -> nth_error (fst (qrun (obj_answer f2m1 ppf (h_par_obj L f2m1 s g)) es h [])) a = nth_error h a) /\
  Forall2 (fun q o => ressame o (obj_value f2m1 ppf (par_obj L f2m1 self) q)) (qasked es)
    (snd (qrun (obj_answer f2m1 ppf (h_par_obj L f2m1 s g)) es h [])).
Proof. exact par_mom_history. Qed.
Print Assumptions C95_parametric_history.
Example C95_parametric_case : forall ppf, exists a b c d e,
  let o := qrun (obj_answer (Fin 1%R) ppf (h_par_obj exL (Fin 1%R) (par_object exmp) (grid_obj 9 (pa_cube exmp)))) xmom (parm_heap exmp) [] in
  snd o = [a; b; c; d; e] /\
  ressame a (get_mean (par_obj exL (Fin 1%R) exmp) "v" false) /\ ressame e a /\ nth_error (fst o) 7 = pa_mu_v exmp.
Proof.
  intros ppf.
  destruct (C95_parametric_history exL (Fin 1%R) ppf (parm_heap exmp) (grid_obj 9 (pa_cube exmp)) (par_object exmp) exmp xmom) as [H1 H2];
    [apply parm_in|apply grid_obj_in; reflexivity|repeat (constructor; [cbn; try tauto; intros [X|X]; discriminate X|]); constructor|].
  specialize (H1 7). revert H1 H2. generalize (qrun (obj_answer (Fin 1%R) ppf (h_par_obj exL (Fin 1%R) (par_object exmp) (grid_obj 9 (pa_cube exmp)))) xmom (parm_heap exmp) []).
  intros o H1 H2. destruct (obj_answers _ _ _ _ H2) as (a & b & c & d & e & E & A1 & A2 & A3 & A4 & A5). exists a, b, c, d, e. cbv zeta.
  split; [exact E|]. split; [exact A1|]. split; [exact A5|]. rewrite H1 by (cbn; lia). reflexivity.
Qed.
(** What these two return lies in the buffer of mu_v, and shows the mean velocities
    of whatever mu_v holds at any later time. *)
Theorem C95_shared_means : forall L f2m1 h g s self w lw r,
  par_in h s self -> w = "v_tx"%string \/ w = "v_txz"%string ->
  snd (h_get_mean (h_par_obj L f2m1 s g) w lw h) = Ok r ->
  fst (h_get_mean (h_par_obj L f2m1 s g) w lw h) = h /\
  (exists mu, hp_mu_v s = Some mu /\ na_addr r = na_addr mu) /\
  forall h' self', par_in h' s self' -> ressame (Ok (value h' r)) (get_mean (par_obj L f2m1 self') w lw).
Proof. exact live_mean. Qed.
Print Assumptions C95_shared_means.
(** the array of E(v|t,x,z) held by the caller, before and after E(v|t,x) is zeroed *)
Example C95_shared_means_case : exists r r',
  snd (h_get_mean (h_par_obj exL (Fin 1%R) (par_object exmp) (grid_obj 9 (pa_cube exmp))) "v_txz" false (parm_heap exmp)) = Ok r /\
  snd (h_get_mean (h_par_obj exL (Fin 1%R) (par_object exmp) (grid_obj 9 (pa_cube exmp))) "v_tx" false (parm_heap exmp)) = Ok r' /\
  ressame (Ok (value (parm_heap exmp) r)) (get_mean (par_obj exL (Fin 1%R) exmp) "v_txz" false) /\
  ressame (Ok (value (store (parm_heap exmp) r' zmap) r)) (get_mean (par_obj exL (Fin 1%R) (put_mu_v exmp zmap)) "v_txz" false).
Proof.
  destruct (snd (h_get_mean (h_par_obj exL (Fin 1%R) (par_object exmp) (grid_obj 9 (pa_cube exmp))) "v_txz" false (parm_heap exmp))) as [r|] eqn:E;
    [|discriminate E].
  exists r, (whole 7 (obuf (pa_mu_v exmp))). split; [reflexivity|]. split; [reflexivity|].
  destruct (C95_shared_means exL (Fin 1%R) (parm_heap exmp) (grid_obj 9 (pa_cube exmp)) (par_object exmp) exmp "v_txz" false r) as (_ & _ & H);
    [apply parm_in|right; reflexivity|exact E|].
  split; [apply H; apply parm_in|]. apply H.
  apply (mean_alias_claim (parm_heap exmp) (par_object exmp) exmp); [apply parm_in|reflexivity| |reflexivity].
  intros q Hr. cbn in Hr. repeat destruct Hr as [<-|Hr]; try (cbn; lia); contradiction.
Qed.

(** A mixture, from its constructor on: no array of the cube, of a component, nor
    the caller's weights ever changes, and every call answers as the first one
    would.  The components are any with methods as in [part_in], which base and
    parametric components have. *)
Theorem C95_mixture_history : forall f2m1 ppf h0 ps vals hc c g ls k ws self,
  cube_in h0 hc c -> grid_in h0 g c -> (forall i, i < length ps -> part_in h0 (get_part ps i) (vals i)) ->
  Forall (fun i => i < length ps) (nth k ls []) ->
  mixture_init c (map vals (nth k ls [])) ws = Ok self ->
  let wa := Nda (length h0) [length ws] (fun idx => idx) in
  exists h1 m, h_mixture hc ls k wa (h0 ++ [arr1 ws NaN]) = (h1, Ok m) /\
    forall es,
      (forall a, a <= length h0 -> nth_error (fst (qrun (mixm_answer f2m1 ppf ps ls m g) es h1 [])) a = nth_error (h0 ++ [arr1 ws NaN]) a) /\
      Forall2 (fun q o => ressame o (mixm_value f2m1 ppf self q)) (qasked es) (snd (qrun (mixm_answer f2m1 ppf ps ls m g) es h1 [])).
Proof. exact mixm_built. Qed.
Print Assumptions C95_mixture_history.
(** one call: the result is a new array, also for E(v|t,x) *)
Theorem C95_mixture_query : forall f2m1 ppf h ps ls m g self q, mixm_in ps ls m self h -> grid_in h g (mx_cube self) ->
  fresh_answer h (mixm_answer f2m1 ppf ps ls m g q) (mixm_value f2m1 ppf self q).
Proof. exact mixm_query. Qed.
Print Assumptions C95_mixture_query.
Theorem C95_base_part : forall h g s self y, comp_in h s self -> grid_in h g (comp_cube self) ->
  part_in h (obj_part (HMember (h_table s) y) (h_base_obj g s)) (comp_member self).
Proof. exact base_part_in. Qed.
Print Assumptions C95_base_part.
Theorem C95_parametric_part : forall L f2m1 h g s self y, par_in h s self -> grid_in h g (pa_cube self) ->
  part_in h (obj_part (HMember (h_par_table L s) y) (h_par_obj L f2m1 s g)) (par_member L f2m1 self).
Proof. exact par_part_in. Qed.
Print Assumptions C95_parametric_part.
Example C95_mixture_case : forall ppf,
  let wa := Nda (length xmheap) [2] (fun idx => idx) in
  exists h1 m a b c d e, h_mixture xcube xlists 0 wa (xmheap ++ [arr1 xws NaN]) = (h1, Ok m) /\
    let o := qrun (mixm_answer (Fin 1%R) ppf xmparts xlists m xgrid) xmom h1 [] in
    snd o = [a; b; c; d; e] /\
    ressame a (mix_mean exm "v" false) /\ ressame b (mix_covariance exm "tv_x" true) /\
    ressame d (NormalL.get_excess_l_moment ppf (mix_obj exm) "z" 4 true) /\ ressame e a /\
    nth_error (fst o) 5 = Some (log_p_tvxz exc1).
Proof.
  intros ppf wa.
  destruct (C95_mixture_history (Fin 1%R) ppf xmheap xmparts xvals xcube (cube_of exg) xgrid xlists 0 xws exm) as (h1 & m & E & H);
    [apply xgrid_in|exact xgrid_in|exact xmparts_in|repeat constructor; cbn; lia|exact xinit|].
  destruct (H xmom) as [H1 H2]. clear H. exists h1, m.
  specialize (H1 5). revert H1 H2. generalize (qrun (mixm_answer (Fin 1%R) ppf xmparts xlists m xgrid) xmom h1 []). intros o H1 H2.
  destruct (mixm_answers _ _ _ _ H2) as (a & b & c & d & e & E' & A1 & A2 & A3 & A4 & A5). exists a, b, c, d, e. split; [exact E|]. cbv zeta.
  split; [exact E'|]. split; [exact A1|]. split; [exact A2|]. split; [exact A4|]. split; [exact A5|]. rewrite H1 by (cbn; lia). reflexivity.
Qed.

(** get_variable_values and get_variable_edges: seven calls return the cube's own
    arrays, the other three make new ones *)
Theorem C95_own_arrays : forall h g,
  h_values g "t" h = (h, Ok (hg_cents_t g)) /\ h_values g "z" h = (h, Ok (hg_cents_z g)) /\
  h_values g "x1" h = (h, Ok (hg_x g)) /\ h_values g "x2" h = (h, Ok (hg_y g)) /\
  h_edges g "t" h = (h, Ok (hg_edges_t g)) /\ h_edges g "v" h = (h, Ok (hq_v_edg (hg_cube g))) /\
  h_edges g "z" h = (h, Ok (hg_edges_z g)).
Proof. exact values_own. Qed.
Print Assumptions C95_own_arrays.
Theorem C95_new_arrays : forall h g c, grid_in h g c ->
  fresh_answer h (h_values g "v") (get_variable_values c "v") /\
  fresh_answer h (h_edges g "x1") (get_variable_edges c "x1") /\
  fresh_answer h (h_edges g "x2") (get_variable_edges c "x2").
Proof. exact values_new. Qed.
Print Assumptions C95_new_arrays.
Example C95_new_arrays_case :
  fresh_answer (compm_heap exc) (h_values (grid_obj 5 (comp_cube exc)) "v") (get_variable_values (comp_cube exc) "v").
Proof. apply C95_new_arrays. apply grid_obj_in; reflexivity. Qed.
(** A caller who overwrites the velocity edges it was given changes the cube: when
    no other array shares their buffer ([apart]), every later call answers for the
    cube with these edges. *)
Theorem C95_edited_edges : forall f2m1 ppf h g s self r v,
  comp_in h s self -> grid_in h g (comp_cube self) -> ho_cube s = hg_cube g -> apart g s ->
  snd (h_edges g "v" h) = Ok r -> shp v = shp (c_v_edg (comp_cube self)) ->
  let self' := Component (with_v_edg (comp_cube self) v) (log_p_tvxz self) in
  fresh_answer (store h r v) (h_values g "v") (get_variable_values (comp_cube self') "v") /\
  forall q, fresh_answer (store h r v) (obj_answer f2m1 ppf (h_base_obj g s) q) (obj_value f2m1 ppf (base_obj self') q).
Proof. exact edit_edges. Qed.
Print Assumptions C95_edited_edges.
Example C95_edited_edges_case : forall ppf,
  fresh_answer (store (compm_heap exc) (whole 2 (c_v_edg (comp_cube exc))) xedges)
    (obj_answer (Fin 1%R) ppf (h_base_obj (grid_obj 5 (comp_cube exc)) (comp_obj exc)) (QMean "v_x" false))
    (get_mean (base_obj (Component (with_v_edg (comp_cube exc) xedges) (log_p_tvxz exc))) "v_x" false).
Proof.
  intros ppf.
  destruct (C95_edited_edges (Fin 1%R) ppf (compm_heap exc) (grid_obj 5 (comp_cube exc)) (comp_obj exc) exc
    (whole 2 (c_v_edg (comp_cube exc))) xedges) as [_ H];
    [apply compm_in|apply grid_obj_in; reflexivity|reflexivity|apply compm_apart|reflexivity|reflexivity|].
  exact (H (QMean "v_x" false)).
Qed.
(** so the answers of the cube are not protected from the caller *)
Theorem C95_own_arrays_refuted : exists h g c r v, grid_in h g c /\ h_edges g "v" h = (h, Ok r) /\ shp v = na_shp r /\
  ~ ressame (seen (h_values g "v" (store h r v))) (seen (h_values g "v" h)).
Proof. exact edges_shared_claim. Qed.
Print Assumptions C95_own_arrays_refuted.
