(** * Claim C94: mixtures with arrays and lists as objects. *)
From Coq Require Import Reals Lra String Ascii List Bool Arith ZArith Lia.
From Verif Require Import Num Arr Cube Base Parametric ParMoments Build Mixture MixSpec MixExample Datacube ParExample ParMomExample
  Heap HeapLemmas HeapClaims HeapPar HeapParClaims HeapRun HeapHist HeapExample HeapMix HeapMixClaims HeapMixRun HeapMixHist HeapMixExample.
Import ListNotations.
Local Open Scope nat_scope.

(** ** C94 *)
(** A heap [h0] holds a cube and the component objects [os], whose values are
    [vals] ([member_in]).  The caller makes an array of weights, after everything
    else, and a mixture of the components in its list [k].  Then, in any order, it
    queries the mixture, overwrites arrays it was given, overwrites its array of
    weights, and replaces entries of its list.  Nothing in [h0] changes.  Every
    query answers for the weights given to the constructor and for the components
    which are in the caller's list at that moment ([masked]). *)
Theorem C94_history : forall h0 os vals hc c ls k ws self,
  cube_in h0 hc c -> (forall i, i < length os -> member_in h0 (object os i) (vals i)) ->
  k < length ls -> Forall (fun i => i < length os) (nth k ls []) ->
  mixture_init c (map vals (nth k ls [])) ws = Ok self ->
  let wa := whole (length h0) (arr1 ws NaN) in
  exists h1 m, h_mixture hc ls k wa (h0 ++ [arr1 ws NaN]) = (h1, Ok m) /\
    forall es, Forall (names (length os)) es ->
      (forall a, a < length h0 -> nth_error (fst (mrun os m wa es h1 ls [])) a = nth_error h0 a) /\
      Forall2 (fun qi o => ressame o (mix_value (Mixture c (map vals (snd qi)) ws) (fst qi)))
        (masked es (nth k ls [])) (snd (mrun os m wa es h1 ls [])).
Proof. exact mix_history_claim. Qed.
Print Assumptions C94_history.
(** one query: nothing that existed changes, the result is in a new buffer, and
    it is what the model on values (Mixture.v) says *)
Theorem C94_query : forall h os ls m self q, mix_in h os ls m self ->
  fresh_answer h (mix_answer os ls m q) (mix_value self q).
Proof. exact mix_query_claim. Qed.
Print Assumptions C94_query.
(** base and parametric components are such components, whatever their ybar *)
Theorem C94_base_member : forall h s self y, comp_in h s self ->
  member_in h (HMember (h_table s) y) (comp_member self).
Proof. exact comp_member_in. Qed.
Print Assumptions C94_base_member.
Theorem C94_parametric_member : forall h s self L f2m1 y, par_in h s self ->
  member_in h (HMember (h_par_table L s) y) (par_member L f2m1 self).
Proof. exact par_member_in. Qed.
Print Assumptions C94_parametric_member.
Example C94_history_case :
  let wa := whole (length xheap) (arr1 xws NaN) in
  exists h1 m a b c d, h_mixture xcube xlists 0 wa (xheap ++ [arr1 xws NaN]) = (h1, Ok m) /\
    snd (mrun xobjects m wa xevents h1 xlists []) = [a; b; c; d] /\
    ressame a (mix_get_p exm "t" true false false) /\ ressame b a /\ ressame c (mix_get_p xm1 "t" true false false) /\
    ressame d (mix_get_log_p (Mixture (cube_of exg) [comp_member exc1; par_member exL (Fin 1%R) exmp] xws) "v_tx" false true true) /\
    nth_error (fst (mrun xobjects m wa xevents h1 xlists [])) 5 = Some (log_p_tvxz exc1).
Proof.
  intros wa. destruct (C94_history xheap xobjects xvals xcube (cube_of exg) xlists 0 xws exm) as (h1 & m & E & H);
    [exact xcube_in|exact xobjects_in|cbn; lia|repeat constructor; cbn; lia|exact xinit|].
  destruct (H xevents) as [H1 H2]; [repeat constructor; cbn; lia|]. fold wa in E, H1, H2.
  exists h1, m. specialize (H1 5). revert H1 H2. generalize (mrun xobjects m wa xevents h1 xlists []). intros o H1 H2.
  cbn [nth xlists masked set_nth xevents] in H2. inversion H2 as [|? a ? l1 A1 B1]; subst. inversion B1 as [|? b ? l2 A2 B2]; subst.
  inversion B2 as [|? c ? l3 A3 B3]; subst. inversion B3 as [|? d ? l4 A4 B4]; subst. inversion B4; subst.
  exists a, b, c, d. split; [exact E|]. split; [congruence|]. split; [exact A1|].
  split; [eapply ressame_trans; [exact A2|apply ressame_sym; exact A1]|]. split; [exact A3|]. split; [exact A4|].
  rewrite H1 by (cbn; lia). reflexivity.
Qed.
(** so a caller who replaces an entry of its list changes the mixture *)
Theorem C94_list_is_shared : exists h0 os vals hc c ls ws self,
  cube_in h0 hc c /\ (forall i, i < length os -> member_in h0 (object os i) (vals i)) /\
  mixture_init c (map vals (nth 0 ls [])) ws = Ok self /\
  let wa := whole (length h0) (arr1 ws NaN) in
  exists h1 m q i k a b, h_mixture hc ls 0 wa (h0 ++ [arr1 ws NaN]) = (h1, Ok m) /\
    snd (mrun os m wa [MAsk q; MSet i k; MAsk q] h1 ls []) = [a; b] /\ ~ ressame b a.
Proof. exact list_shared_claim. Qed.
Print Assumptions C94_list_is_shared.
(** evaluate_ybar: nothing that existed changes, in particular no member's ybar,
    and the sum is in a new buffer *)
Theorem C94_datacube : forall h os ls m ys ws,
  Forall2 (fun k y => oref h (hm_ybar (object os k)) y) (hx_members ls m) ys ->
  ref 0 h (hx_weights m) (arr1 ws NaN) -> length ws = length ys ->
  fresh_answer h (h_mix_ybar os ls m) (mixture_ybar ys ws).
Proof. exact ybar_claim. Qed.
Print Assumptions C94_datacube.
Example C94_datacube_case :
  let y := full [2; 1; 1] (Fin 1%R) in let h := [y; arr1 xws NaN] in
  let m := HMix xcube 0 2 (whole 1 (arr1 xws NaN)) in
  let os := [HMember (fun _ => None) (Some (whole 0 y))] in
  nth_error (fst (h_mix_ybar os [[0; 0]] m h)) 0 = Some y /\
  exists r, snd (h_mix_ybar os [[0; 0]] m h) = Ok r /\ 2 <= na_addr r /\
    ent (value (fst (h_mix_ybar os [[0; 0]] m h)) r) [1; 0; 0] = Fin 1%R.
Proof.
  intros y h m os. destruct (C94_datacube h os [[0; 0]] m [Some y; Some y] xws) as [H1 H2].
  - apply Forall2_cons; [|apply Forall2_cons; [|apply Forall2_nil]]; apply whole_ref; reflexivity.
  - apply whole_ref; reflexivity.
  - reflexivity.
  - revert H1 H2. generalize (h_mix_ybar os [[0; 0]] m h). intros [h' [r|e]] H1 H2; [|contradiction]. cbn [fst snd] in *.
    split; [rewrite H1 by (cbn; lia); reflexivity|].
    exists r. split; [reflexivity|]. cbn in H2. destruct H2 as [H2 [S1 S2]]. split; [lia|].
    rewrite S2 by (rewrite S1; cbn; repeat constructor; cbn; lia). cbn. unfold nmul, nadd. f_equal. lra.
Qed.
(** a base component keeps the array of log densities it is given, without
    copying it: what the caller writes to that array becomes the component *)
Theorem C94_component_array_is_shared : forall h s self w,
  comp_in h s self -> shp w = na_shp (ho_log_p s) ->
  (forall r, In r [hq_delta_t (ho_cube s); hq_delta_z (ho_cube s); hq_v_edg (ho_cube s); hq_light_weights (ho_cube s)] ->
     na_addr r <> na_addr (ho_log_p s)) ->
  comp_in (store h (ho_log_p s) w) s (Component (comp_cube self) w).
Proof. exact component_alias_claim. Qed.
Print Assumptions C94_component_array_is_shared.
Example C94_component_array_case :
  comp_in (store (comp_heap exc) (whole 4 (log_p_tvxz exc)) (log_p_tvxz exc1)) (comp_obj exc) (Component (comp_cube exc) (log_p_tvxz exc1)).
Proof.
  apply (C94_component_array_is_shared (comp_heap exc) (comp_obj exc) exc); [apply comp_obj_in|reflexivity|].
  intros r Hr. cbn in Hr. repeat destruct Hr as [<-|Hr]; try (cbn; lia); contradiction.
Qed.
