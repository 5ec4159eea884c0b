(** * Claims C12, C68 (datacube unchanged) and C75: arrays as objects. *)
From Coq Require Import Reals Lra String Ascii List Bool Arith ZArith Lia.
From Verif Require Import Num NumLemmas Arr ArrLemmas PyStr Cube Base Parametric Build ParExample ParMomExample
  Noise NoiseExample Props_Noise Heap HeapLemmas HeapClaims HeapPar HeapParClaims HeapNoise HeapRun HeapHist HeapExample.
Import ListNotations.
Local Open Scope nat_scope.

(** ** C12 *)
(** [comp_in h s self]: the heap [h] holds the component, [self] being the values
    of its arrays.  [run] makes the calls of a history one after the other, the
    caller overwriting returned arrays in between.  No buffer that existed at the
    start changes, so neither the stored log density nor the arrays of the cube;
    every call shows what it would have shown had it been the first. *)
Theorem C12_history : forall h s self es, comp_in h s self ->
  (forall a, a < length h -> nth_error (fst (run (base_answer s) es h [])) a = nth_error h a) /\
  Forall2 (fun q o => ressame o (seen (base_answer s q h))) (asked es) (snd (run (base_answer s) es h [])).
Proof. exact base_history_claim. Qed.
Print Assumptions C12_history.
(** one call: nothing that existed changes, the result is in a new buffer, and it
    is what the model on values (Base.v), used by all other claims, says *)
Theorem C12_query : forall h s self q, comp_in h s self -> fresh_answer h (base_answer s q) (base_value self q).
Proof. exact base_query_claim. Qed.
Print Assumptions C12_query.
(** every component can be laid out in a heap *)
Theorem C12_layout : forall self, comp_in (comp_heap self) (comp_obj self) self.
Proof. exact comp_obj_in. Qed.
Print Assumptions C12_layout.
Example C12_history_case :
  let after := run (base_answer (comp_obj exc)) ex_events (comp_heap exc) [] in
  nth_error (fst after) 4 = Some (log_p_tvxz exc) /\
  exists a b c d, snd after = [a; b; Err AttributeError; d] /\ c = a /\ ressame d c /\ exists v, a = Ok v.
Proof.
  cbv zeta. destruct (C12_history _ _ _ ex_events (C12_layout exc)) as [H1 H2].
  split; [rewrite H1 by (cbn; lia); reflexivity|].
  set (os := snd (run (base_answer (comp_obj exc)) ex_events (comp_heap exc) [])) in *.
  cbn [asked ex_events] in H2. clearbody os.
  inversion H2 as [|? a ? l1 A1 B1]; subst. inversion B1 as [|? b ? l2 A2 B2]; subst.
  inversion B2 as [|? c ? l3 A3 B3]; subst. inversion B3 as [|? d ? l4 A4 B4]; subst. inversion B4; subst.
  exists a, b, a, d. split; [|split; [reflexivity|split; [eapply ressame_trans; [exact A4|apply ressame_sym; exact A1]|]]].
  - repeat f_equal. destruct c as [v|e]; [contradiction|]. cbn in A3. congruence.
  - destruct a as [v|e]; [exists v; reflexivity|]. exfalso. exact A1.
Qed.
(** the same for parametric components *)
Theorem C12_parametric_history : forall L h s self es, par_in h s self ->
  (forall a, a < length h -> nth_error (fst (run (par_answer L s) es h [])) a = nth_error h a) /\
  Forall2 (fun q o => ressame o (seen (par_answer L s q h))) (asked es) (snd (run (par_answer L s) es h [])).
Proof. exact par_history_claim. Qed.
Print Assumptions C12_parametric_history.
Theorem C12_parametric_query : forall L h s self q, par_in h s self -> fresh_answer h (par_answer L s q) (par_value L self q).
Proof. exact par_query_claim. Qed.
Print Assumptions C12_parametric_query.
Theorem C12_parametric_layout : forall self, par_in (par_heap self) (par_object self) self.
Proof. exact par_object_in. Qed.
Print Assumptions C12_parametric_layout.
Example C12_parametric_case :
  nth_error (fst (run (par_answer exL (par_object exmp)) ex_events (par_heap exmp) [])) 4 = Some (obuf (pa_log_p_t exmp)).
Proof.
  destruct (C12_parametric_history exL _ _ _ ex_events (C12_parametric_layout exmp)) as [H1 _]. rewrite H1 by (cbn; lia). reflexivity.
Qed.

(** ** C68 *)
(** get_noisy_data leaves the datacube [ybar], like everything else, unchanged
    and returns a new array *)
Theorem C68_constant_snr_heap : forall h ybar y snr z, oref h ybar y ->
  fresh_answer h (h_get_noisy_data h_constant_sigma ybar snr z) (get_noisy_data constant_snr_sigma y snr z).
Proof. exact noisy_constant_heap. Qed.
Print Assumptions C68_constant_snr_heap.
Theorem C68_shot_noise_heap : forall h ybar y snr z, oref h ybar y ->
  fresh_answer h (h_get_noisy_data h_shot_sigma ybar snr z) (get_noisy_data shot_noise_sigma y snr z).
Proof. exact noisy_shot_heap. Qed.
Print Assumptions C68_shot_noise_heap.
Example C68_heap_case :
  let after := h_get_noisy_data h_constant_sigma (Some (whole 0 exy)) (Fin 10%R) (fun _ => (-1)%R) [exy] in
  nth_error (fst after) 0 = Some exy /\ exists r, snd after = Ok r /\ 1 <= na_addr r.
Proof.
  cbv zeta. destruct (C68_constant_snr_heap [exy] (Some (whole 0 exy)) (Some exy) (Fin 10%R) (fun _ => (-1)%R)) as [H1 H2].
  - cbn. apply whole_ref. reflexivity.
  - split; [apply H1; cbn; lia|]. destruct (snd _) as [r|e]; [exists r; split; [reflexivity|]|].
    + destruct (get_noisy_data _ _ _ _); [|contradiction]. destruct H2 as [H2 _]. cbn in H2. lia.
    + destruct (get_noisy_data constant_snr_sigma (Some exy) (Fin 10%R) (fun _ => (-1)%R)) eqn:E; [contradiction|].
      exfalso. revert E. destruct (Props_Noise.C68_constant_snr exy exyf 10 (fun _ => -1)%R exy_data ltac:(lra) exy_pos) as (d & E & _).
      rewrite E. discriminate.
Qed.

(** ** C75 *)
(** get_mean("v_tx") of a parametric component returns the array [mu_v] itself;
    whatever the caller writes into it becomes the component's mean velocity, and
    by [C12_parametric_query] every later query answers for it *)
Theorem C75_mean_is_shared : forall h s self r,
  par_in h s self -> hp_mu_v s = Some r -> (forall r', In r' (others s) -> na_addr r' <> na_addr r) ->
  h_get_mean_v_tx s h = (h, Ok r) /\
  forall w, shp w = na_shp r -> par_in (store h r w) s (put_mu_v self w).
Proof. exact mean_alias_claim. Qed.
Print Assumptions C75_mean_is_shared.
Example C75_mean_is_shared_case :
  exists r, h_get_mean_v_tx (par_object exmp) (par_heap exmp) = (par_heap exmp, Ok r) /\
    par_in (store (par_heap exmp) r zmap) (par_object exmp) (put_mu_v exmp zmap).
Proof.
  exists (whole 7 (obuf (pa_mu_v exmp))).
  destruct (C75_mean_is_shared _ _ _ (whole 7 (obuf (pa_mu_v exmp))) (par_object_in exmp) eq_refl) as [E H].
  - intros r' Hr. cbn in Hr. repeat destruct Hr as [<-|Hr]; try (cbn; lia); contradiction.
  - split; [exact E|]. apply H. reflexivity.
Qed.
(** so queries as a whole do not leave the component as it was: a caller who
    edits the mean it was given changes the distribution of velocities *)
Theorem C75_refuted : exists L h s self r w, par_in h s self /\ h_get_mean_v_tx s h = (h, Ok r) /\
  ~ ressame (seen (h_par_get_p L s "v_tx" false false (store h r w))) (seen (h_par_get_p L s "v_tx" false false h)).
Proof. exact mean_refuted. Qed.
Print Assumptions C75_refuted.
