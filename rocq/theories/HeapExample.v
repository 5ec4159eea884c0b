(** * HeapExample: every component can be laid out in a heap; the array returned
    by get_mean("v_tx"); concrete histories. *)
From Coq Require Import Reals Lra String Ascii List Bool Arith ZArith Lia.
From Verif Require Import Num NumLemmas Arr ArrLemmas PyStr Cube Base Parametric Spec ParSpec ParRepr ParClaims Build ParExample ParMomExample
  Noise NoiseLemmas Heap HeapLemmas HeapClaims HeapPar HeapParClaims HeapNoise HeapRun HeapHist.
Import ListNotations.
Local Open Scope nat_scope.

(** the array object which is the whole of buffer [k] *)
Definition whole (k : nat) (a : arr num) : nda := Nda k (shp a) (fun idx => idx).
Lemma whole_ref h k a : nth_error h k = Some a -> ref 0 h (whole k a) a.
Proof.
  intros E. split; [cbn; split; [lia|]; apply nth_error_Some; rewrite E; discriminate|].
  split; [intros i j _ _ Eq; exact Eq|]. split; [reflexivity|]. intros idx _. cbn. rewrite buffer_nth, E. reflexivity.
Qed.

Definition cube_heap (c : cube) : heap :=
  [delta_t (c_ssps c); delta_z (c_ssps c); c_v_edg c; light_weights (c_ssps c)].
Definition cube_obj (c : cube) : hcube :=
  HCube (whole 0 (delta_t (c_ssps c))) (whole 1 (delta_z (c_ssps c))) (whole 2 (c_v_edg c))
        (whole 3 (light_weights (c_ssps c))) (c_dx c) (c_dy c).
Lemma cube_obj_in c l : cube_in (cube_heap c ++ l) (cube_obj c) c.
Proof. do 4 (split; [apply whole_ref; reflexivity|]). split; reflexivity. Qed.

Definition comp_heap (self : component) : heap := cube_heap (comp_cube self) ++ [log_p_tvxz self].
Definition comp_obj (self : component) : hcomp := HComp (cube_obj (comp_cube self)) (whole 4 (log_p_tvxz self)).
Lemma comp_obj_in self : comp_in (comp_heap self) (comp_obj self) self.
Proof. split; [apply cube_obj_in|apply whole_ref; reflexivity]. Qed.

(** an attribute which is not set takes an unused buffer *)
Definition obuf (o : option (arr num)) : arr num := match o with Some a => a | None => scal NaN end.
Definition oobj (k : nat) (o : option (arr num)) : option nda := option_map (whole k) o.
Lemma oobj_in h k o : nth_error h k = Some (obuf o) -> oref h (oobj k o) o.
Proof. destruct o as [a|]; cbn; [apply whole_ref|auto]. Qed.
Definition par_heap (self : par) : heap :=
  cube_heap (pa_cube self) ++ map obuf [pa_log_p_t self; pa_log_p_x_t self; pa_log_p_z_tx self; pa_mu_v self; pa_sig_v self].
Definition par_object (self : par) : hpar :=
  HPar (cube_obj (pa_cube self)) (oobj 4 (pa_log_p_t self)) (oobj 5 (pa_log_p_x_t self)) (oobj 6 (pa_log_p_z_tx self))
       (oobj 7 (pa_mu_v self)) (oobj 8 (pa_sig_v self)).
Lemma par_object_in self : par_in (par_heap self) (par_object self) self.
Proof. split; [apply cube_obj_in|]. do 4 (split; [apply oobj_in; reflexivity|]). apply oobj_in; reflexivity. Qed.

(** ** get_mean("v_tx") *)
Definition others (s : hpar) : list nda :=
  [hq_delta_t (hp_cube s); hq_delta_z (hp_cube s); hq_v_edg (hp_cube s); hq_light_weights (hp_cube s)] ++
  flat_map (fun o => match o with Some r => [r] | None => [] end)
    [hp_log_p_t s; hp_log_p_x_t s; hp_log_p_z_tx s; hp_sig_v s].
Lemma mean_alias_claim h s self r :
  par_in h s self -> hp_mu_v s = Some r -> (forall r', In r' (others s) -> na_addr r' <> na_addr r) ->
  h_get_mean_v_tx s h = (h, Ok r) /\
  forall w, shp w = na_shp r -> par_in (store h r w) s (put_mu_v self w).
Proof.
  intros (Hc & H2 & H3 & H4 & H5 & H6) Er Ho. split; [unfold h_get_mean_v_tx; rewrite Er; reflexivity|].
  intros w Hw. rewrite Er in H5. destruct (pa_mu_v self) as [m|] eqn:Em; [|contradiction]. cbn in H5.
  assert (Hq : forall o o', oref h o o' -> (forall r', o = Some r' -> In r' (others s)) -> oref (store h r w) o o').
  { intros [q|] [v|]; cbn; auto. intros Hr Hin. apply store_other; [|exact Hr]. apply Ho, Hin; reflexivity. }
  assert (Hin : forall o r', In o [hp_log_p_t s; hp_log_p_x_t s; hp_log_p_z_tx s; hp_sig_v s] -> o = Some r' -> In r' (others s)).
  { intros o r' Hi E. unfold others. apply in_app_iff. right. apply in_flat_map. exists o. split; [exact Hi|]. rewrite E. left; reflexivity. }
  destruct Hc as (C1 & C2 & C3 & C4 & C5).
  split; [split; [|split; [|split; [|split; [|exact C5]]]]; (apply store_other; [apply Ho; cbn; tauto|assumption])|].
  cbn [pa_log_p_t pa_log_p_x_t pa_log_p_z_tx pa_mu_v pa_sig_v put_mu_v].
  split; [apply Hq; [exact H2|intros r'; apply Hin; cbn; tauto]|].
  split; [apply Hq; [exact H3|intros r'; apply Hin; cbn; tauto]|].
  split; [apply Hq; [exact H4|intros r'; apply Hin; cbn; tauto]|].
  split; [rewrite Er; cbn; eapply store_ref; [exact H5|exact Hw]|].
  apply Hq; [exact H6|intros r'; apply Hin; cbn; tauto].
Qed.

(** *** a caller who zeroes the mean map it was given changes p(v|t,x) *)
Definition zmod : par_model := ParModel (pm_t exmod) (pm_x exmod) (pm_z exmod) (fun _ _ _ => 0%R) (pm_sig exmod) (pm_F exmod).
Definition zmap : arr num := Arr [2; 2; 1] (fun _ => Fin 0%R).
Lemma zmod_good : good_par exg zmod.
Proof. destruct exmod_good as [A1 A2 A3 A4 A5 A6 A7 A8]. constructor; assumption. Qed.
Lemma zmod_on : par_on exL (put_mu_v exmp zmap) exg zmod.
Proof.
  change (put_mu_v exmp zmap) with (par_of exg zmod).
  apply par_of_on; [apply exg_uniform_x|apply exg_uniform_y|reflexivity].
Qed.
Lemma vbin_differ : (vbin exg exmod 0 0 0 0 < vbin exg zmod 0 0 0 0)%R.
Proof.
  unfold vbin. cbn [vE exg pm_F pm_mu pm_sig exmod zmod Nat.eqb INR].
  replace ((1 - 1 - 10) / 1)%R with (- (10))%R by lra. replace ((0 - 1 - 10) / 1)%R with (-11)%R by lra.
  replace ((1 - 1 - 0) / 1)%R with 0%R by lra. replace ((0 - 1 - 0) / 1)%R with (-1)%R by lra.
  pose proof logistic_1 as [_ H1]. pose proof (logistic_hi 10) as H2. rewrite INR_IZR_INZ in H2. cbn [Z.of_nat Pos.of_succ_nat Pos.succ] in H2.
  pose proof (logistic_range (-11)) as H3. rewrite (logistic_sym 10).
  assert (H0 : logistic 0 = (1 / 2)%R) by (unfold logistic; rewrite Ropp_0, exp_0; lra). lra.
Qed.
Lemma mean_refuted : exists L h s self r w, par_in h s self /\ h_get_mean_v_tx s h = (h, Ok r) /\
  ~ ressame (seen (h_par_get_p L s "v_tx" false false (store h r w))) (seen (h_par_get_p L s "v_tx" false false h)).
Proof.
  exists exL, (par_heap exmp), (par_object exmp), exmp, (whole 7 (obuf (pa_mu_v exmp))), zmap.
  pose proof (par_object_in exmp) as Hin. split; [exact Hin|]. split; [reflexivity|].
  destruct (mean_alias_claim _ _ _ (whole 7 (obuf (pa_mu_v exmp))) Hin eq_refl) as [_ Hs].
  { intros r' Hr. cbn in Hr. repeat destruct Hr as [<-|Hr]; try (cbn; lia); contradiction. }
  specialize (Hs zmap eq_refl).
  pose proof (seen_good (par_answer exL (par_object exmp)) (par_value exL exmp) (par_heap exmp) (Question false "v_tx" false false)
    (par_good exL _ _ "v_tx" _ false false Hin)) as S1.
  pose proof (seen_good (par_answer exL (par_object exmp)) (par_value exL (put_mu_v exmp zmap)) _ (Question false "v_tx" false false)
    (par_good exL _ _ "v_tx" _ false false Hs)) as S2.
  cbn [par_answer par_value q_log q_dist q_density q_light] in S1, S2.
  intros S3. pose proof (ressame_trans _ _ _ (ressame_sym _ _ S2) (ressame_trans _ _ _ S3 S1)) as S.
  destruct (v_tx_query exL exmp exg exmod exmp_on exg_good exmod_good false) as (a & Ea & Sa & Ha).
  destruct (v_tx_query exL (put_mu_v exmp zmap) exg zmod zmod_on exg_good zmod_good false) as (b & Eb & Sb & Hb).
  unfold par_value in S. cbn [q_log q_dist q_density q_light] in S. rewrite Ea, Eb in S. destruct S as [_ S].
  specialize (S [0; 0; 0; 0]). rewrite Sb in S. rewrite Ha, Hb in S by (cbn; lia).
  assert (E : Fin (vbin exg zmod 0 0 0 0 / 1) = Fin (vbin exg exmod 0 0 0 0 / 1)) by (apply S; repeat constructor; cbn; lia).
  apply Fin_eq in E. pose proof vbin_differ. lra.
Qed.

(** *** histories for the examples: four calls with the caller zeroing what the
    first returned; the third fails *)
Definition ex_events : list event :=
  [Ask (Question true "tvxz" true false); Edit 0 (full [2; 2; 2; 1; 2] (Fin 0%R)); Ask (Question false "tz_x" false true);
   Ask (Question false "q" true true); Ask (Question true "tvxz" true false)].
