(** * RecExample: records on the small cube of Build.v. *)
From Coq Require Import Reals Lra Lia List Bool Arith ZArith String Ascii.
From Verif Require Import Num NumLemmas Arr ArrLemmas PyStr Cube Base Parametric GrowingDisk Stream Spec SpecLemmas Repr Build
  CubeGeom ParSpec ParRepr ParSetSpec ParSetLemmas ParBuild ParMoments ParClaims ParExample Life LifeSpec LifeShape LifeLemmas LifeClaims LifeExample Recs RecSpec RecClaims.
Import ListNotations.
Local Open Scope R_scope.

Definition ex_default : disk_call := DPt 3 (2 / 3) (5 / 100, 95 / 100).
Definition ex_tdep : disk_call := DTdep (1 / 2) 1 2 5 1 10.
Lemma ex_tdep_valid : disk_valid ex_tdep = true.
Proof.
  unfold ex_tdep. cbn [disk_valid]. unfold between. rewrite !andb_true_iff, !Rleb_true, !Rltb_true. lra.
Qed.
Lemma ex_default_valid : disk_valid ex_default = true.
Proof. unfold ex_default. exact (proj1 ex_valid). Qed.

Definition ex_h : list disk_call := [ex_default; ex_mu; ex_tdep].
Lemma ex_h_history : disk_history ex_h = DiskKnown (Some ex_default) None (Some ex_tdep) (Some (ex_default, ex_mu)) None.
Proof.
  unfold disk_history, ex_h. cbn [fold_left]. rewrite (learn_t disk_nothing ex_default ex_default_valid).
  rewrite (learn_mu _ ex_default ex_mu); [|exact (proj2 (proj2 ex_valid))|reflexivity].
  rewrite learn_z; [reflexivity|exact ex_tdep_valid].
Qed.

Lemma disk_recs_self h : dr_self (disk_recs_after exL (disk_recs_new expar0) h) = disk_after exL expar0 h.
Proof. rewrite (recs_known exL expar0 exg exfresh). reflexivity. Qed.

(** the quantiles are not recorded *)
Lemma quantiles_refuted : exists (s0 : par) (g : grid) h a b,
  let s := disk_recs_after exL (disk_recs_new s0) h in
  new_component s0 g /\ in_order (disk_history h) /\
  mean_v_tx (dr_self s) = Ok a /\ mean_v_tx (disk_after exL s0 (disk_again s)) = Ok b /\
  ent a [1; 1; 0]%nat <> ent b [1; 1; 0]%nat.
Proof.
  destruct ex_valid as (V1 & V2 & V3).
  assert (Hk : disk_history [ex_early; ex_mu] = DiskKnown (Some ex_early) None None (Some (ex_early, ex_mu)) None).
  { unfold disk_history. cbn [fold_left]. rewrite (learn_t disk_nothing ex_early V1). rewrite (learn_mu _ ex_early ex_mu V3) by reflexivity. reflexivity. }
  destruct ex_mean_early as (a & Ea & Va).
  destruct (ex_mean (sqrt (5 / 100) * 3) (sqrt (95 / 100) * 3) (5 / 100, 95 / 100)) as (b & Eb & Vb); cbn [fst snd]; try lra; try reflexivity.
  exists expar0, exg, [ex_early; ex_mu], a, b. cbv zeta. split; [exact exnew|]. split.
  { rewrite Hk. unfold in_order. cbn. intros o [<-|[<-|[<-|[]]]]; [right; reflexivity|left; reflexivity|right; reflexivity]. }
  rewrite disk_recs_self. split; [exact Ea|]. rewrite (recs_known exL expar0 exg exfresh), Hk.
  split; [exact Eb|]. rewrite Va, Vb. intros [= E]. revert E. unfold at_age. cbn [fst snd].
  assert (S1 : sqrt (5 / 100) < 1 / 2).
  { rewrite <- (sqrt_square (1 / 2)) by lra. apply sqrt_lt_1; lra. }
  assert (S2 : 9 / 10 < sqrt (95 / 100)).
  { rewrite <- (sqrt_square (9 / 10)) by lra. apply sqrt_lt_1; lra. }
  destruct (Rlt_dec 2 (sqrt (5 / 100) * 3)); [lra|]. destruct (Rlt_dec (sqrt (95 / 100) * 3) 2); [lra|].
  intros E. assert (D : 0 < sqrt (95 / 100) * 3 - sqrt (5 / 100) * 3) by lra.
  set (u := sqrt (5 / 100)) in *. set (w := sqrt (95 / 100)) in *.
  assert (E2 : 100 * (w * 3 - u * 3) = 100 * (2 - u * 3)).
  { assert (E3 : 100 = 0 + (100 - 0) * ((2 - u * 3) / (w * 3 - u * 3))) by (rewrite E at 1; field; lra).
    rewrite E3 at 1. field. lra. }
  lra.
Qed.

(** what varies with age keeps the ages of the call of set_p_t it was made with *)
Lemma order_refuted : exists (s0 : par) (g : grid) h r a b,
  let s := disk_recs_after exL (disk_recs_new s0) h in
  new_component s0 g /\ dr_mu_v_pars s = Some r /\ snd (disk_rec_step exL s (again_mu_v r)) = Ok tt /\
  mean_v_tx (dr_self s) = Ok a /\ mean_v_tx (dr_self (fst (disk_rec_step exL s (again_mu_v r)))) = Ok b /\
  ent a [1; 1; 0]%nat = Fin 100 /\ ent b [1; 1; 0]%nat = Fin 0.
Proof.
  destruct ex_valid as (V1 & V2 & V3).
  destruct ex_mean_stale as (a & Ea & Va). destruct ex_mean_late as (b & Eb & Vb).
  assert (Hk : disk_history [ex_early; ex_mu; ex_late] = DiskKnown (Some ex_late) None None (Some (ex_early, ex_mu)) None).
  { unfold disk_history. cbn [fold_left]. rewrite (learn_t disk_nothing ex_early V1).
    rewrite (learn_mu _ ex_early ex_mu V3) by reflexivity. rewrite (learn_t _ ex_late V2). reflexivity. }
  exists expar0, exg, [ex_early; ex_mu; ex_late], ((1, 1), (1 / 2, 1 / 2), (0, 100)), a, b. cbv zeta.
  split; [exact exnew|]. rewrite (recs_known exL expar0 exg exfresh).
  split; [rewrite Hk; reflexivity|].
  change (again_mu_v (1, 1, (1 / 2, 1 / 2), (0, 100))) with ex_mu.
  rewrite (after_denote exL expar0 exg exfresh).
  rewrite (rec_step_ok exL expar0 exg exfresh) by apply well_history. cbn [snd fst of_known dr_self].
  split; [unfold disk_sees; rewrite V3, Hk; reflexivity|].
  split; [rewrite <- (after_denote exL expar0 exg exfresh); exact Ea|]. split; [|split; assumption].
  rewrite <- Eb. rewrite (after_denote exL expar0 exg exfresh). rewrite Hk.
  rewrite (learn_mu _ ex_late ex_mu V3) by reflexivity. unfold mean_v_tx, denote. cbn [pa_mu_v dk_mu].
  unfold disk_history. cbn [fold_left]. rewrite (learn_t disk_nothing ex_late V2), (learn_mu _ ex_late ex_mu V3) by reflexivity. reflexivity.
Qed.

(** a call which raises leaves its parameters behind *)
Lemma track_refuted : exists (s0 : par) (g : grid) h c r,
  let s := stream_recs_after exL (stream_recs_new s0) h in
  let s' := fst (stream_rec_step exL s c) in
  new_component s0 g /\ snd (stream_rec_step exL s c) = Err ValueError /\
  pa_log_p_x_t (sr_self s') = pa_log_p_x_t (sr_self s) /\ pa_log_p_x_t (sr_self s) <> None /\
  sr_p_x_pars s' = Some r /\ sr_p_x_pars s <> Some r /\ snd (stream_rec_step exL s' (again_track r)) = Err ValueError.
Proof.
  destruct ex_angles as (A1 & A2). exists expar0, exg, [ex_right], ex_none, (- (PI / 2), 0, (1, 2), 1 / 10, 0%nat). cbv zeta.
  split; [exact exnew|].
  assert (Hk : stream_history [ex_right] = StreamKnown None (Some ex_right) (Some (0, PI / 2)) None None None).
  { unfold stream_history, ex_right. cbn [fold_left stream_learn]. rewrite A1. reflexivity. }
  assert (Hl : last_track [ex_right] = Some (0, PI / 2, (1, 2), 1 / 10, 3%nat)).
  { unfold ex_right. cbn [last_track]. rewrite A1. reflexivity. }
  rewrite (s_recs_known exL expar0 exg exfresh), (s_after_denote exL expar0 exg exfresh), Hl.
  rewrite (s_rec_step_ok exL expar0 exg exfresh). cbn [fst snd].
  split; [unfold ex_none; cbn [stream_sees]; rewrite A2; reflexivity|].
  split; [rewrite Hk; unfold ex_none; cbn [stream_learn]; rewrite A2; reflexivity|].
  split.
  { pose proof (s_held_x exL expar0 exg exfresh _ (s_well_history [ex_right])) as H. rewrite Hk in *. cbn [is_some sk_x] in H.
    destruct H as (a & E & _). unfold s_of_known. cbn [sr_self]. rewrite E. discriminate. }
  split; [unfold ex_none, s_of_known; cbn [sr_p_x_pars new_track]; rewrite A2; reflexivity|].
  split; [cbn [s_of_known sr_p_x_pars]; intros E; discriminate|].
  unfold again_track. rewrite (s_rec_step_ok exL expar0 exg exfresh). cbn [snd stream_sees]. rewrite A2. reflexivity.
Qed.

(** star formation from age 0 to age 2 *)
Lemma ex_early_ages : exists tp, pa_t_pars (disk_after exL expar0 [ex_early]) = Some tp /\ tp_start tp = Fin 0 /\ tp_end tp = Fin 2.
Proof.
  assert (Hf : sfh_ok exL (Sfh 3 (2 / 3) (0, 4 / 9))).
  { constructor; cbn [sa_lmd sa_phi sa_se]; cbn [fst snd]; try lra. - apply exL_cdf. - apply exL_ppf. }
  destruct (set_age_ok exL expar0 exg _ expar0_cube exg_good Hf) as (lp & E & _ & _).
  unfold set_age in E. cbn [sa_lmd sa_phi sa_se] in E.
  unfold disk_after, ex_early. cbn [fold_left]. unfold disk_step. rewrite E. cbn [finish fst]. unfold with_p_t. cbn [pa_t_pars].
  eexists. split; [reflexivity|]. cbn [tp_start tp_end]. unfold sfh_age, age_of, sfh_ppf. cbn [exL beta_ppf exg nt tE INR fst snd sa_se].
  split; f_equal.
  - rewrite sqrt_0. lra.
  - rewrite sqrt49. lra.
Qed.
