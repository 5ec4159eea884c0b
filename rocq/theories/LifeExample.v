(** * LifeExample: histories on the small cube of Build.v. *)
From Coq Require Import Reals Lra Lia List Bool Arith ZArith String Ascii.
From Verif Require Import Num NumLemmas Arr ArrLemmas PyStr Cube Base Parametric GrowingDisk Stream Spec SpecLemmas Repr Build
  CubeLemmas CubeGeom CondLemmas BaseLemmas DistLemmas ParSpec ParRepr ParSetSpec ParSetLemmas ParEnrich DiskLemmas StreamLemmas
  ParBuild ParMoments ParClaims ParExample Life LifeSpec LifeShape LifeLemmas LifeClaims.
Import ListNotations.
Local Open Scope R_scope.

Lemma exfresh : fresh expar0 exg.
Proof.
  destruct expar0_ok as (X & Y & E & _). exact (fresh_init _ _ _ _ _ _ _ excube_on exg_good excube_xy E).
Qed.
Lemma expar0_init : par_init excube (1, 1 / 2) 0 = Ok expar0.
Proof. destruct expar0_ok as (X & Y & E & _). exact E. Qed.

Lemma exnew : new_component expar0 exg.
Proof. exists excube, exX, exY, (1, 1 / 2), 0. exact (conj excube_on (conj exg_good (conj excube_xy expar0_init))). Qed.

(** two star formation histories, the first over by age 2, the second beginning there *)
Definition ex_early : disk_call := DPt 3 (2 / 3) (0, 4 / 9).
Definition ex_late : disk_call := DPt 3 (2 / 3) (4 / 9, 1).
Definition ex_mu : disk_call := DMu (1, 1) (1 / 2, 1 / 2) (0, 100).

Lemma ex_valid : disk_valid ex_early = true /\ disk_valid ex_late = true /\ disk_valid ex_mu = true.
Proof.
  unfold ex_early, ex_late, ex_mu. cbn [disk_valid]. unfold valid_sfh, both_pos, both_ge0, both_le0. cbn [fst snd].
  assert (E1 : Rltb 1 (3 * (2 / 3)) = true) by (apply Rltb_true; lra).
  assert (E2 : Rltb 0 1 = true) by (apply Rltb_true; lra). assert (E3 : Rltb 0 (1 / 2) = true) by (apply Rltb_true; lra).
  assert (E4 : Rleb 0 0 = true) by (apply Rleb_true; lra). assert (E5 : Rleb 0 100 = true) by (apply Rleb_true; lra).
  rewrite E1, E2, E4, E5. auto.
Qed.

Lemma sqrt49 : sqrt (4 / 9) = 2 / 3.
Proof. replace (4 / 9) with ((2 / 3) * (2 / 3)) by lra. apply sqrt_square. lra. Qed.

(** the mean velocity of old stars on the major axis *)
Lemma ex_mean s e se : 0 <= fst se -> fst se < snd se -> snd se <= 1 -> sqrt (fst se) * 3 = s -> sqrt (snd se) * 3 = e ->
  exists a, mean_v_tx (disk_after exL expar0 [DPt 3 (2 / 3) se; ex_mu]) = Ok a /\
    ent a [1; 1; 0]%nat = Fin (at_age s e (0, 100) 2).
Proof.
  intros H1 H2 H3 Es Ee.
  assert (Hf : sfh_ok exL (Sfh 3 (2 / 3) se)).
  { constructor; cbn [sa_lmd sa_phi sa_se]; try lra. - apply exL_cdf. - apply exL_ppf. }
  destruct (set_age_ok exL expar0 exg _ expar0_cube exg_good Hf) as (lp & E & _ & Ht).
  unfold set_age in E. cbn [sa_lmd sa_phi sa_se] in E. cbn [sa_se] in Ht.
  set (p1 := with_p_t expar0 _ _ lp) in *.
  destruct expar0_ok as (X & Y & _ & Ec & Hxy & _ & _ & HX & HY & _).
  assert (P : forall a b, 0 < a -> 0 < b -> posl (a, b)) by (intros; unfold posl; cbn [fst snd]; lra).
  assert (Q1 : posl (1, 1)) by (apply P; lra). assert (Q2 : posl (1 / 2, 1 / 2)) by (apply P; lra).
  assert (Q3 : one_sign (0, 100)) by (left; unfold nonnegl; cbn [fst snd]; lra).
  destruct (disk_mu_claim p1 exg X Y _ _ expar0_cube Hxy Ht (1, 1) (1 / 2, 1 / 2) (0, 100) Q1 Q2 Q3) as (p2 & a & f & E2 & Ea & Sa & V & Hf2).
  exists a. unfold disk_after, ex_mu. cbn [fold_left]. unfold disk_step at 2. rewrite E. cbn [finish fst].
  unfold disk_step. rewrite E2. cbn [finish fst]. unfold mean_v_tx. rewrite Ea. split; [reflexivity|].
  rewrite V by (cbn; lia). f_equal. destruct (Hf2 1 1 0)%nat as (_ & Hpeak & _).
  rewrite Hpeak.
  - unfold sfh_age, age_of, sfh_ppf. cbn [exL beta_ppf exg nt tE INR]. unfold mid.
    replace (((1 + 1) * (1 + 1 + 1) / 2 - 0 * (0 + 1) / 2)) with 3 by lra. replace (0 * (0 + 1) / 2) with 0 by lra.
    rewrite !Rplus_0_r, Es, Ee. f_equal. cbn [INR]. lra.
  - rewrite HX. unfold at_age. cbn [fst snd]. destruct (Rlt_dec _ _); [reflexivity|]. destruct (Rlt_dec _ _); [reflexivity|]. lra.
  - exact HY.
Qed.
Lemma ex_mean_early : exists a, mean_v_tx (disk_after exL expar0 [ex_early; ex_mu]) = Ok a /\ ent a [1; 1; 0]%nat = Fin 100.
Proof.
  destruct (ex_mean 0 2 (0, 4 / 9)) as (a & E & V); cbn [fst snd]; try lra; [rewrite sqrt_0; lra|rewrite sqrt49; lra|].
  exists a. split; [exact E|]. rewrite V. f_equal. unfold at_age. cbn [fst snd].
  destruct (Rlt_dec 2 0); [lra|]. destruct (Rlt_dec 2 2); lra.
Qed.
Lemma ex_mean_late : exists a, mean_v_tx (disk_after exL expar0 [ex_late; ex_mu]) = Ok a /\ ent a [1; 1; 0]%nat = Fin 0.
Proof.
  destruct (ex_mean 2 3 (4 / 9, 1)) as (a & E & V); cbn [fst snd]; try lra; [rewrite sqrt49; lra|rewrite sqrt_1; lra|].
  exists a. split; [exact E|]. rewrite V. f_equal. unfold at_age. cbn [fst snd].
  destruct (Rlt_dec 2 2); [lra|]. destruct (Rlt_dec 3 2); lra.
Qed.
(** calling set_p_t again does not change it *)
Lemma ex_mean_stale : exists a, mean_v_tx (disk_after exL expar0 [ex_early; ex_mu; ex_late]) = Ok a /\ ent a [1; 1; 0]%nat = Fin 100.
Proof.
  destruct ex_mean_early as (a & E & V). exists a. split; [|exact V]. rewrite <- E.
  change (disk_after exL expar0 [ex_early; ex_mu; ex_late]) with (fst (disk_step exL (disk_after exL expar0 [ex_early; ex_mu]) ex_late)).
  rewrite (after_denote exL expar0 exg exfresh), (step_ok exL expar0 exg exfresh) by apply well_history. cbn [fst].
  unfold mean_v_tx, denote. cbn [pa_mu_v]. unfold disk_learn, disk_sees. destruct ex_valid as (_ & -> & _). reflexivity.
Qed.

(** ** streams *)
Definition ex_right : stream_call := SPxt (0, PI / 2) (1, 2) (1 / 10) 3.
Definition ex_left : stream_call := SPxt (- (PI / 2), 0) (1, 2) (1 / 10) 3.
Definition ex_none : stream_call := SPxt (- (PI / 2), 0) (1, 2) (1 / 10) 0.
Definition ex_smu : stream_call := SMu (10, 20).

Lemma ex_angles : valid_angles (0, PI / 2) = true /\ valid_angles (- (PI / 2), 0) = true.
Proof.
  pose proof PI_RGT_0. unfold valid_angles, between. cbn [fst snd].
  assert (E1 : Rleb (- PI) 0 = true) by (apply Rleb_true; lra). assert (E2 : Rleb 0 PI = true) by (apply Rleb_true; lra).
  assert (E3 : Rleb (- PI) (PI / 2) = true) by (apply Rleb_true; lra). assert (E4 : Rleb (PI / 2) PI = true) by (apply Rleb_true; lra).
  assert (E5 : Rleb (- PI) (- (PI / 2)) = true) by (apply Rleb_true; lra). assert (E6 : Rleb (- (PI / 2)) PI = true) by (apply Rleb_true; lra).
  rewrite E1, E2, E3, E4, E5, E6. auto.
Qed.

(** the mean velocity on the positive major axis *)
Lemma ex_smean th : fst th < snd th ->
  exists a, pa_mu_v (fst (stream_step exL (put_theta_lims expar0 th) ex_smu)) = Some a /\
    (fst th = 0 -> ent a [1; 1; 0]%nat = Fin 10) /\ (snd th = 0 -> ent a [1; 1; 0]%nat = Fin 20).
Proof.
  intros Hlt. destruct expar0_ok as (X & Y & _ & Ec & Hxy & _ & _ & HX & HY & _). pose proof PI_RGT_0.
  destruct (stream_mu_claim (put_theta_lims expar0 th) exg X Y expar0_cube Hxy th (10, 20) eq_refl ltac:(lra)) as (p & a & f & E & Ea & Sa & V & H2).
  exists a. unfold stream_step, ex_smu. rewrite E. cbn [finish fst]. split; [exact Ea|].
  assert (Va : ent a [1; 1; 0]%nat = Fin (f 0)).
  { apply (V 1%nat 1%nat 0%nat (1 / 2) 0); try (cbn; lia); try lra.
    - rewrite cos_0, HX. lra.
    - rewrite sin_0, HY. lra. }
  rewrite Va. destruct (H2 0) as (Ha & Hb & _). split; intros E0; f_equal.
  - apply Ha. rewrite E0. lra.
  - apply Hb. rewrite E0. lra.
Qed.

Lemma ex_mu_of h th : sk_mu (stream_history h) = Some (th, ex_smu) ->
  pa_mu_v (stream_after exL expar0 h) = pa_mu_v (fst (stream_step exL (put_theta_lims expar0 th) ex_smu)).
Proof. intros E. rewrite (s_after_denote exL expar0 exg exfresh). cbn [s_denote pa_mu_v]. rewrite E. reflexivity. Qed.

(** the mean velocity keeps the angles of the first call of set_p_x_t *)
Lemma stream_stale_refuted : exists (s0 : par) (g : grid) h h' c a b,
  new_component s0 g /\ stream_setter c = Kmu /\
  h = [ex_right; c; ex_left] /\ h' = [ex_left; c] /\
  mean_v_tx (stream_after exL s0 h) = Ok a /\ mean_v_tx (stream_after exL s0 h') = Ok b /\
  ent a [1; 1; 0]%nat = Fin 10 /\ ent b [1; 1; 0]%nat = Fin 20.
Proof.
  pose proof PI_RGT_0. destruct ex_angles as (A1 & A2).
  destruct (ex_smean (0, PI / 2)) as (a & Ea & Va & _); [cbn [fst snd]; lra|].
  destruct (ex_smean (- (PI / 2), 0)) as (b & Eb & _ & Vb); [cbn [fst snd]; lra|].
  exists expar0, exg, [ex_right; ex_smu; ex_left], [ex_left; ex_smu], ex_smu, a, b.
  split; [exact exnew|]. do 3 (split; [reflexivity|]).
  assert (H1 : pa_mu_v (stream_after exL expar0 [ex_right; ex_smu; ex_left]) = Some a).
  { rewrite <- Ea. apply ex_mu_of. unfold stream_history, ex_right, ex_left, ex_smu. cbn [fold_left stream_learn]. rewrite A1, A2. reflexivity. }
  assert (H2 : pa_mu_v (stream_after exL expar0 [ex_left; ex_smu]) = Some b).
  { rewrite <- Eb. apply ex_mu_of. unfold stream_history, ex_left, ex_smu. cbn [fold_left stream_learn]. rewrite A2. reflexivity. }
  unfold mean_v_tx. rewrite H1, H2. split; [reflexivity|]. split; [reflexivity|]. split; [apply Va|apply Vb]; reflexivity.
Qed.

(** a call of set_p_x_t which raises decides the mean velocity *)
Lemma stream_failed_refuted : exists (s0 : par) (g : grid) h c c' a b,
  new_component s0 g /\ snd (stream_step exL (stream_after exL s0 h) c) = Err ValueError /\
  mean_v_tx (stream_after exL s0 (h ++ [c; c'])) = Ok a /\ mean_v_tx (stream_after exL s0 (h ++ [c'])) = Ok b /\
  ent a [1; 1; 0]%nat = Fin 20 /\ ent b [1; 1; 0]%nat = Fin 10.
Proof.
  pose proof PI_RGT_0. destruct ex_angles as (A1 & A2).
  destruct (ex_smean (0, PI / 2)) as (b & Eb & Vb & _); [cbn [fst snd]; lra|].
  destruct (ex_smean (- (PI / 2), 0)) as (a & Ea & _ & Va); [cbn [fst snd]; lra|].
  exists expar0, exg, [ex_right], ex_none, ex_smu, a, b.
  split; [exact exnew|]. split.
  { rewrite (stream_says exL expar0 exg exfresh). unfold ex_none. cbn [stream_sees]. rewrite A2. reflexivity. }
  assert (H1 : pa_mu_v (stream_after exL expar0 ([ex_right] ++ [ex_none; ex_smu])) = Some a).
  { rewrite <- Ea. apply ex_mu_of. unfold stream_history, ex_right, ex_none, ex_smu. cbn [app fold_left stream_learn]. rewrite A1, A2. reflexivity. }
  assert (H2 : pa_mu_v (stream_after exL expar0 ([ex_right] ++ [ex_smu])) = Some b).
  { rewrite <- Eb. apply ex_mu_of. unfold stream_history, ex_right, ex_smu. cbn [app fold_left stream_learn]. rewrite A1. reflexivity. }
  unfold mean_v_tx. rewrite H1, H2. split; [reflexivity|]. split; [reflexivity|]. split; [apply Va|apply Vb]; reflexivity.
Qed.
