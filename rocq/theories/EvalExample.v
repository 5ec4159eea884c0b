(** * EvalExample: components on a cube with templates. *)
From Coq Require Import Reals Lra Lia List Bool Arith ZArith String Ascii.
From Verif Require Import Num NumLemmas Arr ArrLemmas PyStr Cube Base Parametric GrowingDisk Stream Spec SpecLemmas Repr Build
  CubeLemmas CubeGeom ParSpec ParRepr ParSetSpec ParSetLemmas ParEnrich DiskLemmas StreamLemmas ParBuild ParClaims ParExample
  Fft Ssps Datacube FourierSpec DatacubeSpec DatacubeMain DatacubeClaims ParYbar ParYbarSpec Sharing DatacubeExample
  Life LifeSpec LifeShape LifeLemmas LifeClaims LifeExample ParEval EvalSpec ParEvalLemmas FluxClaims ParEvalClaims.
Import ListNotations.
Local Open Scope R_scope.

(** templates with fluxes k (1 + t + 2 z), those with the light of the cube exg *)
Definition exlit : spectra := fun t z w => (1 + INR t + 2 * INR z) * (INR w + 1).
(** templates whose flux depends on age only *)
Definition exage : spectra := fun t z w => if Nat.eqb w z then INR t + 1 else 0.

Definition exseen (S : spectra) : cube := see excube (ssps_for exg 2 1 S).
Lemma exseen_on S : cube_on (exseen S) exg.
Proof.
  destruct excube_on as [D1 D2 D3 D4 D5 D6 D7 D8 D9 D10 D11]. constructor; try assumption.
  destruct D1 as [E1 E2 E3 E4 E5 E6 E7 E8 E9]. constructor; assumption.
Qed.
Lemma exseen_xy S : cube_xy (exseen S) exg exX exY.
Proof. exact excube_xy. Qed.
Lemma exseen_templates S : templates (c_ssps (exseen S)) exg 2 1 S.
Proof. apply templates_for; cbn; lia. Qed.

Lemma exnew_seen S : exists s0, new_component s0 exg /\ pa_cube s0 = exseen S.
Proof.
  destruct (par_init_ok (exseen S) exg exX exY (1, 1 / 2) 0 (exseen_on S) exg_good (exseen_xy S)) as (p & E & Ec & _).
  exists p. split; [|exact Ec]. exists (exseen S), exX, exY, (1, 1 / 2), 0. exact (conj (exseen_on S) (conj exg_good (conj (exseen_xy S) E))).
Qed.
Lemma exbuilt S : exists self m, build_disk exL (exseen S) (1, 1 / 2) 0 exsfh exdisk = Ok self /\ par_on exL self exg m /\ good_par exg m /\
  templates (c_ssps (pa_cube self)) exg 2 1 S /\ par_lw_ok exg m true false.
Proof.
  destruct (disk_represents exL (exseen S) exg exX exY 1 (1 / 2) 0 exsfh (exseen_on S) exg_good (exseen_xy S) exsfh_ok exL_norm exdisk exdisk_ok ex_off_axis)
    as (self & m & E & H & Hm & Hl).
  assert (Ec : pa_cube self = exseen S).
  { destruct (disk_built exL (exseen S) exg exX exY (1, 1 / 2) 0 exsfh (exseen_on S) exg_good (exseen_xy S) exsfh_ok exL_norm exdisk exdisk_ok) as (q & Eq & Ec & _).
    - eapply Rlt_le_trans; [|apply (max_abs_ge exg _ 0 0); cbn; lia]. apply Rabs_pos_lt.
      unfold rot_x, exX, exY, mid. cbn [exg xE yE fst snd INR]. rewrite cos_0, sin_0. lra.
    - rewrite E in Eq. injection Eq as <-. exact Ec. }
  exists self, m. split; [exact E|]. split; [exact H|]. split; [exact Hm|]. split; [rewrite Ec; apply exseen_templates|]. apply Hl. exact exg_light.
Qed.

(** two beta distributions: x^2 and x *)
Definition exL2 : stats_lib :=
  StatsLib logistic (fun a _ x => if Rlt_dec 1 a then x * x else x) (fun a _ p => if Rlt_dec 1 a then sqrt p else p).
Lemma exL2_norm : good_norm (norm_cdf exL2). Proof. exact exL_norm. Qed.
Definition exsfh1 : sfh_args := Sfh 3 (1 / 3) (1 / 4, 3 / 4).
Lemma exsfh_ok2 : sfh_ok exL2 exsfh.
Proof.
  constructor; cbn [exsfh sa_lmd sa_phi sa_se fst snd]; try lra.
  - unfold sfh_cdf. cbn [exsfh sa_lmd sa_phi exL2 beta_cdf]. destruct (Rlt_dec 1 (3 * (2 / 3))); [exact (exL_cdf 2 1)|lra].
  - unfold sfh_ppf. cbn [exsfh sa_lmd sa_phi exL2 beta_ppf]. destruct (Rlt_dec 1 (3 * (2 / 3))); [exact (exL_ppf 2 1)|lra].
Qed.
Lemma exsfh1_ok2 : sfh_ok exL2 exsfh1.
Proof.
  constructor; cbn [exsfh1 sa_lmd sa_phi sa_se fst snd]; try lra.
  - unfold sfh_cdf. cbn [exsfh1 sa_lmd sa_phi exL2 beta_cdf]. destruct (Rlt_dec 1 (3 * (1 / 3))); [lra|]. split; [reflexivity|]. split; [reflexivity|]. intros; lra.
  - unfold sfh_ppf. cbn [exsfh1 sa_lmd sa_phi exL2 beta_ppf]. destruct (Rlt_dec 1 (3 * (1 / 3))); [lra|]. split; intros; lra.
Qed.

Lemma ex_stale : exists self y y' w i j,
  build_disk exL2 (exseen exage) (1, 1 / 2) 0 exsfh exdisk = Ok self /\
  let o := observe_all exL2 (disk_step exL2) self [CEval "none"; CSet (DPt 3 (1 / 3) (1 / 4, 3 / 4))]%string in
  ob_ybar o = Some y /\ par_evaluate_ybar exL2 (ob_par o) "none" = Ok y' /\ ent y [w; i; j] <> ent y' [w; i; j].
Proof.
  destruct (disk_built exL2 (exseen exage) exg exX exY (1, 1 / 2) 0 exsfh (exseen_on exage) exg_good (exseen_xy exage) exsfh_ok2 exL2_norm exdisk exdisk_ok)
    as (self & E & Ec & _ & _ & H & Hm).
  { eapply Rlt_le_trans; [|apply (max_abs_ge exg _ 0 0); cbn; lia]. apply Rabs_pos_lt.
    unfold rot_x, exX, exY, mid. cbn [exg xE yE fst snd INR]. rewrite cos_0, sin_0. lra. }
  destruct (stale_claim exL2 self exg _ 2 1 exage (fun t => INR t + 1) exsfh1 "none"%string "none"%string H exg_good Hm) as (y & y' & E1 & E2 & w & i & j & _ & _ & _ & Hne).
  - rewrite Ec. apply exseen_templates.
  - lra.
  - intros t z _ Hz. cbn in Hz. destruct z as [|[|z]]; [| |lia]; cbn; ring.
  - exact exsfh1_ok2.
  - left; reflexivity.
  - left; reflexivity.
  - unfold disk_model, sfh_mass, sfh_cdf. cbn [pm_t exsfh exsfh1 sa_lmd sa_phi exL2 beta_cdf].
    destruct (Rlt_dec 1 (3 * (2 / 3))); [|lra]. destruct (Rlt_dec 1 (3 * (1 / 3))); [lra|]. cbn [exg nt tE Sum]. unfold wid. cbn [INR tE exg]. lra.
  - exists self, y, y', w, i, j. split; [exact E|]. split; [exact E1|]. split; [exact E2|exact Hne].
Qed.

Lemma ex_two_calls : disk_history [ex_early; ex_mu] = DiskKnown (Some ex_early) None None (Some (ex_early, ex_mu)) None.
Proof.
  destruct ex_valid as (V1 & _ & V2). unfold disk_history. cbn [fold_left].
  assert (E : disk_learn disk_nothing ex_early = DiskKnown (Some ex_early) None None None None) by (unfold disk_learn, disk_sees; rewrite V1; reflexivity).
  rewrite E. unfold disk_learn, disk_sees. rewrite V2. reflexivity.
Qed.

Lemma exv_light : 0 < total (exv 2 7 2) (lit (exv 2 7 2) (mass (exv 2 7 2) exD)).
Proof.
  unfold total, lit, mass, exD, wid. cbn [exv nt nv nx ny nz tE vE xE yE zE Lw Sum INR]. lra.
Qed.
