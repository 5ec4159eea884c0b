(** * ParMomExample: concrete parametric components for the examples and
    refutations on velocity moments. *)
From Coq Require Import Reals Lra Lia List Bool Arith ZArith String Ascii.
From Verif Require Import Num NumLemmas Arr ArrLemmas PyStr Cube Base Parametric Spec SpecLemmas Repr ParSpec ParRepr MomSpec Moments
  ParMoments GaussSpec GaussLemmas ParMomSpec ParMomMath ParMomLemmas ParMomClaims ParMomOther ParMomCorr Build ParExample.
Import ListNotations.
Local Open Scope R_scope.

(** the component on which the setters have stored the model [m] *)
Definition par_of (g : grid) (m : par_model) : par :=
  Par (cube_of g) (scal NaN) (scal NaN) (ZGrid (scal NaN) (scal NaN)) None
    (Some (Arr [nt g] (fun idx => nlog (Fin (pm_t m (nth 0 idx 0%nat))))))
    (Some (Arr [nx g; ny g; nt g] (fun idx => nlog (Fin (pm_x m (nth 2 idx 0%nat) (nth 0 idx 0%nat) (nth 1 idx 0%nat))))))
    None
    (Some (Arr [nz g; nt g; nx g; ny g] (fun idx => nlog (Fin (pm_z m (nth 1 idx 0%nat) (nth 2 idx 0%nat) (nth 3 idx 0%nat) (nth 0 idx 0%nat))))))
    (Some (Arr [nt g; nx g; ny g] (fun idx => Fin (pm_mu m (nth 0 idx 0%nat) (nth 1 idx 0%nat) (nth 2 idx 0%nat)))))
    (Some (Arr [nt g; nx g; ny g] (fun idx => Fin (pm_sig m (nth 0 idx 0%nat) (nth 1 idx 0%nat) (nth 2 idx 0%nat)))))
    None.
Lemma par_of_on L g m : uniform (nx g) (xE g) -> uniform (ny g) (yE g) -> pm_F m = norm_cdf L -> par_on L (par_of g m) g m.
Proof.
  intros Hx Hy HF. constructor; [apply cube_of_on; assumption|exact HF|..]; eexists; split; try reflexivity; split; reflexivity.
Qed.

(** two ages of probabilities 1/3 and 2/3, position and metallicity depending on
    age, mean velocities and dispersions depending on age and position *)
Definition exmod : par_model := ParModel
  (fun _ => 1 / 3)
  (fun t x _ => if Nat.eqb t 0 then (if Nat.eqb x 0 then 1 / 4 else 3 / 4) else 1 / 2)
  (fun t _ _ z => if Nat.eqb t 0 then (if Nat.eqb z 0 then 1 / 4 else 1 / 8) else 1 / 6)
  (fun t x _ => if Nat.eqb t 0 then 10 else (if Nat.eqb x 0 then -5 else 5))
  (fun t x _ => if Nat.eqb t 0 then 1 else 2)
  logistic.
Definition exmp : par := par_of exg exmod.
Lemma exmp_on : par_on exL exmp exg exmod.
Proof. apply par_of_on; [apply exg_uniform_x|apply exg_uniform_y|reflexivity]. Qed.

Ltac ev := unfold wid, mid; cbn -[Rplus Rminus Rmult Rdiv Rinv Ropp exp sqrt pow IZR].
Lemma exmod_good : good_par exg exmod.
Proof.
  pose proof exL_norm as [HF HI]. constructor.
  - intros t Ht. cbn. lra.
  - intros t x y Ht Hx Hy. cbn [pm_x exmod]. destruct (Nat.eqb t 0), (Nat.eqb x 0); lra.
  - intros t x y z Ht Hx Hy Hz. cbn [pm_z exmod]. destruct (Nat.eqb t 0), (Nat.eqb z 0); lra.
  - intros t Ht. cbn in Ht. destruct t as [|[|t]]; [| |lia]; ev; lra.
  - intros t x y Ht Hx Hy. cbn in Ht. destruct t as [|[|t]]; [| |lia]; ev; lra.
  - intros t x y Ht Hx Hy. cbn [pm_sig exmod]. destruct (Nat.eqb t 0); lra.
  - intros x. specialize (HF x). cbn in *. lra.
  - intros x y [Hlt| ->]; [|lra]. left. apply HI. exact Hlt.
Qed.
Lemma exmod_lw lw : par_lw_ok exg exmod lw false.
Proof. intros _. cbn [pgrid]. unfold total, marg, over, lit, pjoint, txz_mass. cbn [has_t has_v has_x has_z no_vars]. ev. lra. Qed.

Lemma exmod_norm i : par_prob exg exmod false no_vars i = 1.
Proof. unfold par_prob, marg, over, pprob, pjoint, txz_mass. cbn [has_t has_v has_x has_z no_vars pgrid]. ev. lra. Qed.

(** ** factorial2(-1) = 0 *)
Lemma Fin_eq a b : Fin a = Fin b -> a = b. Proof. congruence. Qed.
Lemma factorial2_refuted : exists L self g m i, par_on L self g m /\ good_grid g /\ good_par g m /\ in_grid g i /\
  par_prob g m false no_vars i = 1 /\
  (exists a V M, get_variance (par_obj L (Fin 0) self) "v" false = Ok a /\ ent a [] = Fin V /\
     mixture_moment g m false no_vars i (mixture_mean g m false no_vars i) 2 M /\ V <> M) /\
  (exists a, get_noncentral_moment (par_obj L (Fin 0) self) "v" 0 (scal (Fin 0)) false = Ok a /\ ent a [] = Fin 0 /\
     mixture_moment g m false no_vars i 0 0 1).
Proof.
  exists exL, exmp, exg, exmod, (Bin 0 0 0 0 0). pose proof exmp_on as Ho. pose proof exg_good as Hg. pose proof exmod_good as Hm.
  pose proof (exmod_lw false) as Hl. assert (Hi : in_grid exg (Bin 0 0 0 0 0)) by (repeat split; cbn; lia).
  pose proof (exmod_norm (Bin 0 0 0 0 0)) as Hn.
  do 4 (split; [assumption|]). split; [exact Hn|].
  assert (Hp : 0 < par_prob exg exmod false no_vars (Bin 0 0 0 0 0)) by (rewrite Hn; lra).
  split.
  - destruct (par_variance_q exL exmp exg exmod false Ho Hg Hm Hl 0 no_vars eq_refl) as (a & E & _ & He).
    destruct (par_variance_q exL exmp exg exmod false Ho Hg Hm Hl 1 no_vars eq_refl) as (a' & E' & _ & He').
    destruct (par_central_claim exL exmp exg exmod false Ho Hg Hm Hl no_vars 2 eq_refl) as (b & Eb & _ & Hb).
    destruct (Hb _ Hi Hp ltac:(auto)) as (M & EM & HM).
    specialize (He _ Hi Hp ltac:(auto)). specialize (He' _ Hi Hp ltac:(auto)).
    unfold get_variance in E'. change (dname V_v no_vars) with "v"%string in *. rewrite E' in Eb. injection Eb as <-.
    change (coords no_vars (Bin 0 0 0 0 0)) with (@nil nat) in *. rewrite He' in EM. apply Fin_eq in EM. subst M.
    exists a. eexists _, _. split; [exact E|]. split; [exact He|]. split; [exact HM|].
    rewrite Rmult_0_l, Rplus_0_r, Rmult_1_l. intros EQ0. match type of EQ0 with ?A = ?A + ?B => assert (EQ : B = 0) by lra end. clear EQ0.
    revert EQ. generalize (mixture_mean exg exmod false no_vars (Bin 0 0 0 0 0)). intros u. unfold over_rest, weight. rewrite Hn.
    unfold sum_over, sum_if, par_prob, marg, over, pprob, pjoint, txz_mass. cbn [has_t has_v has_x has_z no_vars rest union negb orb andb pgrid].
    ev. intros EQ. pose proof (pow2_ge_0 (10 - u)). pose proof (pow2_ge_0 (- 5 - u)). pose proof (pow2_ge_0 (5 - u)). nra.
  - destruct (par_order0_claim exL exmp exg exmod false Ho Hg Hm Hl 0 no_vars (scal (Fin 0)) eq_refl eq_refl) as (a & E & _ & He).
    exists a. split; [exact E|]. split; [exact (He _ 0 Hi eq_refl Hp ltac:(auto))|].
    exists (fun _ _ _ => 1). split.
    + intros t x y Ht Hx Hy. pose proof (gmom_ok (pm_mu exmod t x y) (pm_sig exmod t x y) 0 (gp_sig _ _ Hm t x y Ht Hx Hy) 0) as G. exact G.
    + symmetry. apply over_rest_one; auto.
Qed.

(** ** a correlation outside [-1,1] *)
Definition gc : grid :=
  Grid 2 2 1 1 1 (fun i => INR i) (fun i => 100 * INR i - 100) (fun i => INR i) (fun i => INR i) (fun i => INR i) (fun _ _ => 1).
Definition mc : par_model := ParModel (fun _ => 1 / 2) (fun _ _ _ => 1) (fun _ _ _ _ => 1)
  (fun t _ _ => if Nat.eqb t 0 then -1 else 1) (fun _ _ _ => 1) logistic.
Lemma gc_good : good_grid gc.
Proof.
  constructor; try (cbn; lia); try (intros i Hi; cbn [tE vE xE yE zE gc]; rewrite ?S_INR; pose proof (pos_INR i); nra).
  intros t z _ _. cbn. lra.
Qed.
Lemma mc_on : par_on exL (par_of gc mc) gc mc.
Proof. apply par_of_on; [| |reflexivity]; intros i Hi; unfold wid; cbn [xE yE gc]; rewrite !S_INR; lra. Qed.
Lemma mc_good : good_par gc mc.
Proof.
  pose proof exL_norm as [HF HI]. constructor; try (intros; cbn; lra); try (intros; ev; lra).
  - intros x. specialize (HF x). cbn in *. lra.
  - intros x y [Hlt| ->]; [|lra]. left. apply HI. exact Hlt.
Qed.
Lemma exp_ge n : INR n + 1 <= exp (INR n).
Proof. destruct n; [change (INR 0) with 0; rewrite exp_0; lra|]. left. rewrite Rplus_comm. apply exp_ineq1. apply not_0_INR. lia. Qed.
Lemma logistic_le x y : x <= y -> logistic x <= logistic y.
Proof. intros [Hlt| ->]; [|lra]. left. apply (proj2 exL_norm). exact Hlt. Qed.
Lemma logistic_hi n : (INR n + 1) / (INR n + 2) <= logistic (INR n).
Proof.
  unfold logistic. pose proof (exp_ge n) as He. pose proof (pos_INR n). rewrite exp_Ropp.
  apply (Rmult_le_reg_r (INR n + 2)); [lra|]. unfold Rdiv. rewrite Rmult_assoc, Rinv_l, Rmult_1_r by lra.
  assert (0 < / exp (INR n)) by (apply Rinv_0_lt_compat; lra).
  assert (E : / exp (INR n) <= / (INR n + 1)) by (apply Rinv_le_contravar; lra).
  apply (Rmult_le_reg_l (1 + / exp (INR n))); [lra|]. rewrite <- Rmult_assoc, Rinv_r, Rmult_1_l by lra.
  assert (/ exp (INR n) * (INR n + 1) <= 1) by (apply (Rmult_le_compat_r (INR n + 1)) in E; [rewrite Rinv_l in E; lra|lra]). lra.
Qed.
Lemma logistic_sym x : logistic (- x) = 1 - logistic x.
Proof. unfold logistic. rewrite Ropp_involutive, exp_Ropp. pose proof (exp_pos x). field. lra. Qed.

Lemma logistic_1 : 2 / 3 <= logistic 1 /\ logistic (-1) <= 1 / 3.
Proof.
  pose proof (logistic_hi 1) as H. change (INR 1) with 1 in H. replace (-1) with (- (1)) by lra. rewrite logistic_sym. lra.
Qed.
Lemma logistic_99 x : 98 <= x -> 99 / 100 <= logistic x /\ logistic (- x) <= 1 / 100.
Proof.
  intros Hx. pose proof (logistic_hi 98) as H. rewrite INR_IZR_INZ in H. cbn [Z.of_nat Pos.of_succ_nat Pos.succ] in H. pose proof (logistic_le 98 x Hx).
  rewrite logistic_sym. lra.
Qed.
Lemma logistic_range x : 0 <= logistic x <= 1.
Proof. pose proof (proj1 exL_norm x) as [A B]. cbn in A, B. lra. Qed.

Lemma mc_norm : total gc (par_joint gc mc false false) = 1.
Proof. unfold total, marg, over, par_joint, pprob, pjoint, txz_mass. cbn [has_t has_v has_x has_z no_vars]. ev. lra. Qed.
Lemma correlation_refuted : exists L self g m i r c, par_on L self g m /\ good_grid g /\ good_par g m /\ in_grid g i /\
  total g (par_joint g m false false) = 1 /\
  get_correlation (par_obj L (Fin 1) self) "tv" false = Ok r /\ ent r [] = Fin c /\ 10 < c.
Proof.
  set (i := Bin 0 0 0 0 0). assert (Hi : in_grid gc i) by (repeat split; cbn; lia).
  destruct (tv_corr_claim exL (par_of gc mc) gc mc false mc_on gc_good mc_good ltac:(discriminate) ltac:(discriminate) no_vars eq_refl (fun _ => mc_norm))
    as (r & Er & _ & Hr). specialize (Hr i Hi).
  assert (Hp : par_prob gc mc false no_vars i = 1).
  { rewrite <- mc_norm, <- (joint_marg gc mc false gc_good no_vars i). apply marg_none. }
  assert (HM : mixture_mean gc mc false no_vars i = 0).
  { unfold mixture_mean, over_rest, weight. rewrite Hp. unfold sum_over, sum_if, par_prob, marg, over, pprob, pjoint, txz_mass.
    cbn [has_t has_v has_x has_z no_vars rest union negb orb andb pgrid]. ev. lra. }
  assert (HV : v_variance gc mc false no_vars i = 2).
  { unfold v_variance. rewrite HM. unfold over_rest, weight. rewrite Hp. unfold sum_over, sum_if, par_prob, marg, over, pprob, pjoint, txz_mass.
    cbn [has_t has_v has_x has_z no_vars rest union negb orb andb pgrid]. ev. lra. }
  assert (HE : Mean gc (par_joint gc mc false false) Ct no_vars i = 1).
  { unfold Mean, Ex. change (marg gc (par_joint gc mc false false) no_vars i) with (total gc (par_joint gc mc false false)). rewrite mc_norm.
    unfold sum_over, sum_if, marg, over, par_joint, pprob, pjoint, txz_mass, cmid.
    cbn [has_t has_v has_x has_z no_vars union negb orb andb cvar]. ev. lra. }
  assert (HVt : Variance gc (par_joint gc mc false false) Ct no_vars i = 1 / 4).
  { unfold Variance. rewrite HE. unfold Moment, Ex. change (marg gc (par_joint gc mc false false) no_vars i) with (total gc (par_joint gc mc false false)). rewrite mc_norm.
    unfold sum_over, sum_if, marg, over, par_joint, pprob, pjoint, txz_mass, cmid.
    cbn [has_t has_v has_x has_z no_vars union negb orb andb cvar]. ev. lra. }
  rewrite HVt, HV, Hp in Hr. specialize (Hr ltac:(lra) ltac:(lra)).
  exists exL, (par_of gc mc), gc, mc, i, r. eexists. split; [exact mc_on|]. split; [exact gc_good|]. split; [exact mc_good|].
  split; [exact Hi|]. split; [exact mc_norm|]. split; [exact Er|]. split; [exact Hr|].
  assert (HC : 8 <= tv_covariance gc mc false no_vars i).
  { unfold tv_covariance. rewrite HE, HM, Hp. 
    unfold par_prob, marg, over, pprob, pjoint, txz_mass, vbin.
    cbn [has_t has_v has_x has_z no_vars union negb orb andb pgrid V_tv]. ev.
    replace ((100 * 0 - 100 - -1) / 1) with (- (99)) by lra. replace ((100 * 1 - 100 - -1) / 1) with 1 by lra.
    replace ((100 * (1 + 1) - 100 - -1) / 1) with 101 by lra. replace ((100 * 0 - 100 - 1) / 1) with (- (101)) by lra.
    replace ((100 * 1 - 100 - 1) / 1) with (-1) by lra. replace ((100 * (1 + 1) - 100 - 1) / 1) with 99 by lra.
    pose proof logistic_1. pose proof (logistic_99 99 ltac:(lra)). pose proof (logistic_99 101 ltac:(lra)).
    pose proof (logistic_range (- (101))). pose proof (logistic_range 101). pose proof (logistic_range (- (99))). pose proof (logistic_range 99). lra. }
  assert (HS : sqrt (1 / 4 * 2) <= 71 / 100).
  { rewrite <- (sqrt_square (71 / 100)) by lra. apply sqrt_le_1; lra. }
  assert (HS0 : 0 < sqrt (1 / 4 * 2)) by (apply sqrt_lt_R0; lra).
  set (c := sqrt (1 / 4 * 2)) in *. apply (Rmult_lt_reg_r c); [exact HS0|].
  replace (tv_covariance gc mc false no_vars i / c * c) with (tv_covariance gc mc false no_vars i) by (field; lra). lra.
Qed.
