(** * ParExample: a concrete parametric component, used by the examples beside
    the theorems on parametric components.

    The stand-in for the normal cdf is the logistic function, that for the beta
    cdf with its inverse is x^2 with sqrt, the beta distribution of parameters
    2 and 1. *)
From Coq Require Import Reals Lra Lia List Bool Arith ZArith String Ascii.
From Verif Require Import Num NumLemmas Arr ArrLemmas PyStr Cube Base Parametric GrowingDisk Stream Spec Repr ParSpec ParRepr
  ParSetSpec Build CubeGeom ParSetLemmas ParEnrich DiskLemmas StreamLemmas ParBuild ParClaims.
Import ListNotations.
Local Open Scope R_scope.

Definition logistic (x : R) : R := / (1 + exp (- x)).
Definition exL : stats_lib := StatsLib logistic (fun _ _ x => x * x) (fun _ _ p => sqrt p).

Lemma exL_norm : good_norm (norm_cdf exL).
Proof.
  unfold exL; cbn [norm_cdf]. split.
  - intros x. unfold logistic. pose proof (exp_pos (- x)). split; [apply Rinv_0_lt_compat; lra|].
    rewrite <- Rinv_1. apply Rinv_lt_contravar; lra.
  - intros x y H. unfold logistic. pose proof (exp_pos (- x)). pose proof (exp_pos (- y)). pose proof (exp_increasing (- y) (- x) ltac:(lra)).
    apply Rinv_lt_contravar; [apply Rmult_lt_0_compat; lra|lra].
Qed.
Lemma exL_cdf a b : good_cdf (beta_cdf exL a b).
Proof. unfold exL; cbn [beta_cdf]. split; [ring|]. split; [ring|]. intros. nra. Qed.
Lemma exL_ppf a b : good_ppf (beta_ppf exL a b).
Proof.
  unfold exL; cbn [beta_ppf]. split.
  - intros p Hp. split; [apply sqrt_pos|]. rewrite <- sqrt_1. apply sqrt_le_1; lra.
  - intros p q H1 H2 H3. apply sqrt_lt_1; lra.
Qed.

Definition exsfh : sfh_args := Sfh 3 (2 / 3) (1 / 4, 3 / 4).
Lemma exsfh_ok : sfh_ok exL exsfh.
Proof. constructor; cbn [exsfh sa_lmd sa_phi sa_se fst snd]; try lra. - apply exL_cdf. - apply exL_ppf. Qed.

Definition excube : cube := cube_of exg.
Definition exX : map2d := fun x y => mid (xE exg) x.
Definition exY : map2d := fun x y => mid (yE exg) y.
Lemma excube_on : cube_on excube exg.
Proof. apply cube_of_on; [apply exg_uniform_x|apply exg_uniform_y]. Qed.
Lemma excube_xy : cube_xy excube exg exX exY.
Proof. split; (split; [reflexivity|]); intros idx Hi; inb_inv; reflexivity. Qed.
Lemma exg_light : positive_light exg.
Proof. intros t z _ _. cbn [Lw exg]. pose proof (pos_INR t). pose proof (pos_INR z). lra. Qed.

(** a component on which nothing but set_p_t has been called *)
Definition expar0 : par := match par_init excube (1, 1 / 2) 0 with Ok p => p | Err _ => Par excube (scal NaN) (scal NaN) (ZGrid (scal NaN) (scal NaN)) None None None None None None None None end.
Lemma expar0_ok : exists X Y, par_init excube (1, 1 / 2) 0 = Ok expar0 /\ pa_cube expar0 = excube /\ xy_on expar0 exg X Y /\
  X 0%nat 0%nat = - (1 / 2) /\ Y 0%nat 0%nat = 0 /\ X 1%nat 0%nat = 1 / 2 /\ Y 1%nat 0%nat = 0 /\
  zgrid_on expar0 exg /\ pa_t_pars expar0 = None /\ 0 < max_abs exg X.
Proof.
  destruct (par_init_ok excube exg exX exY (1, 1 / 2) 0 excube_on exg_good excube_xy) as (p & E & Ec & Hxy & Hz & Ht & _).
  assert (Ep : expar0 = p) by (unfold expar0; rewrite E; reflexivity). rewrite Ep.
  eexists _, _. split; [exact E|]. split; [exact Ec|]. split; [exact Hxy|].
  unfold rot_x, rot_y, exX, exY, mid. cbn [exg xE yE fst snd]. rewrite cos_0, sin_0. cbn [INR].
  split; [lra|]. split; [lra|]. split; [lra|]. split; [lra|].
  split; [unfold zgrid_on; rewrite Ec; exact Hz|]. split; [exact Ht|].
  eapply Rlt_le_trans; [|apply (max_abs_ge exg _ 0 0); cbn; lia]. cbn beta. cbn [INR].
  replace (1 * ((0 + 1) / 2 - 1) + - 0 * ((0 + 1) / 2 - 1 / 2)) with (- (1 / 2)) by lra.
  rewrite Rabs_Ropp. apply Rabs_pos_lt. lra.
Qed.
Definition expar : par := match set_age exL expar0 exsfh with Ok p => p | Err _ => expar0 end.
Lemma expar_ok : exists X Y s e, set_age exL expar0 exsfh = Ok expar /\ pa_cube expar = excube /\ xy_on expar exg X Y /\
  X 0%nat 0%nat = - (1 / 2) /\ Y 0%nat 0%nat = 0 /\ X 1%nat 0%nat = 1 / 2 /\ Y 1%nat 0%nat = 0 /\
  zgrid_on expar exg /\ t_pars_on expar s e /\ 0 < max_abs exg X.
Proof.
  destruct expar0_ok as (X & Y & E & Ec & Hxy & H1 & H2 & H3 & H4 & Hz & _ & Hm).
  assert (Hc : cube_on (pa_cube expar0) exg) by (rewrite Ec; exact excube_on).
  destruct (set_age_ok exL expar0 exg exsfh Hc exg_good exsfh_ok) as (a & E' & _ & Ht).
  assert (Ep : expar = with_p_t expar0 (Fin (sfh_age exL exg exsfh (fst (sa_se exsfh)))) (Fin (sfh_age exL exg exsfh (snd (sa_se exsfh)))) a)
    by (unfold expar; rewrite E'; reflexivity).
  exists X, Y. eexists _, _. rewrite Ep. split; [exact E'|]. split; [exact Ec|]. split; [exact Hxy|].
  do 4 (split; [assumption|]). split; [exact Hz|]. split; [exact Ht|exact Hm].
Qed.

Definition exdisk : disk_args :=
  Disk (1, 1 / 2) (1, 2) (1, 2)  (1 / 2) 1 3 2 (1 / 10) 10  (1, 1) (1, 2) (- 100, 0)  (1, 1) (1, 2) (50, 60) (20, 10) 500 10.
Lemma exdisk_ok : disk_ok exdisk.
Proof.
  constructor; unfold posl, nonnegl, tdep_args_ok, one_sign; cbn [exdisk dx_q dx_rc dx_al dt_q dt_al dt_in dt_out dt_min dt_max dm_q dm_rmax dm_vmax ds_q ds_al ds_in ds_out fst snd]; try lra.
Qed.
Definition exstream : stream_args := Strm (0, PI / 2) (1, 2) (1 / 10) 3 5 (- 100, 100) 30.
Lemma exstream_ok : stream_ok exstream.
Proof.
  pose proof PI_RGT_0. constructor; unfold angles_ok; cbn [exstream sx_th sx_sig sx_n ss_sig fst snd]; try lra. lia.
Qed.
Lemma ex_off_axis : exists x y, (x < nx exg)%nat /\ (y < ny exg)%nat /\ cos 0 * (exX x y - 1) <> sin 0 * (exY x y - 1 / 2).
Proof.
  exists 0%nat, 0%nat. split; [cbn; lia|]. split; [cbn; lia|]. rewrite cos_0, sin_0. unfold exX, mid. cbn [exg xE INR]. lra.
Qed.

Lemma expar0_cube : cube_on (pa_cube expar0) exg.
Proof. destruct expar0_ok as (X & Y & _ & Ec & _). rewrite Ec. exact excube_on. Qed.
Lemma expar_cube : cube_on (pa_cube expar) exg.
Proof. destruct expar_ok as (X & Y & s & e & _ & Ec & _). rewrite Ec. exact excube_on. Qed.

Lemma bin_probability_refuted :
  exists L self g t_dep (td : map2d) self' a p k l,
    cube_on (pa_cube self) g /\ good_grid g /\ good_norm (norm_cdf L) /\
    set_p_z_tx L self t_dep = Ok self' /\ pa_log_p_z_tx self' = Some a /\
    (forall j, (j < nz g)%nat -> ent a [j; 0; 0; 0]%nat = nlog (Fin (p j))) /\ (k < nz g)%nat /\ (l < nz g)%nat /\
    let N k := znorm g (norm_cdf L) (zm g (td 0 0)%nat 0) (ahat * Rpower (zm g (td 0 0)%nat 0) bhat) k in
    (p k * wid (zE g) k) * N l <> (p l * wid (zE g) l) * N k.
Proof.
  destruct expar_ok as (X & Y & s & e & _ & _ & Hxy & _ & _ & _ & _ & Hz & _).
  destruct (enrich_claim exL expar exg (full [2; 1]%nat (Fin 5)) (fun _ _ => 5) expar_cube exg_good Hz exL_norm eq_refl)
    as (self' & a & p & E & Ea & _ & V & _ & H); [intros; reflexivity|].
  exists exL, expar, exg, (full [2; 1]%nat (Fin 5)), (fun _ _ => 5), self', a, (p 0 0 0)%nat, 0%nat, 1%nat.
  split; [exact expar_cube|]. split; [exact exg_good|]. split; [exact exL_norm|]. split; [exact E|]. split; [exact Ea|].
  split; [intros; apply V; cbn; try lia; assumption|]. split; [cbn; lia|]. split; [cbn; lia|].
  destruct (H 0 0 0)%nat as (_ & _ & HN); [cbn; lia|]. apply HN; [cbn; lia|cbn; lia|]. unfold wid. cbn [exg zE INR]. lra.
Qed.
