(** * Props_ParMoments: claims C51-C53 about moments of parametric components.

    factorial2(-1), on which scipy versions disagree, is an argument of
    [par_obj]; the claims are for the value 1. *)
From Coq Require Import Reals Lra Lia List Bool Arith ZArith String Ascii.
From Verif Require Import Num NumLemmas Arr PyStr Cube Base Moments Parametric Spec Repr ParSpec ParRepr MomSpec ParMoments
  GaussSpec ParMomSpec Build ParExample ParMomClaims ParMomOther ParMomCorr ParMomExample.
Import ListNotations.
Local Open Scope R_scope.

(** ** C51 *)
(** means by the law of total expectation *)
Theorem C51_means : forall L self g m lw, par_on L self g m -> good_grid g -> good_par g m -> par_lw_ok g m lw false ->
  forall f2m1 C, has_v C = false ->
  exists a, get_mean (par_obj L f2m1 self) (dname V_v C) lw = Ok a /\ shp a = dims C g /\
    forall i, in_grid g i ->
      (0 < par_prob g m lw C i -> (nonempty C = false -> lw = false -> par_prob g m false no_vars i = 1) ->
        ent a (coords C i) = Fin (mixture_mean g m lw C i)) /\
      (nonempty C = true -> par_prob g m lw C i = 0 ->
        In (dname V_v C) ["v_x"; "v_z"; "v_xz"; "v_tz"]%string \/ dname V_v C = "v_t"%string /\ lw = true ->
        ent a (coords C i) = NaN).
Proof. exact par_mean_claim. Qed.
Print Assumptions C51_means.
(** moments of every order about every centre; given t, x and z the centre must
    not depend on z (see C52) *)
Theorem C51_moments : forall L self g m lw, par_on L self g m -> good_grid g -> good_par g m -> par_lw_ok g m lw false ->
  forall C j mu, has_v C = false -> shp mu = dims C g ->
  (C = V_txz -> forall i, in_grid g i -> ent mu (coords C i) = ent mu (coords C (set_z 0 i))) ->
  exists a, get_noncentral_moment (par_obj L (Fin 1) self) (dname V_v C) j mu lw = Ok a /\ shp a = dims C g /\
    forall i c, in_grid g i -> ent mu (coords C i) = Fin c ->
      0 < par_prob g m lw C i -> (nonempty C = false -> lw = false -> par_prob g m false no_vars i = 1) ->
      exists M, ent a (coords C i) = Fin M /\ mixture_moment g m lw C i c j M.
Proof. exact par_moment_claim. Qed.
Print Assumptions C51_moments.
(** about the mean; this includes given t, x and z *)
Theorem C51_central_moments : forall L self g m lw, par_on L self g m -> good_grid g -> good_par g m -> par_lw_ok g m lw false ->
  forall C j, has_v C = false ->
  exists a, get_central_moment (par_obj L (Fin 1) self) (dname V_v C) j lw = Ok a /\ shp a = dims C g /\
    forall i, in_grid g i -> 0 < par_prob g m lw C i -> (nonempty C = false -> lw = false -> par_prob g m false no_vars i = 1) ->
      exists M, ent a (coords C i) = Fin M /\ mixture_moment g m lw C i (mixture_mean g m lw C i) j M.
Proof. exact par_central_claim. Qed.
Print Assumptions C51_central_moments.
(** the moments are determined by these statements *)
Theorem C51_moments_unique : forall g m lw C i c j M M', in_grid g i ->
  mixture_moment g m lw C i c j M -> mixture_moment g m lw C i c j M' -> M = M'.
Proof. exact mixture_moment_unique. Qed.
Print Assumptions C51_moments_unique.
(** variance: mean of the variances plus variance of the means *)
Theorem C51_variance : forall L self g m lw, par_on L self g m -> good_grid g -> good_par g m -> par_lw_ok g m lw false ->
  forall C, has_v C = false ->
  exists a, get_variance (par_obj L (Fin 1) self) (dname V_v C) lw = Ok a /\ shp a = dims C g /\
    forall i, in_grid g i -> 0 < par_prob g m lw C i -> (nonempty C = false -> lw = false -> par_prob g m false no_vars i = 1) ->
      ent a (coords C i) = Fin (over_rest g m lw C i (fun t x y => pm_sig m t x y ^ 2) +
        over_rest g m lw C i (fun t x y => (pm_mu m t x y - mixture_mean g m lw C i) ^ 2)).
Proof. exact par_variance_claim. Qed.
Print Assumptions C51_variance.
(** where factorial2(-1) is 0 the claim fails: the variance of v lacks the
    variance of the means and the moment of order 0 is 0 *)
Theorem C51_factorial2_refuted : exists L self g m i, par_on L self g m /\ good_grid g /\ good_par g m /\ in_grid g i /\
  par_prob g m false no_vars i = 1 /\
  (exists a V M, get_variance (par_obj L (Fin 0) self) "v" false = Ok a /\ ent a [] = Fin V /\
     mixture_moment g m false no_vars i (mixture_mean g m false no_vars i) 2 M /\ V <> M) /\
  (exists a, get_noncentral_moment (par_obj L (Fin 0) self) "v" 0 (scal (Fin 0)) false = Ok a /\ ent a [] = Fin 0 /\
     mixture_moment g m false no_vars i 0 0 1).
Proof. exact factorial2_refuted. Qed.
Print Assumptions C51_factorial2_refuted.
(** velocities given x = first pixel: 10 with probability 1/5 and -5 with
    probability 4/5; dispersions 1 and 2 *)
Example C51_example : exists a b c, get_mean (par_obj exL (Fin 1) exmp) "v_x" false = Ok a /\ ent a [0; 0]%nat = Fin (-2) /\
  get_variance (par_obj exL (Fin 1) exmp) "v_x" false = Ok b /\ ent b [0; 0]%nat = Fin (1 / 5 * (1 + 12 ^ 2) + 4 / 5 * (4 + 3 ^ 2)) /\
  get_mean (par_obj exL (Fin 1) exmp) "v" true = Ok c /\ exists r, ent c [] = Fin r.
Proof.
  set (i := Bin 0 0 0 0 0). assert (Hi : in_grid exg i) by (repeat split; cbn; lia).
  set (C := VSet false false true false).
  assert (Hp : par_prob exg exmod false C i = 5 / 12).
  { unfold par_prob, marg, over, pprob, pjoint, txz_mass. cbn [has_t has_v has_x has_z C pgrid]. ev. lra. }
  destruct (C51_means exL exmp exg exmod false exmp_on exg_good exmod_good (exmod_lw false) (Fin 1) C eq_refl) as (a & Ea & _ & Ha).
  destruct (C51_variance exL exmp exg exmod false exmp_on exg_good exmod_good (exmod_lw false) C eq_refl) as (b & Eb & _ & Hb).
  destruct (C51_means exL exmp exg exmod true exmp_on exg_good exmod_good (exmod_lw true) (Fin 1) no_vars eq_refl) as (c & Ec & _ & Hc).
  assert (HM : mixture_mean exg exmod false C i = -2).
  { unfold mixture_mean, over_rest, weight. rewrite Hp. unfold sum_over, sum_if, par_prob, marg, over, pprob, pjoint, txz_mass.
    cbn [has_t has_v has_x has_z C rest union negb orb andb pgrid]. ev. lra. }
  exists a, b, c. split; [exact Ea|]. split.
  { rewrite <- HM. apply (proj1 (Ha i Hi)); [rewrite Hp; lra|discriminate]. }
  split; [exact Eb|]. split.
  { change [0; 0]%nat with (coords C i). rewrite (Hb i Hi); [|rewrite Hp; lra|discriminate]. f_equal. rewrite HM.
    unfold over_rest, weight. rewrite Hp. unfold sum_over, sum_if, par_prob, marg, over, pprob, pjoint, txz_mass.
    cbn [has_t has_v has_x has_z C rest union negb orb andb pgrid]. ev. lra. }
  split; [exact Ec|]. eexists. apply (proj1 (Hc i Hi)); [|discriminate].
  rewrite (norm_lw exg exmod true (exmod_lw true) i eq_refl). lra.
Qed.

(** ** C52 *)
(** the centre of the first metallicity is used for all metallicities *)
Theorem C52_centre_of_first_z : forall L self g m lw, par_on L self g m -> good_grid g -> good_par g m -> par_lw_ok g m lw false ->
  forall j mu, shp mu = dims V_txz g ->
  exists a, get_noncentral_moment (par_obj L (Fin 1) self) "v_txz" j mu lw = Ok a /\ shp a = dims V_txz g /\
    forall i c, in_grid g i -> ent mu (coords V_txz (set_z 0 i)) = Fin c -> 0 < par_prob g m lw V_txz i ->
      exists M, ent a (coords V_txz i) = Fin M /\
        gauss_moment (pm_mu m (bt i) (bx i) (by_ i)) (pm_sig m (bt i) (bx i) (by_ i)) c j M.
Proof. exact par_txz_claim. Qed.
Print Assumptions C52_centre_of_first_z.
(** so on every component some centre gives a wrong moment at any other
    metallicity *)
Theorem C52_centre_refuted : forall L self g m lw, par_on L self g m -> good_grid g -> good_par g m -> par_lw_ok g m lw false ->
  forall i, in_grid g i -> bz i <> 0%nat -> 0 < par_prob g m lw V_txz i ->
  exists mu a c M M', shp mu = dims V_txz g /\ ent mu (coords V_txz i) = Fin c /\
    get_noncentral_moment (par_obj L (Fin 1) self) "v_txz" 1 mu lw = Ok a /\ ent a (coords V_txz i) = Fin M /\
    gauss_moment (pm_mu m (bt i) (bx i) (by_ i)) (pm_sig m (bt i) (bx i) (by_ i)) c 1 M' /\ M <> M'.
Proof. exact par_txz_refuted. Qed.
Print Assumptions C52_centre_refuted.
Example C52_example : exists mu a c M M', shp mu = [2; 2; 1; 2]%nat /\ ent mu [0; 0; 0; 1]%nat = Fin c /\
    get_noncentral_moment (par_obj exL (Fin 1) exmp) "v_txz" 1 mu false = Ok a /\ ent a [0; 0; 0; 1]%nat = Fin M /\
    gauss_moment 10 1 c 1 M' /\ M <> M'.
Proof.
  apply (C52_centre_refuted exL exmp exg exmod false exmp_on exg_good exmod_good (exmod_lw false) (Bin 0 0 0 0 1)).
  - repeat split; cbn; lia.
  - discriminate.
  - unfold par_prob, marg, over, pprob, pjoint, txz_mass. cbn [has_t has_v has_x has_z V_txz pgrid]. ev. lra.
Qed.

(** ** C53 *)
(** correlations of pairs without v are in [-1,1] *)
Theorem C53_without_v : forall L self g m q lw, par_on L self g m -> good_grid g -> good_par g m ->
  forall a b C, a <> Cv -> b <> Cv -> before a b = true -> disjoint (union (cvar a) (cvar b)) C = true ->
  par_lw_ok g m lw (has_v C) -> let P := par_joint g m lw (has_v C) in
  (nonempty C = false -> total g P = 1) -> no_holes g m lw (cvar a) C -> no_holes g m lw (cvar b) C ->
  exists r, get_correlation (par_obj L q self) (dname (union (cvar a) (cvar b)) C) lw = Ok r /\ shp r = mdims (xkey a b) C g /\
    forall i, in_grid g i ->
      (0 < par_prob g m lw C i -> 0 < Variance g P a C i -> 0 < Variance g P b C i ->
         exists c, ent r (mcoords (xkey a b) C i) = Fin c /\ -1 <= c <= 1 /\
           c = Covar g P a b C i / sqrt (Variance g P a C i * Variance g P b C i)) /\
      (0 < par_prob g m lw C i -> Variance g P a C i * Variance g P b C i = 0 -> ent r (mcoords (xkey a b) C i) = NaN) /\
      (par_prob g m lw C i = 0 -> ent r (mcoords (xkey a b) C i) = NaN).
Proof. exact par_corr_claim. Qed.
Print Assumptions C53_without_v.
(** the correlation of t and v: binned covariance over analytic variance *)
Theorem C53_age_velocity : forall L self g m lw, par_on L self g m -> good_grid g -> good_par g m ->
  par_lw_ok g m lw false -> par_lw_ok g m lw true -> forall C, disjoint V_tv C = true ->
  let P := par_joint g m lw false in (nonempty C = false -> total g P = 1) ->
  exists r, get_correlation (par_obj L (Fin 1) self) (dname V_tv C) lw = Ok r /\ shp r = dims C g /\
  forall i, in_grid g i -> 0 < par_prob g m lw C i -> 0 < Variance g P Ct C i * v_variance g m lw C i ->
    ent r (coords C i) = Fin (tv_covariance g m lw C i / sqrt (Variance g P Ct C i * v_variance g m lw C i)).
Proof. exact tv_corr_claim. Qed.
Print Assumptions C53_age_velocity.
(** it exceeds 1 *)
Theorem C53_refuted : exists L self g m i r c, par_on L self g m /\ good_grid g /\ good_par g m /\ in_grid g i /\
  total g (par_joint g m false false) = 1 /\
  get_correlation (par_obj L (Fin 1) self) "tv" false = Ok r /\ ent r [] = Fin c /\ 10 < c.
Proof. exact correlation_refuted. Qed.
Print Assumptions C53_refuted.
Example C53_example : exists r c, get_correlation (par_obj exL (Fin 1) exmp) "tz_x" false = Ok r /\ ent r [0; 0]%nat = Fin c /\ -1 <= c <= 1.
Proof.
  set (i := Bin 0 0 0 0 0). assert (Hi : in_grid exg i) by (repeat split; cbn; lia).
  set (C := VSet false false true false).
  assert (Hp : par_prob exg exmod false C i = 5 / 12).
  { unfold par_prob, marg, over, pprob, pjoint, txz_mass. cbn [has_t has_v has_x has_z C pgrid]. ev. lra. }
  destruct (C53_without_v exL exmp exg exmod (Fin 1) false exmp_on exg_good exmod_good Ct Cz C ltac:(discriminate) ltac:(discriminate) eq_refl eq_refl
    (exmod_lw false) ltac:(discriminate)) as (r & Er & _ & Hr).
  { intros _ HI. cbn in HI. repeat (destruct HI as [HI|HI]; [discriminate HI|]). destruct HI. }
  { intros _ HI. cbn in HI. repeat (destruct HI as [HI|HI]; [discriminate HI|]). destruct HI. }
  destruct (Hr i Hi) as [H1 _].
  assert (HM : forall P, P = par_joint exg exmod false false -> marg exg P C i = 5 / 12).
  { intros P ->. change false with (has_v C) at 2. rewrite (joint_marg exg exmod false exg_good C i). exact Hp. }
  destruct H1 as (c & Ec & Hc & _); [rewrite Hp; lra|..].
  - unfold Variance, Moment, Mean, Ex. rewrite HM by reflexivity.
    unfold sum_over, sum_if, marg, over, par_joint, pprob, pjoint, txz_mass, cmid.
    cbn [has_t has_v has_x has_z C union negb orb andb cvar]. ev. lra.
  - unfold Variance, Moment, Mean, Ex. rewrite HM by reflexivity.
    unfold sum_over, sum_if, marg, over, par_joint, pprob, pjoint, txz_mass, cmid.
    cbn [has_t has_v has_x has_z C union negb orb andb cvar]. ev. lra.
  - exists r, c. split; [exact Er|]. split; [exact Ec|exact Hc].
Qed.
