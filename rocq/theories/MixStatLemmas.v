(** * MixStatLemmas: variance, shape, covariance and correlation of a mixture from
    its means and central moments; L-moments from its get_p. *)
From Coq Require Import Reals Lra Lia List Bool Arith ZArith String Ascii.
From Verif Require Import Num NumLemmas Arr ArrLemmas PyStr StrLemmas Cube Base Spec SpecLemmas Repr CubeLemmas
  BaseLemmas CondLemmas DistLemmas StringClaims Moments MomArr MomSpec MomLemmas MomLemmas2 MomLemmas3
  MomLemmas4 MomLemmas5 MomLemmas6 LMom Stat MomClaims StatGen Mixture MixSpec MixGen MixLemmas MixCond MixMom MixStat NormalL NormalLSpec NormalLClaims MixStatSpec.
Import ListNotations.
Local Open Scope R_scope.

Lemma xkey_nan a b : nmul NaN b = NaN /\ nmul a NaN = NaN.
Proof. split; [destruct b|destruct a]; reflexivity. Qed.

Section Gen.
Context (self : mixture) (g : grid) (P : joint) (lw : bool) (C : vset).
Context (Hc : cube_on (mx_cube self) g) (Hg : good_grid g) (HP : nonneg g P).
(** where the moments are right and where they are nan *)
Context (Q N : bin -> Prop) (HQ : forall i, in_grid g i -> Q i -> 0 < marg g P C i).

Definition mean_right (k : coord) : Prop :=
  exists m, mix_mean self (dname (cvar k) C) lw = Ok m /\ shp m = mdims k C g /\
    forall i, in_grid g i -> (Q i -> ent m (mcoords k C i) = Fin (Mean g P k C i)) /\ (N i -> ent m (mcoords k C i) = NaN).
Definition central_right (k : coord) : Prop := forall j,
  exists m, mix_central_moment self (dname (cvar k) C) j lw = Ok m /\ shp m = mdims k C g /\
    forall i, in_grid g i -> (Q i -> ent m (mcoords k C i) = Fin (Moment g P k C j (Mean g P k C i) i)) /\
      (N i -> ent m (mcoords k C i) = NaN).

Section One.
Context (k : coord) (HD : disjoint (cvar k) C = true) (HK : central_right k).

Lemma mixs_variance :
  exists v s, mix_variance self (dname (cvar k) C) lw = Ok v /\ mix_dispersion self (dname (cvar k) C) lw = Ok s /\
    shp v = mdims k C g /\ shp s = mdims k C g /\
    forall i, in_grid g i ->
      (Q i -> variance_at g P k C i (ent v (mcoords k C i)) (ent s (mcoords k C i))) /\
      (N i -> ent v (mcoords k C i) = NaN /\ ent s (mcoords k C i) = NaN).
Proof.
  destruct (HK 2%nat) as (v & Ev & Hvs & Hve).
  exists v, (amap nsqrt v). split; [exact Ev|]. split; [unfold mix_dispersion; rewrite Ev; reflexivity|].
  split; [exact Hvs|]. split; [exact Hvs|]. intros i Hi. destruct (Hve i Hi) as [V1 V2]. cbn [amap ent]. split.
  - intros Hq. pose proof (HQ i Hi Hq) as Hm. exists (Variance g P k C i). rewrite V1 by exact Hq. split; [reflexivity|].
    pose proof (Variance_nonneg g P HP k C i Hi Hm) as V0. split; [exact (nsqrt_Fin _ V0)|].
    apply Variance_facts; assumption.
  - intros Hn. rewrite V2 by exact Hn. split; reflexivity.
Qed.

(** a normalised moment, bin by bin *)
Lemma mixs_normalised j : (0 < j)%nat ->
  exists m, mix_normalised self (dname (cvar k) C) j lw = Ok m /\ shp m = mdims k C g /\
    forall i, in_grid g i ->
      (Q i -> 0 < Variance g P k C i ->
         ent m (mcoords k C i) = Fin (Moment g P k C j (Mean g P k C i) i / sqrt (Variance g P k C i) ^ j)) /\
      (Q i -> Variance g P k C i = 0 -> ent m (mcoords k C i) = NaN) /\
      (N i -> ent m (mcoords k C i) = NaN).
Proof.
  intros Hj. unfold mix_normalised, mix_dispersion. destruct (HK j) as (m & E & Hs & He). rewrite E. cbn [bind].
  destruct (HK 2%nat) as (v & Ev & Hvs & Hve). rewrite Ev. cbn [bind].
  destruct (bop_same_is ndiv m (amap (fun d => npow d j) (amap nsqrt v)) _ Hs Hvs) as (q & Eq & Hqs & Hqe).
  exists q. split; [exact Eq|]. split; [exact Hqs|]. intros i Hi.
  rewrite Hqe by (apply mcoords_inb; assumption). cbn [amap ent].
  destruct (He i Hi) as [H1 H2]. destruct (Hve i Hi) as [H3 H4]. fold (Variance g P k C i) in H3. split; [|split].
  - intros Hq Hv. rewrite H1, H3 by assumption. rewrite nsqrt_Fin by lra. rewrite npow_Fin, ndiv_Fin; [reflexivity|].
    apply pow_nonzero. pose proof (sqrt_lt_R0 _ Hv). lra.
  - intros Hq Hv. rewrite H1, H3 by assumption. rewrite Hv, nsqrt_Fin, sqrt_0, npow_Fin, pow_i by (assumption || lra).
    rewrite (Moment_zero g P HP k C HD) by (try assumption; auto). apply zero_over_zero.
  - intros Hn. rewrite H2 by assumption. apply ndiv_nan_l.
Qed.

Lemma mixs_shape f2m1 :
  exists sk ku ek, mix_skewness self (dname (cvar k) C) lw = Ok sk /\ mix_kurtosis self (dname (cvar k) C) lw = Ok ku /\
    mix_excess_kurtosis f2m1 self (dname (cvar k) C) lw = Ok ek /\
    shp sk = mdims k C g /\ shp ku = mdims k C g /\ shp ek = mdims k C g /\
    forall i, in_grid g i ->
      (Q i -> shape_at g P k C i (ent sk (mcoords k C i)) (ent ku (mcoords k C i)) (ent ek (mcoords k C i))) /\
      (N i -> ent sk (mcoords k C i) = NaN /\ ent ku (mcoords k C i) = NaN /\ ent ek (mcoords k C i) = NaN).
Proof.
  destruct (mixs_normalised 3 ltac:(lia)) as (sk & Esk & Hsks & Hske).
  destruct (mixs_normalised 4 ltac:(lia)) as (ku & Eku & Hkus & Hkue).
  destruct (bop_is nsub ku (scal (get_normalised_central_moment_normal f2m1 4)) _ _ _ _ (mdims k C g)
    (self_is ku _ Hkus) (scal_is _) (bshape_nil_r _)) as (ek & Eek & Heks & Heke).
  exists sk, ku, ek. split; [exact Esk|]. split; [exact Eku|].
  split; [unfold mix_excess_kurtosis, mix_excess; rewrite Eku; exact Eek|]. do 3 (split; [assumption|]). intros i Hi.
  destruct (Hske i Hi) as (S1 & S2 & S3). destruct (Hkue i Hi) as (K1 & K2 & K3).
  rewrite Heke by (apply mcoords_inb; assumption). rewrite bidx_self by (apply mcoords_inb; assumption).
  split; [intros Hq; split|].
  - intros Hv. eexists _, _. rewrite S1, K1 by assumption. do 2 (split; [reflexivity|]).
    split; [cbn; rewrite nsub_Fin; f_equal; cbn; lra|]. do 2 (split; [reflexivity|]). apply Kurt_skew; auto.
  - intros Hv. rewrite S2, K2 by assumption. auto.
  - intros Hn. rewrite S3, K3 by assumption. auto.
Qed.
End One.

(** L-moments come from get_p alone *)
Lemma mixs_l_moments k : disjoint (cvar k) C = true -> is_x k = false -> gives (mix_obj self) g P lw (cvar k) C ->
  exists a b c, get_l_mean (mix_obj self) (dname (cvar k) C) lw = Ok a /\
    get_l_dispersion (mix_obj self) (dname (cvar k) C) lw = Ok b /\ get_l_moment (mix_obj self) (dname (cvar k) C) 3 lw = Ok c /\
    shp a = dims C g /\ shp b = dims C g /\ shp c = dims C g /\
    forall i, in_grid g i ->
      (0 < marg g P C i -> l_moments_at g P k C i (ent a (coords C i)) (ent b (coords C i)) (ent c (coords C i))) /\
      (marg g P C i = 0 -> ent a (coords C i) = NaN /\ ent b (coords C i) = NaN /\ ent c (coords C i) = NaN).
Proof.
  clear HQ. intros HD Hx HG. destruct (hist_ok (mix_obj self) g P lw Hc Hg HP k C Hx HD HG) as (a & b & c & Ea & Eb & Ec & Sa & Sb & Sc & He).
  destruct (l_moment_ok (mix_obj self) g P lw Hc Hg k C Hx HD HG 0) as (a' & Ea' & _ & He').
  assert (a' = a) by (unfold get_l_mean in Ea; congruence). subst a'.
  exists a, b, c. do 6 (split; [assumption|]). intros i Hi. destruct (He i Hi) as [H1 H2]. split; [|exact H2].
  intros Hm. destruct (H1 Hm) as (M1 & M2 & M3 & I1 & I2 & I3 & A & B & D & _). exists M1, M2, M3. do 4 (split; [assumption|]).
  split; [|split; assumption]. destruct (He' i Hi) as [K _]. specialize (K Hm). rewrite Ltrap_mean in K by assumption. congruence.
Qed.

Section Two.
Context (a b : coord) (Hab : before a b = true) (HD : disjoint (union (cvar a) (cvar b)) C = true).
Context (Ha : mean_right a) (Hb : mean_right b) (HG : gives (mix_own self) g P lw (union (cvar a) (cvar b)) C).

Lemma own_mean k m : disjoint (cvar k) C = true -> mix_mean self (dname (cvar k) C) lw = Ok m -> get_mean (mix_own self) (dname (cvar k) C) lw = Ok m.
Proof. intros Hk E. unfold get_mean. rewrite part0_dname, len_name by assumption. exact E. Qed.

Lemma mixs_covariance :
  exists r, mix_covariance self (dname (union (cvar a) (cvar b)) C) lw = Ok r /\ shp r = mdims (xkey a b) C g /\
    forall i, in_grid g i ->
      (Q i -> ent r (mcoords (xkey a b) C i) = Fin (Covar g P a b C i)) /\
      (N i -> ent r (mcoords (xkey a b) C i) = NaN).
Proof.
  pose proof (HDa a b C HD) as Da. pose proof (HDb a b C HD) as Db.
  destruct Ha as (ma & Ea & Has & Hae). destruct Hb as (mb & Eb & Hbs & Hbe).
  destruct (covariance_gen (mix_own self) g P lw Hc Hg a b C Hab HD HG (Mean g P a C) (Mean g P b C)
    (fun i => in_grid g i /\ Q i) ma mb) as (r & Er & Hrs & Hre).
  - intros i [Hi Hq]. auto.
  - apply own_mean; assumption.
  - exact Has.
  - intros i Hi [_ Hq]. apply Hae; assumption.
  - apply own_mean; assumption.
  - exact Hbs.
  - intros i Hi [_ Hq]. apply Hbe; assumption.
  - exists r. split; [exact Er|]. split; [exact Hrs|]. intros i Hi. destruct (Hre i Hi) as (R1 & _ & R3). split.
    + intros Hq. apply R1; split; assumption.
    + intros Hn. apply R3. apply Hae; assumption.
Qed.

Lemma mixs_correlation : central_right a -> central_right b ->
  exists r, mix_correlation self (dname (union (cvar a) (cvar b)) C) lw = Ok r /\ shp r = mdims (xkey a b) C g /\
    forall i, in_grid g i ->
      (Q i -> correlation_at g P a b C i (ent r (mcoords (xkey a b) C i))) /\
      (N i -> ent r (mcoords (xkey a b) C i) = NaN).
Proof.
  intros Ka Kb. unfold mix_correlation. rewrite pair_parts by assumption. cbn [bind fst snd].
  rewrite pair_chars by assumption. rewrite !one_dist_name.
  destruct mixs_covariance as (m & Em & Hms & Hme). rewrite Em; cbn [bind]. unfold mix_variance.
  destruct (Ka 2%nat) as (va & Eva & Hvas & Hvae). rewrite Eva; cbn [bind].
  destruct (Kb 2%nat) as (vb & Evb & Hvbs & Hvbe). rewrite Evb; cbn [bind].
  destruct (moment_product g a b C va vb Hab Hvas Hvbs) as (v & Ev & Hvs & Hve). rewrite Ev; cbn [bind].
  destruct (bop_same_is ndiv m (amap nsqrt v) _ Hms Hvs) as (q & Eq & Hqs & Hqe).
  exists q. split; [exact Eq|]. split; [exact Hqs|]. intros i Hi.
  rewrite Hqe by (apply mcoords_inb; assumption). cbn [amap ent]. rewrite Hve by assumption.
  destruct (Hme i Hi) as [M1 M2]. destruct (Hvae i Hi) as [A1 A2]. destruct (Hvbe i Hi) as [B1 B2].
  fold (Variance g P a C i) in *. fold (Variance g P b C i) in *.
  split; [intros Hq; split|].
  - intros V0 V1. rewrite M1, A1, B1 by assumption. rewrite nmul_Fin.
    assert (0 < Variance g P a C i * Variance g P b C i) by (apply Rmult_lt_0_compat; assumption).
    rewrite nsqrt_Fin by lra. eexists. split; [rewrite ndiv_Fin; [reflexivity|pose proof (sqrt_lt_R0 _ H); lra]|].
    split; [reflexivity|]. apply correlation_range; auto.
  - intros V0. rewrite M1, A1, B1 by assumption. rewrite nmul_Fin, V0, nsqrt_Fin, sqrt_0 by lra.
    pose proof (Covar_cauchy g P HP a b C i Hab HD Hi (HQ i Hi Hq)) as K. rewrite V0 in K.
    assert (Z : Covar g P a b C i = 0) by (pose proof (pow2_ge_0 (Covar g P a b C i)); nra).
    rewrite Z. apply zero_over_zero.
  - intros Hn. rewrite M2 by assumption. apply ndiv_nan_l.
Qed.
End Two.
End Gen.

Lemma gives_ext o g P P' lw A C : joint_eq g P P' -> gives o g P lw A C -> gives o g P' lw A C.
Proof.
  intros E (a & Ea & Has & Hae). exists a. do 2 (split; [assumption|]). intros i Hi.
  rewrite <- !(marg_ext g P P') by assumption. apply Hae; assumption.
Qed.

(** ** what get_p of a mixture returns *)
Lemma mix_gives self g l lw A C : mix_gen self g l -> good_grid g -> nonempty A = true -> disjoint A C = true ->
  l (has_v (union A C)) = l (has_v C) -> lw_ok g (mixf (l (has_v C))) lw ->
  (nonempty C = false -> total g (prob g (mixf (l (has_v C))) lw) = 1) ->
  gives (mix_obj self) g (prob g (mixf (l (has_v C))) lw) lw A C.
Proof.
  intros HG Hg HA HD HU Hl HT. unfold gives, dname. destruct (nonempty C) eqn:EC.
  - destruct (mix_p_cond self g l HG Hg A C true false lw HA EC HD) as (a & Ea & Has & Hae); [rewrite HU; exact Hl|].
    exists a. split; [exact Ea|]. split; [exact Has|]. intros i Hi. rewrite (Hae i Hi), HU. split; intros Hm.
    + destruct (Rlt_dec 0 _); [|contradiction]. f_equal. field. lra.
    + destruct (Rlt_dec 0 _); [lra|reflexivity].
  - assert (C = no_vars) by (destruct C as [[] [] [] []]; try discriminate EC; reflexivity). subst C.
    assert (UA : union A no_vars = A) by (destruct A as [[] [] [] []]; reflexivity). rewrite UA in *.
    destruct (mix_p_marg self g l HG Hg A true false lw HA) as (a & Ea & Has & Hae); [rewrite HU; exact Hl|].
    exists a. split; [exact Ea|]. split; [rewrite app_nil_r; exact Has|]. intros i Hi.
    assert (M1 : marg g (prob g (mixf (l false)) lw) no_vars i = 1) by (rewrite marg_none; exact (HT eq_refl)).
    cbn [has_v no_vars] in *. rewrite M1. split; [intros _|lra].
    change (coords no_vars i) with (@nil nat). rewrite app_nil_r, (Hae i Hi), HU. reflexivity.
Qed.
