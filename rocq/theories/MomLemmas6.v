(** * MomLemmas6: correlation; the bounds on it. *)
From Coq Require Import Reals Lra Lia List Bool Arith ZArith String Ascii.
From Verif Require Import Num NumLemmas Arr ArrLemmas PyStr Cube Base Spec SpecLemmas Repr CubeLemmas
  BaseLemmas CondLemmas DistLemmas Moments MomArr MomSpec MomLemmas MomLemmas2 MomLemmas3 MomLemmas4 MomLemmas5 Stat.
Import ListNotations.
Local Open Scope R_scope.

Lemma bshape_under s d : bshape s (d :: s) = Some (d :: s).
Proof.
  unfold bshape. cbn [rev].
  assert (E : forall l, bshape_rev l (l ++ [d]) = Some (l ++ [d])%list).
  { induction l as [|a l IH]; [reflexivity|]. cbn. rewrite bdim_same, IH. reflexivity. }
  rewrite E, rev_app_distr, rev_involutive. reflexivity.
Qed.
Lemma bidx_under s r i : inb r s -> bidx s (i :: r) = r.
Proof.
  intros H. pose proof (bidx_self s r H) as E. unfold bidx in *. rewrite (inb_length _ _ H) in *.
  rewrite Nat.sub_diag in E. cbn [List.length]. 
  replace (S (List.length r) - List.length s)%nat with 1%nat by (rewrite (inb_length _ _ H); lia). exact E.
Qed.

(** the product of two arrays of moments, one of which may be of x *)
Lemma moment_product g a b C (va vb : arr num) : before a b = true -> shp va = mdims a C g -> shp vb = mdims b C g ->
  exists v, bop nmul va vb = Ok v /\ shp v = mdims (xkey a b) C g /\
     forall i, in_grid g i -> ent v (mcoords (xkey a b) C i) = nmul (ent va (mcoords a C i)) (ent vb (mcoords b C i)).
Proof.
  intros Hab Hvas Hvbs.
  destruct (is_x a) eqn:Xa.
    - assert (Sa : shp va = 2%nat :: dims C g) by (destruct a; try discriminate Xa; exact Hvas).
      assert (Sb : shp vb = dims C g) by (destruct a, b; try discriminate Xa; try discriminate Hab; exact Hvbs).
      destruct (bop_is nmul va vb _ _ _ _ (2%nat :: dims C g) (self_is va _ Sa) (self_is vb _ Sb)) as (v & Ev & Hvs & Hve).
      { rewrite bshape_comm. apply bshape_under. }
      exists v. split; [exact Ev|].
      split; [destruct a; try discriminate Xa; exact Hvs|]. intros i Hi.
      assert (HI : inb (coords C i) (dims C g)) by (apply coords_inb; assumption).
      destruct a; try discriminate Xa; destruct b; try discriminate Hab; cbn [mcoords xkey];
       (rewrite Hve by (constructor; [lia|assumption]));
       (rewrite (bidx_self (2%nat :: dims C g)) by (constructor; [lia|assumption]));
       (rewrite bidx_under by assumption; reflexivity).
    - assert (Sa : shp va = dims C g) by (destruct a; try discriminate Xa; exact Hvas).
      assert (XK : xkey a b = b) by (destruct a; try discriminate Xa; reflexivity). rewrite XK.
      destruct (is_x b) eqn:Xb.
      + assert (Sb : shp vb = 2%nat :: dims C g) by (destruct b; try discriminate Xb; exact Hvbs).
        destruct (bop_is nmul va vb _ _ _ _ (2%nat :: dims C g) (self_is va _ Sa) (self_is vb _ Sb)) as (v & Ev & Hvs & Hve).
        { apply bshape_under. }
        exists v. split; [exact Ev|].
        split; [destruct b; try discriminate Xb; exact Hvs|]. intros i Hi.
        assert (HI : inb (coords C i) (dims C g)) by (apply coords_inb; assumption).
        replace (mcoords a C i) with (coords C i) by (destruct a; try discriminate Xa; reflexivity).
        destruct b; try discriminate Xb; cbn [mcoords];
       (rewrite Hve by (constructor; [lia|assumption]));
       (rewrite (bidx_self (2%nat :: dims C g)) by (constructor; [lia|assumption]));
       (rewrite bidx_under by assumption; reflexivity).
      + assert (Sb : shp vb = dims C g) by (destruct b; try discriminate Xb; exact Hvbs).
        destruct (bop_same_is nmul va vb _ Sa Sb) as (v & Ev & Hvs & Hve).
        exists v. split; [exact Ev|]. split; [destruct b; try discriminate Xb; exact Hvs|]. intros i Hi.
        assert (HI : inb (coords C i) (dims C g)) by (apply coords_inb; assumption).
        replace (mcoords a C i) with (coords C i) by (destruct a; try discriminate Xa; reflexivity).
        replace (mcoords b C i) with (coords C i) by (destruct b; try discriminate Xb; reflexivity).
        apply Hve; assumption.
Qed.

Section Real.
Context (g : grid) (P : joint) (HP : nonneg g P) (a b : coord) (C : vset) (i : bin).
Context (Hab : before a b = true) (HD : disjoint (union (cvar a) (cvar b)) C = true).
Context (Hi : in_grid g i) (Hm : 0 < marg g P C i).
Let A := union (cvar a) (cvar b).

Lemma Mean_a : Mean g P a C i = Ex g P A C (cmid g a) i.
Proof.
  symmetry. apply Ex_union; auto using only_cmid.
  - apply pair_disjoint; assumption.
  - eapply HDa; eassumption.
  - eapply HDb; eassumption.
Qed.
Lemma Ex_b h : only (cvar b) h -> Ex g P A C h i = Ex g P (cvar b) C h i.
Proof.
  intros Hh. unfold A. rewrite union_comm. apply Ex_union; auto.
  - rewrite disjoint_comm. apply pair_disjoint; assumption.
  - eapply HDb; eassumption.
  - eapply HDa; eassumption.
Qed.
Lemma Ex_a h : only (cvar a) h -> Ex g P A C h i = Ex g P (cvar a) C h i.
Proof.
  intros Hh. apply Ex_union; auto.
  - apply pair_disjoint; assumption.
  - eapply HDa; eassumption.
  - eapply HDb; eassumption.
Qed.
Lemma Mean_b : Mean g P b C i = Ex g P A C (cmid g b) i.
Proof. symmetry. apply Ex_b. apply only_cmid. Qed.

Lemma Covar_eq : Covar g P a b C i =
  Ex g P A C (fun j => cmid g a j * cmid g b j) i - Mean g P a C i * Mean g P b C i.
Proof.
  unfold Covar. rewrite Mean_a, Mean_b. fold A. rewrite !Ex_E.
  apply cov_eq. apply cw_sum; assumption.
Qed.
Lemma only_pow k c n : only (cvar k) (fun j => (cmid g k j - c) ^ n).
Proof. intros x y H. rewrite (only_cmid g k x y H). reflexivity. Qed.
Lemma Covar_cauchy : Covar g P a b C i ^ 2 <= Variance g P a C i * Variance g P b C i.
Proof.
  assert (Va : Variance g P a C i = Ex g P A C (fun j => (cmid g a j - Mean g P a C i) ^ 2) i).
  { unfold Variance, Moment. symmetry. apply Ex_a. apply only_pow. }
  assert (Vb : Variance g P b C i = Ex g P A C (fun j => (cmid g b j - Mean g P b C i) ^ 2) i).
  { unfold Variance, Moment. symmetry. apply Ex_b. apply only_pow. }
  rewrite Va, Vb. unfold Covar. fold A. rewrite !Ex_E. apply cauchy.
  apply cw_nonneg; assumption.
Qed.
End Real.

Section Corr.
Context (o : obj) (g : grid) (P : joint) (lw : bool).
Context (Hc : cube_on (o_cube o) g) (Hg : good_grid g) (HP : nonneg g P).
Context (a b : coord) (C : vset).
Context (Hab : before a b = true).
Context (HD : disjoint (union (cvar a) (cvar b)) C = true).
Context (HGa : gives o g P lw (cvar a) C) (HGb : gives o g P lw (cvar b) C).
Context (HG : gives o g P lw (union (cvar a) (cvar b)) C).
Context (HMa : o_mean o (dname (cvar a) C) = None) (HMb : o_mean o (dname (cvar b) C) = None).
Context (HNa : o_moment o (dname (cvar a) C) = None) (HNb : o_moment o (dname (cvar b) C) = None).

Lemma correlation_ok :
  exists m, get_correlation o (dname (union (cvar a) (cvar b)) C) lw = Ok m /\ shp m = mdims (xkey a b) C g /\
    forall i, in_grid g i ->
      (0 < marg g P C i -> 0 < Variance g P a C i -> 0 < Variance g P b C i ->
         ent m (mcoords (xkey a b) C i) =
           Fin (Covar g P a b C i / sqrt (Variance g P a C i * Variance g P b C i))) /\
      (0 < marg g P C i -> Variance g P a C i * Variance g P b C i = 0 -> ent m (mcoords (xkey a b) C i) = NaN) /\
      (marg g P C i = 0 -> ent m (mcoords (xkey a b) C i) = NaN).
Proof.
  unfold get_correlation. rewrite pair_parts by assumption. cbn [bind fst snd].
  rewrite pair_chars by assumption. rewrite !one_dist_name.
  pose proof (HDa a b C HD) as Ha. pose proof (HDb a b C HD) as Hb.
  destruct (covariance_ok o g P lw Hc Hg a b C Hab HD HGa HGb HG HMa HMb) as (m & Em & Hms & Hme).
  rewrite Em; cbn [bind]. unfold get_variance.
  destruct (central_ok o g P lw Hc Hg a C Ha HGa HMa HNa 2) as (va & Eva & Hvas & Hvae). rewrite Eva; cbn [bind].
  destruct (central_ok o g P lw Hc Hg b C Hb HGb HMb HNb 2) as (vb & Evb & Hvbs & Hvbe). rewrite Evb; cbn [bind].
  destruct (moment_product g a b C va vb Hab Hvas Hvbs) as (v & Ev & Hvs & Hve). rewrite Ev; cbn [bind].
  destruct (bop_same_is ndiv m (amap nsqrt v) _ Hms Hvs) as (q & Eq & Hqs & Hqe).
  exists q. split; [exact Eq|]. split; [exact Hqs|]. intros i Hi.
  rewrite Hqe by (apply mcoords_inb; assumption). cbn [amap ent]. rewrite Hve by assumption.
  destruct (Hme i Hi) as [M1 M2]. destruct (Hvae i Hi) as [A1 A2]. destruct (Hvbe i Hi) as [B1 B2].
  fold (Variance g P a C i) in *. fold (Variance g P b C i) in *.
  split; [|split].
  - intros Hm V0 V1. rewrite M1, A1, B1 by assumption. rewrite nmul_Fin.
    assert (0 < Variance g P a C i * Variance g P b C i) by (apply Rmult_lt_0_compat; assumption).
    rewrite nsqrt_Fin by lra. rewrite ndiv_Fin; [reflexivity|].
    pose proof (sqrt_lt_R0 _ H). lra.
  - intros Hm V0. rewrite M1, A1, B1 by assumption. rewrite nmul_Fin, V0, nsqrt_Fin, sqrt_0 by lra.
    pose proof (Covar_cauchy g P HP a b C i Hab HD Hi Hm) as K. rewrite V0 in K.
    assert (Z : Covar g P a b C i = 0) by (pose proof (pow2_ge_0 (Covar g P a b C i)); nra).
    rewrite Z. cbv [ndiv inf_of_sign]. destruct (Req_EM_T 0 0) as [_|n]; [|contradiction n; reflexivity].
    repeat (match goal with |- context [Rlt_dec ?a ?b] => destruct (Rlt_dec a b); try lra end). reflexivity.
  - intros Hm. rewrite M2 by assumption. apply ndiv_nan_l.
Qed.

Lemma correlation_range i : in_grid g i -> 0 < marg g P C i -> 0 < Variance g P a C i -> 0 < Variance g P b C i ->
  -1 <= Covar g P a b C i / sqrt (Variance g P a C i * Variance g P b C i) <= 1.
Proof. intros Hi Hm V0 V1. apply corr_bound; auto. apply Covar_cauchy; assumption. Qed.
End Corr.
