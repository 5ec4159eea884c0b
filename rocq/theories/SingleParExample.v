(** * SingleParExample: cases for C110. *)
From Coq Require Import Reals Lra Lia List Bool Arith ZArith String Ascii.
From Verif Require Import Num NumLemmas Arr ArrLemmas PyStr Cube Base Spec SpecLemmas Repr Moments Mixture MomSpec ParSpec Parametric ParRepr ParSetSpec Build
  ParLemmas ParDist ParClaims ParMoments ParMomSpec ParMomOther ParExample ParMomExample LightGivenPar LightGivenRefuted MixParSpec SinglePar.
Import ListNotations.
Local Open Scope R_scope.

Definition exmix : mixture := Mixture (pa_cube exmp) [par_member exL (Fin 1) exmp] [Fin 1].

(** fractions of the two ages within the velocities of the cube *)
Lemma fractions : Sum (nv exg) (fun v => vbin exg exmod 0 v 0 0) < Sum (nv exg) (fun v => vbin exg exmod 1 v 0 0).
Proof.
  assert (E : forall t, Sum (nv exg) (fun v => vbin exg exmod t v 0 0) =
    logistic ((vE exg 2 - pm_mu exmod t 0 0) / pm_sig exmod t 0 0) - logistic ((vE exg 0 - pm_mu exmod t 0 0) / pm_sig exmod t 0 0)).
  { intros t. exact (Sum_telescope 2 (fun v => logistic ((vE exg v - pm_mu exmod t 0 0) / pm_sig exmod t 0 0))). }
  rewrite !E. cbn [vE exg pm_mu pm_sig exmod Nat.eqb INR].
  replace ((1 + 1 - 1 - 10) / 1) with (-9) by field. replace ((0 - 1 - 10) / 1) with (-11) by field.
  replace ((1 + 1 - 1 - -5) / 2) with 3 by field. replace ((0 - 1 - -5) / 2) with 2 by field.
  set (u := exp (-1)). assert (Hu : 0 < u) by apply exp_pos.
  assert (Hu2 : u <= 1 / 2).
  { assert (E1 : u * exp 1 = 1). { unfold u. rewrite <- exp_plus. replace (-1 + 1) with 0 by ring. apply exp_0. }
    pose proof (exp_ineq1 1 ltac:(lra)) as B. nra. }
  assert (P : forall n, exp (- INR n) = u ^ n).
  { induction n as [|n IH]; [cbn; rewrite Ropp_0; apply exp_0|]. rewrite S_INR. replace (- (INR n + 1)) with (- 1 + - INR n) by ring.
    rewrite exp_plus, IH. reflexivity. }
  assert (P2 : exp (Ropp 2) = u * u). { replace (Ropp 2) with (- INR 2) by (cbn; ring). rewrite P. cbn. ring. }
  assert (P3 : exp (Ropp 3) = u * u * u). { replace (Ropp 3) with (- INR 3) by (cbn; ring). rewrite P. cbn. ring. }
  assert (P9 : exp (- -9) * u ^ 9 = 1). { rewrite <- P, <- exp_plus. replace (- -9 + - INR 9) with 0 by (cbn; ring). apply exp_0. }
  assert (U9 : u ^ 9 <= u * u / 128).
  { assert (A : forall n, u ^ n <= (1 / 2) ^ n) by (intros n; apply pow_incr; lra). specialize (A 7%nat).
    replace (u ^ 9) with (u * u * u ^ 7) by ring. replace ((1 / 2) ^ 7) with (/ 128) in A by field. unfold Rdiv.
    apply Rmult_le_compat_l; [nra|exact A]. }
  assert (F9 : logistic (-9) < u ^ 9).
  { unfold logistic. pose proof (exp_pos (- -9)) as Q. apply (Rmult_lt_reg_l (1 + exp (- -9))); [lra|]. rewrite Rinv_r by lra.
    pose proof (pow_lt u 9 Hu). rewrite Rmult_plus_distr_r, P9. lra. }
  assert (F11 : 0 < logistic (-11)) by apply exL_norm.
  assert (F23 : u * u / 8 <= logistic 3 - logistic 2).
  { unfold logistic. rewrite P2, P3. assert (U2 : u * u <= 1 / 4) by nra. assert (U0 : 0 < u * u) by nra.
    assert (U3 : u * u * u <= u * u / 2) by nra. assert (U03 : 0 < u * u * u) by nra.
    replace (/ (1 + u * u * u) - / (1 + u * u)) with ((u * u - u * u * u) * / ((1 + u * u * u) * (1 + u * u))) by (field; lra).
    assert (D : / 2 <= / ((1 + u * u * u) * (1 + u * u))) by (apply Rinv_le_contravar; nra).
    apply Rle_trans with (u * u / 2 * / 2); [lra|]. apply Rmult_le_compat; lra. }
  pose proof (pow_lt u 9 Hu). nra.
Qed.

Lemma ex_vbin t : (t < 2)%nat -> 0 < vbin exg exmod t 0 0 0.
Proof.
  intros Ht. unfold vbin. apply Rlt_Rminus. apply exL_norm. cbn [vE exg INR].
  apply Rmult_lt_compat_r; [|lra]. destruct t as [|[|t]]; [cbn; lra|cbn; lra|lia].
Qed.
Lemma ex_light t : (t < 2)%nat -> 0 < Sum (nz exg) (fun z => txz_mass exg exmod t 0 0 z * Lw exg t z).
Proof. intros Ht. destruct t as [|[|t]]; [unfold txz_mass; ev; lra|unfold txz_mass; ev; lra|lia]. Qed.

Lemma v_tx_refuted : exists i a b, in_grid exg i /\ 0 < par_prob exg exmod true (VSet true false true false) i /\
  mix_get_p exmix "v_tx" true false true = Ok a /\ par_get_p exL exmp "v_tx" false true = Ok b /\
  ent a [bv i; bt i; bx i; by_ i] <> ent b [bv i; bt i; bx i; by_ i].
Proof.
  destruct (sp_v_tx exL exmp exg exmod exmp_on exg_good exmod_good false exmod_lwv) as (a & b & Ea & Eb & _ & _ & He).
  pose proof (exmod_lwv eq_refl) as T1. pose proof (exmod_lw true eq_refl) as T0. cbn [pgrid] in T1, T0.
  assert (Hi : forall t, (t < 2)%nat -> in_grid exg (Bin t 0 0 0 0)) by (intros t Ht; repeat split; cbn; lia).
  assert (HQ : forall t, (t < 2)%nat -> 0 < par_prob exg exmod true (VSet true false true false) (Bin t 0 0 0 0)).
  { intros t Ht. rewrite sp_light by auto. cbn [bt bv bx by_ bz pgrid]. rewrite Rmult_1_r. apply Rdiv_lt_0_compat; [apply ex_light; exact Ht|exact T0]. }
  assert (HP : forall t, (t < 2)%nat -> 0 < par_prob exg exmod true (VSet true true true false) (Bin t 0 0 0 0)).
  { intros t Ht. rewrite sp_light by auto. cbn [bt bv bx by_ bz pgrid]. apply Rdiv_lt_0_compat; [|exact T1].
    apply Rmult_lt_0_compat; [apply ex_light; exact Ht|apply ex_vbin; exact Ht]. }
  assert (HS : forall t, (t < 2)%nat -> 0 < Sum (nv exg) (fun v => par_prob exg exmod true (VSet true true true false) (set_v v (Bin t 0 0 0 0)))).
  { intros t Ht. change (0 < 0 + par_prob exg exmod true (VSet true true true false) (Bin t 0 0 0 0) + par_prob exg exmod true (VSet true true true false) (Bin t 1 0 0 0)).
    specialize (HP t Ht). pose proof (sp_prob_nonneg exg exmod exg_good exmod_good true (VSet true true true false) (Bin t 1 0 0 0)
      ltac:(repeat split; cbn; lia) exmod_lwv). lra. }
  assert (Same : forall t, (t < 2)%nat -> ent a [0; t; 0; 0]%nat = ent b [0; t; 0; 0]%nat -> Sum (nv exg) (fun v => vbin exg exmod t v 0 0) =
    total (pgrid exg true) (lit (pgrid exg true) (pjoint exg exmod true)) / total (pgrid exg false) (lit (pgrid exg false) (pjoint exg exmod false))).
  { intros t Ht E. destruct (He (Bin t 0 0 0 0) (Hi t Ht) (HQ t Ht) (HS t Ht)) as (_ & _ & K).
    apply (sp_v_tx_agree exg exmod exg_good exmod_good (Bin t 0 0 0 0) (Hi t Ht) exmod_lwv (HQ t Ht)). apply K; [exact (HP t Ht)|exact E]. }
  pose proof fractions as FR.
  destruct (Req_EM_T (Sum (nv exg) (fun v => vbin exg exmod 0 v 0 0))
    (total (pgrid exg true) (lit (pgrid exg true) (pjoint exg exmod true)) / total (pgrid exg false) (lit (pgrid exg false) (pjoint exg exmod false)))) as [E|E].
  - exists (Bin 1 0 0 0 0), a, b. do 4 (split; auto). cbn [bt bv bx by_ bz]. intros K. specialize (Same 1%nat ltac:(lia) K). lra.
  - exists (Bin 0 0 0 0 0), a, b. do 4 (split; auto). cbn [bt bv bx by_ bz]. intros K. exact (E (Same 0%nat ltac:(lia) K)).
Qed.

(** no mass at the younger age *)
Definition exhole : par_model := ParModel (fun t => if Nat.eqb t 0 then 1 else 0) (pm_x exmod) (pm_z exmod) (pm_mu exmod) (pm_sig exmod) logistic.
Definition exhp : par := par_of exg exhole.
Lemma exhp_on : par_on exL exhp exg exhole.
Proof. apply par_of_on; [apply exg_uniform_x|apply exg_uniform_y|reflexivity]. Qed.
Lemma exhole_good : good_par exg exhole.
Proof.
  destruct exmod_good. constructor; try assumption. intros t Ht. cbn. destruct (Nat.eqb t 0); lra.
Qed.
