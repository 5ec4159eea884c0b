(** * LightGivenRefuted: the light-weighted p(v|t,z) of a parametric component;
    facts for the cases of C98. *)
From Coq Require Import Reals Lra Lia List Bool Arith ZArith String Ascii.
From Verif Require Import Num NumLemmas Arr PyStr Cube Base Moments Parametric Spec SpecLemmas Repr DistLemmas MomSpec Build SameSpec
  LightGiven ParSpec ParRepr ParSetSpec ParClaims ParMomSpec ParExample ParMomExample LightGivenPar.
Import ListNotations.
Local Open Scope R_scope.

Local Notation tz := (VSet true false false true).
Lemma exmod_tz : par_prob exg exmod false tz (Bin 0 1 0 0 0) = 1 / 6.
Proof. unfold par_prob, marg, over, pprob, pjoint, txz_mass. cbn [has_t has_v has_x has_z pgrid]. ev. lra. Qed.
Lemma exvbin : 0 < vbin exg exmod 0 1 0 0.
Proof. unfold vbin. pose proof (proj2 exL_norm) as K. cbn [pm_F exmod]. apply Rlt_Rminus. apply K. ev. lra. Qed.
Lemma exmod_lwv : par_lw_ok exg exmod true true.
Proof.
  intros _. assert (N : nonneg exg (lit exg (pjoint exg exmod true))).
  { intros t v x y z Ht Hv Hx Hy Hz. apply Rmult_le_pos; [|apply (gg_L _ exg_good); assumption].
    exact (joint_false_nonneg exg exmod exg_good exmod_good true t v x y z Ht Hv Hx Hy Hz). }
  cbn [pgrid]. destruct (total_nonneg _ _ N) as [K|K]; [exact K|]. exfalso.
  pose proof (zero_total _ _ N (eq_sym K) 0%nat 1%nat 0%nat 0%nat 0%nat ltac:(cbn; lia) ltac:(cbn; lia) ltac:(cbn; lia) ltac:(cbn; lia) ltac:(cbn; lia)) as Z.
  unfold lit, pjoint in Z. pose proof exvbin as V.
  assert (E : txz_mass exg exmod 0 0 0 0 * Lw exg 0 0 = 1 / 24) by (unfold txz_mass; ev; lra).
  assert (Z' : txz_mass exg exmod 0 0 0 0 * Lw exg 0 0 * vbin exg exmod 0 1 0 0 = 0) by (rewrite <- Z; ring). rewrite E in Z'. lra.
Qed.
Lemma velocity_refuted : exists L self g m i a b p p', par_on L self g m /\ good_grid g /\ good_par g m /\
  in_grid g i /\ 0 < bright g i /\ 0 < par_prob g m false (VSet true false false true) i /\
  par_get_p L self "v_tz" false true = Ok a /\ par_get_p L self "v_tz" false false = Ok b /\
  ent a [bv i; bt i; bz i] = Fin p /\ ent b [bv i; bt i; bz i] = Fin p' /\ p' < p.
Proof.
  set (i := Bin 0 1 0 0 0). assert (Hi : in_grid exg i) by (repeat split; cbn; lia).
  assert (Hb : 0 < bright exg i) by (unfold bright, i; cbn; lra).
  assert (Hp : 0 < par_prob exg exmod false tz i) by (unfold i; rewrite exmod_tz; lra).
  assert (ctz : light_by exg tz) by (apply light_by_tz; reflexivity).
  destruct (par_given_p exL exmp exg exmod exmp_on exg_good exmod_good tz ctz V_v false eq_refl eq_refl eq_refl exmod_lwv ltac:(discriminate))
    as (a & b & Ea & Eb & He).
  destruct (proj1 (He i Hi) Hb Hp) as (p & Pb & Pa).
  destruct (par_cond_claim exL exmp exg exmod exmp_on exg_good exmod_good V_v tz false false eq_refl eq_refl eq_refl ltac:(discriminate) ltac:(discriminate)) as (b' & Eb' & _ & Hb').
  assert (EE : b' = b) by congruence. subst b'. pose proof (proj1 (Hb' i Hi) Hp) as Pb'. rewrite Pb in Pb'. injection Pb' as Ep.
  assert (Pp : 0 < p).
  { rewrite Ep. unfold Rdiv. rewrite Rinv_1, Rmult_1_r. apply Rdiv_lt_0_compat; [|exact Hp].
    eapply Rlt_le_trans with (r2 := par_prob exg exmod false all_vars i).
    - unfold par_prob. cbn [has_v all_vars]. unfold i. rewrite marg_all. cbn [pprob pgrid bt bv bx by_ bz]. unfold pprob, pjoint.
      apply Rmult_lt_0_compat; [unfold txz_mass; ev; lra|exact exvbin].
    - unfold par_prob. cbn [has_v all_vars union V_v orb pgrid]. apply marg_mono; [exact Hi| |reflexivity].
      exact (joint_false_nonneg exg exmod exg_good exmod_good true). }
  pose proof (proj2 (light_in_range exg exmod exg_good exmod_good) exL_norm (exmod_lw true eq_refl)) as LT.
  exists exL, exmp, exg, exmod, i, a, b. eexists. exists p. split; [exact exmp_on|]. split; [exact exg_good|]. split; [exact exmod_good|].
  split; [exact Hi|]. split; [exact Hb|]. split; [exact Hp|]. split; [exact Ea|]. split; [exact Eb|]. split; [exact Pa|]. split; [exact Pb|].
  cbn [has_v V_v]. rewrite <- (Rmult_1_l p) at 1. apply Rmult_lt_compat_r; [exact Pp|].
  pose proof (exmod_lwv eq_refl) as P1. unfold all_light in *. apply Rmult_lt_reg_r with (r := total (pgrid exg true) (lit (pgrid exg true) (pjoint exg exmod true))); [exact P1|].
  unfold Rdiv. rewrite Rmult_assoc, Rinv_l by (apply Rgt_not_eq; exact P1). lra.
Qed.
(** metallicities at the younger age *)
Lemma get_p_z_t lw : exists a r, get_p exc "z_t" false lw = Ok a /\ ent a [0; 0]%nat = Fin r /\
  r = marg exg (prob exg exf lw) tz (Bin 0 0 0 0 0) / marg exg (prob exg exf lw) (VSet true false false false) (Bin 0 0 0 0 0) / 1.
Proof.
  destruct (get_p_cond exc exg exf exc_on exg_good exf_nonneg (VSet false false false true) (VSet true false false false) false lw eq_refl eq_refl eq_refl (ex_lw_ok lw))
    as (a & Ea & _ & Ha).
  eexists a, _. split; [exact Ea|]. split; [|reflexivity].
  apply (proj1 (Ha (Bin 0 0 0 0 0) ltac:(repeat split; cbn; lia))). destruct lw; ex_num.
Qed.
