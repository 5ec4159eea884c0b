(** * StatGen: variances, shapes, covariances and L-moments of any object whose
    get_p is right. *)
From Coq Require Import Reals Lra Lia List Bool Arith ZArith String Ascii.
From Verif Require Import Num NumLemmas Arr ArrLemmas PyStr StrLemmas Cube Base Spec SpecLemmas Repr CubeLemmas
  BaseLemmas CondLemmas DistLemmas StringClaims Moments MomArr MomSpec MomLemmas MomLemmas2 MomLemmas3
  MomLemmas4 MomLemmas5 MomLemmas6 LMom Stat MomClaims.
Import ListNotations.
Local Open Scope R_scope.

Section Obj.
Context (o : obj) (g : grid) (P : joint) (lw : bool).
Context (Hc : cube_on (o_cube o) g) (Hg : good_grid g) (HP : nonneg g P).
Context (k : coord) (C : vset).
Context (HD : disjoint (cvar k) C = true) (HG : gives o g P lw (cvar k) C).

(** the inequalities for the variance *)
Lemma Variance_facts i : in_grid g i -> 0 < marg g P C i ->
  Variance g P k C i = Ex g P (cvar k) C (fun b => cmid g k b ^ 2) i - Mean g P k C i ^ 2 /\
  0 <= Variance g P k C i <= (mid (cedge g k) (cn g k - 1) - mid (cedge g k) 0) ^ 2 / 4 /\
  (Variance g P k C i = 0 <-> forall j, In j (bins_over g (cvar k) i) -> 0 < marg g P (union (cvar k) C) j ->
                             cmid g k j = Mean g P k C i).
Proof.
  intros Hi Hm. split; [apply Variance_eq; assumption|]. split; [split|].
  - apply Variance_nonneg; assumption.
  - apply Variance_Popoviciu; auto. intros j Hj. apply cmid_range; assumption.
  - apply Variance_zero; assumption.
Qed.

Section Hooks.
Context (HM : o_mean o (dname (cvar k) C) = None) (HN : o_moment o (dname (cvar k) C) = None).
Lemma variance_gen :
  exists v s, get_variance o (dname (cvar k) C) lw = Ok v /\ get_dispersion o (dname (cvar k) C) lw = Ok s /\
    shp v = mdims k C g /\ shp s = mdims k C g /\
    forall i, in_grid g i ->
      (0 < marg g P C i -> exists V, ent v (mcoords k C i) = Fin V /\ ent s (mcoords k C i) = Fin (sqrt V) /\
        V = Ex g P (cvar k) C (fun b => cmid g k b ^ 2) i - Mean g P k C i ^ 2 /\
        0 <= V <= (mid (cedge g k) (cn g k - 1) - mid (cedge g k) 0) ^ 2 / 4 /\
        (V = 0 <-> forall j, In j (bins_over g (cvar k) i) -> 0 < marg g P (union (cvar k) C) j ->
                             cmid g k j = Mean g P k C i)) /\
      (marg g P C i = 0 -> ent v (mcoords k C i) = NaN /\ ent s (mcoords k C i) = NaN).
Proof.
  destruct (central_ok o g P lw Hc Hg k C HD HG HM HN 2) as (v & Ev & Hvs & Hve).
  destruct (dispersion_ok o g P lw Hc Hg HP k C HD HG HM HN) as (s & Es & Hss & Hse).
  exists v, s. do 4 (split; [assumption|]). intros i Hi. destruct (Hve i Hi) as [V1 V2]. destruct (Hse i Hi) as [S1 S2].
  split; intros Hm; [|auto]. exists (Variance g P k C i). split; [apply V1; assumption|]. split; [apply S1; assumption|].
  apply Variance_facts; assumption.
Qed.

Lemma shape_gen f2m1 :
  exists sk ku ek, get_skewness o (dname (cvar k) C) lw = Ok sk /\ get_kurtosis o (dname (cvar k) C) lw = Ok ku /\
    get_excess_kurtosis f2m1 o (dname (cvar k) C) lw = Ok ek /\
    shp sk = mdims k C g /\ shp ku = mdims k C g /\
    forall i, in_grid g i ->
      (0 < marg g P C i -> 0 < Variance g P k C i ->
         exists a b, ent sk (mcoords k C i) = Fin a /\ ent ku (mcoords k C i) = Fin b /\
           ent ek (mcoords k C i) = Fin (b - 3) /\
           a = Moment g P k C 3 (Mean g P k C i) i / sqrt (Variance g P k C i) ^ 3 /\
           b = Moment g P k C 4 (Mean g P k C i) i / sqrt (Variance g P k C i) ^ 4 /\
           a ^ 2 + 1 <= b) /\
      (0 < marg g P C i -> Variance g P k C i = 0 ->
         ent sk (mcoords k C i) = NaN /\ ent ku (mcoords k C i) = NaN /\ ent ek (mcoords k C i) = NaN) /\
      (marg g P C i = 0 ->
         ent sk (mcoords k C i) = NaN /\ ent ku (mcoords k C i) = NaN /\ ent ek (mcoords k C i) = NaN).
Proof.
  destruct (normalised_ok o g P lw Hc Hg HP k C HD HG HM HN 3 ltac:(lia)) as (sk & Esk & Hsks & Hske).
  destruct (normalised_ok o g P lw Hc Hg HP k C HD HG HM HN 4 ltac:(lia)) as (ku & Eku & Hkus & Hkue).
  destruct (excess_kurtosis_ok o g P lw Hc Hg HP k C HD HG HM HN f2m1) as (ku' & ek & Eku' & Eek & Heke).
  unfold get_kurtosis in Eku'. rewrite Eku in Eku'. inversion Eku'; subst ku'.
  exists sk, ku, ek. do 5 (split; [assumption|]). intros i Hi.
  destruct (Hske i Hi) as (S1 & S2 & S3). destruct (Hkue i Hi) as (K1 & K2 & K3).
  rewrite (Heke i Hi). split; [|split].
  - intros Hm Hv. eexists _, _. rewrite S1, K1 by assumption. rewrite nsub_Fin. do 3 (split; [reflexivity|]).
    do 2 (split; [reflexivity|]). apply Kurt_skew; assumption.
  - intros Hm Hv. rewrite S2, K2 by assumption. rewrite !(Moment_zero g P HP k C HD) by (assumption || lia).
    rewrite zero_over_zero. auto.
  - intros Hm. rewrite S3, K3 by assumption. auto.
Qed.
End Hooks.

(** L-moments of positions *)
Lemma l_x_gen j : is_x k = true -> get_l_moment o (dname (cvar k) C) j lw = Err ValueError.
Proof.
  intros Hk. unfold get_l_moment. rewrite part0_dname, len_name by assumption. cbn [Nat.eqb py_assert bind].
  destruct HG as (p & Ep & Hps & Hpe). rewrite dims_x in Hps by assumption. cbn [app] in Hps.
  assert (Hlen : Nat.eqb (String.length (dname (cvar k) C)) 1 = negb (nonempty C)).
  { destruct k; try discriminate Hk; destruct C as [[] [] [] []]; try discriminate HD; reflexivity. }
  rewrite Hlen. destruct (nonempty C) eqn:EC; cbn [negb].
  - rewrite part1_dname by assumption. cbn [bind]. rewrite Ep; cbn [bind]. rewrite (shape_ok _ g C Hc). cbn [bind].
    unfold concat0. cbn [full shp cumsum0]. rewrite Hps.
    assert (X : natlist_eqb (dims C g) (ny g :: dims C g) = false).
    { destruct (natlist_eqb (dims C g) (ny g :: dims C g)) eqn:E; [|reflexivity].
      apply natlist_eqb_eq in E. apply (f_equal (@List.length nat)) in E. cbn in E. lia. }
    rewrite X. reflexivity.
  - cbn [bind]. rewrite Ep; cbn [bind]. unfold concat0. cbn [arr1 shp cumsum0]. rewrite Hps. reflexivity.
Qed.
End Obj.
