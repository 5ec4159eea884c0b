(** * MomLemmas3: central moments and the inequalities between them. *)
From Coq Require Import Reals Lra Lia List Bool Arith ZArith String Ascii.
From Verif Require Import Num NumLemmas Arr ArrLemmas PyStr Cube Base Spec SpecLemmas Repr CubeLemmas
  BaseLemmas CondLemmas DistLemmas Moments MomArr MomSpec MomLemmas MomLemmas2 Stat.
Import ListNotations.
Local Open Scope R_scope.

(** ** expectations as weighted averages *)
Section ExE.
Context (g : grid) (P : joint) (HP : nonneg g P).
Definition cw (A C : vset) (i j : bin) : R := marg g P (union A C) j / marg g P C i.

Lemma Ex_E A C h i : Ex g P A C h i = E (bins_over g A i) (cw A C i) h.
Proof.
  unfold Ex, E, cw. rewrite <- sum_bins_over. unfold Rdiv. rewrite Rmult_comm, <- sumR_map_scal.
  apply sumR_map_ext. intros; ring.
Qed.
Lemma cw_nonneg A C i : in_grid g i -> 0 < marg g P C i -> forall j, In j (bins_over g A i) -> 0 <= cw A C i j.
Proof.
  intros Hi Hm j Hj. apply bins_over_in in Hj as [Hj _]; [|assumption]. unfold cw.
  apply Rmult_le_pos; [apply marg_nonneg; assumption|left; apply Rinv_0_lt_compat; assumption].
Qed.
Lemma cw_sum A C i : disjoint A C = true -> 0 < marg g P C i -> sumR (map (cw A C i) (bins_over g A i)) = 1.
Proof.
  intros HD Hm. unfold cw. transitivity (/ marg g P C i * sumR (map (marg g P (union A C)) (bins_over g A i))).
  - rewrite <- sumR_map_scal. apply sumR_map_ext. intros; unfold Rdiv; ring.
  - rewrite sum_bins_over, sum_over_marg by assumption. field. lra.
Qed.

Lemma Ex_ext A C h h' i : in_grid g i -> (forall j, in_grid g j -> h j = h' j) -> Ex g P A C h i = Ex g P A C h' i.
Proof. intros Hi H. unfold Ex. f_equal. apply sum_over_ext; [assumption|]. intros j Hj. rewrite H by assumption. reflexivity. Qed.

(** mean between the extreme bin centres *)
Lemma Mean_bounds k C i a b : disjoint (cvar k) C = true -> in_grid g i -> 0 < marg g P C i ->
  (forall j, in_grid g j -> a <= cmid g k j <= b) -> a <= Mean g P k C i <= b.
Proof.
  intros HD Hi Hm H. unfold Mean. rewrite Ex_E.
  split; [apply E_lower|apply E_upper]; auto using cw_nonneg, cw_sum;
    intros j Hj; apply bins_over_in in Hj as [Hj _]; auto; apply H; assumption.
Qed.
Lemma Variance_E k C i : Variance g P k C i = Var (bins_over g (cvar k) i) (cw (cvar k) C i) (cmid g k).
Proof. unfold Variance, Moment, Mean, Var. rewrite !Ex_E. reflexivity. Qed.
Lemma Variance_nonneg k C i : in_grid g i -> 0 < marg g P C i -> 0 <= Variance g P k C i.
Proof. intros Hi Hm. rewrite Variance_E. apply Var_nonneg. apply cw_nonneg; assumption. Qed.
Lemma Variance_eq k C i : disjoint (cvar k) C = true -> in_grid g i -> 0 < marg g P C i ->
  Variance g P k C i = Ex g P (cvar k) C (fun b => cmid g k b ^ 2) i - Mean g P k C i ^ 2.
Proof. intros HD Hi Hm. rewrite Variance_E. unfold Mean. rewrite !Ex_E. apply Var_eq. apply cw_sum; assumption. Qed.
Lemma Variance_Popoviciu k C i a b : disjoint (cvar k) C = true -> in_grid g i -> 0 < marg g P C i ->
  (forall j, in_grid g j -> a <= cmid g k j <= b) -> Variance g P k C i <= (b - a) ^ 2 / 4.
Proof.
  intros HD Hi Hm H. rewrite Variance_E. apply Popoviciu; auto using cw_nonneg, cw_sum.
  intros j Hj. apply bins_over_in in Hj as [Hj _]; auto.
Qed.
Lemma Variance_zero k C i : disjoint (cvar k) C = true -> in_grid g i -> 0 < marg g P C i ->
  (Variance g P k C i = 0 <->
   forall j, In j (bins_over g (cvar k) i) -> 0 < marg g P (union (cvar k) C) j -> cmid g k j = Mean g P k C i).
Proof.
  intros HD Hi Hm. rewrite Variance_E, Var_zero_iff by (apply cw_nonneg; assumption).
  unfold Mean. rewrite Ex_E. unfold cw. split; intros H j Hj Hp; apply H; auto.
  - apply Rmult_lt_0_compat; [assumption|apply Rinv_0_lt_compat; assumption].
  - apply Rmult_lt_reg_r with (/ marg g P C i); [apply Rinv_0_lt_compat; assumption|].
    rewrite Rmult_0_l. exact Hp.
Qed.
Lemma Moment_0 k C c i : disjoint (cvar k) C = true -> 0 < marg g P C i -> Moment g P k C 0 c i = 1.
Proof. intros HD Hm. unfold Moment. rewrite Ex_E. apply central0. apply cw_sum; assumption. Qed.
Lemma Moment_1 k C i : disjoint (cvar k) C = true -> 0 < marg g P C i ->
  Moment g P k C 1 (Mean g P k C i) i = 0.
Proof. intros HD Hm. unfold Moment, Mean. rewrite !Ex_E. apply central1. apply cw_sum; assumption. Qed.

Lemma Kurt_skew k C i : disjoint (cvar k) C = true -> in_grid g i -> 0 < marg g P C i -> 0 < Variance g P k C i ->
  (Moment g P k C 3 (Mean g P k C i) i / sqrt (Variance g P k C i) ^ 3) ^ 2 + 1 <=
  Moment g P k C 4 (Mean g P k C i) i / sqrt (Variance g P k C i) ^ 4.
Proof.
  intros HD Hi Hm Hv.
  pose proof (kurt_skew (bins_over g (cvar k) i) (cw (cvar k) C i)
    (cw_nonneg _ _ _ Hi Hm) (cw_sum _ _ _ HD Hm) (cmid g k)) as K.
  rewrite <- Variance_E in K. rewrite <- (Ex_E _ _ (cmid g k)) in K. fold (Mean g P k C i) in K.
  rewrite <- !Ex_E in K. fold (Moment g P k C 3 (Mean g P k C i) i) in K.
  fold (Moment g P k C 4 (Mean g P k C i) i) in K.
  set (m3 := Moment g P k C 3 _ i) in *. set (m4 := Moment g P k C 4 _ i) in *.
  set (V := Variance g P k C i) in *.
  pose proof (sqrt_lt_R0 _ Hv) as S. assert (Q : sqrt V ^ 2 = V) by (apply pow2_sqrt; lra).
  set (s := sqrt V) in *.
  replace (m4 / s ^ 4) with ((m4 * s ^ 2) / s ^ 6) by (field; lra).
  replace ((m3 / s ^ 3) ^ 2 + 1) with ((m3 ^ 2 + (s ^ 2) ^ 3) / s ^ 6) by (field; lra).
  rewrite Q. apply Rmult_le_compat_r; [|exact K].
  left. apply Rinv_0_lt_compat. apply pow_lt; assumption.
Qed.
End ExE.

(** ** central moments *)
Lemma part1_dname k C : disjoint (cvar k) C = true -> nonempty C = true -> part1 (dname (cvar k) C) = Ok (name C).
Proof. destruct k, C as [[] [] [] []]; intros H H'; try discriminate H; try discriminate H'; reflexivity. Qed.
Lemma dname_sep k C : disjoint (cvar k) C = true -> has_char "_" (dname (cvar k) C) = nonempty C.
Proof. destruct k, C as [[] [] [] []]; intros H; try discriminate H; reflexivity. Qed.

Lemma mcoords_inb g k C i : in_grid g i -> inb (mcoords k C i) (mdims k C g).
Proof.
  intros Hi. assert (HI : inb (coords C i) (dims C g)) by (apply coords_inb; assumption).
  destruct k; cbn; try assumption; (constructor; [lia|assumption]).
Qed.

Section Obj.
Context (o : obj) (g : grid) (P : joint) (lw : bool).
Context (Hc : cube_on (o_cube o) g) (Hg : good_grid g) (HP : nonneg g P).
Context (k : coord) (C : vset).
Context (HD : disjoint (cvar k) C = true) (HG : gives o g P lw (cvar k) C).
Context (HM : o_mean o (dname (cvar k) C) = None) (HN : o_moment o (dname (cvar k) C) = None).

Lemma central_ok j :
  exists m, get_central_moment o (dname (cvar k) C) j lw = Ok m /\ shp m = mdims k C g /\
    forall i, in_grid g i ->
      (0 < marg g P C i -> ent m (mcoords k C i) = Fin (Moment g P k C j (Mean g P k C i) i)) /\
      (marg g P C i = 0 -> ent m (mcoords k C i) = NaN).
Proof.
  unfold get_central_moment. rewrite part0_dname, len_name, is_tvz_name by assumption. cbn [Nat.eqb py_assert bind].
  destruct (mean_ok o g P lw Hc Hg k C HD HG HM) as (mu & Emu & Hmus & Hmue).
  assert (X : exists mu', 
   (if negb (is_x k) then get_mean o (dname (cvar k) C) lw
    else (_ <- py_assert (String.eqb (name (cvar k)) "x") ;; m <- get_mean o (dname (cvar k) C) lw ;;
           _ <- match shp m with
                | [] => Err TypeError
                | n :: _ => if Nat.eqb n 2 then Ok tt else Err ValueError
                end ;; mu1 <- getitem [IInt 0] m ;; mu2 <- getitem [IInt 1] m ;; stack [mu1; mu2] NaN)) = Ok mu' /\
     shp mu' = mdims k C g /\ (forall i, in_grid g i -> ent mu' (mcoords k C i) = ent mu (mcoords k C i))).
  { destruct (is_x k) eqn:Hk; cbn [negb]; [|exists mu; auto].
    replace (String.eqb (name (cvar k)) "x") with true by (destruct k; try discriminate Hk; reflexivity).
    cbn [py_assert bind]. rewrite Emu; cbn [bind].
    assert (Hmus' : shp mu = 2%nat :: dims C g) by (destruct k; try discriminate Hk; exact Hmus).
    rewrite Hmus'. cbn [Nat.eqb bind].
    destruct (getitem_is' [IInt 0] mu _ _ (dims C g) (self_is mu _ Hmus') eq_refl) as (mu1 & M1 & Hmu1s & Hmu1e).
    destruct (getitem_is' [IInt 1] mu _ _ (dims C g) (self_is mu _ Hmus') eq_refl) as (mu2 & M2 & Hmu2s & Hmu2e).
    rewrite M1; cbn [bind]. rewrite M2; cbn [bind].
    destruct (stack2_is mu1 mu2 NaN _ Hmu1s Hmu2s) as (m & E9 & Hms & He0 & He1). exists m. split; [exact E9|].
    split; [destruct k; try discriminate Hk; exact Hms|]. intros i Hi.
    assert (HI : inb (coords C i) (dims C g)) by (apply coords_inb; assumption).
    destruct k; try discriminate Hk; cbn [mcoords]; [rewrite He0, Hmu1e|rewrite He1, Hmu2e]; auto. }
  destruct X as (mu' & -> & Hmus' & Hmue'). cbn [bind].
  rewrite dname_sep by assumption.
  assert (Y : (if nonempty C then conditioners <- part1 (dname (cvar k) C) ;;
       _ <- construct_volume_element (o_cube o) conditioners ;; Ok tt else Ok tt) = Ok tt).
  { destruct (nonempty C) eqn:EC; [|reflexivity]. rewrite part1_dname by assumption. cbn [bind].
    destruct (vol_ok (o_cube o) g Hc Hg C EC) as (a & -> & _). reflexivity. }
  rewrite Y. cbn [bind].
  destruct (moment_ok o g P lw Hc Hg k C HD HG j mu' HN Hmus') as (m & Em & Hms & Hme).
  exists m. split; [exact Em|]. split; [exact Hms|]. intros i Hi. destruct (Hme i Hi) as [H1 H2].
  split; [|exact H2]. intros Hm. apply H1; [assumption|]. rewrite Hmue' by assumption.
  apply (Hmue i Hi); assumption.
Qed.

Lemma dispersion_ok :
  exists m, get_dispersion o (dname (cvar k) C) lw = Ok m /\ shp m = mdims k C g /\
    forall i, in_grid g i ->
      (0 < marg g P C i -> ent m (mcoords k C i) = Fin (sqrt (Variance g P k C i))) /\
      (marg g P C i = 0 -> ent m (mcoords k C i) = NaN).
Proof.
  unfold get_dispersion. destruct (central_ok 2) as (m & E & Hs & He). rewrite E. cbn [bind].
  eexists; split; [reflexivity|]. split; [exact Hs|]. intros i Hi. destruct (He i Hi) as [H1 H2]. cbn [amap ent].
  split; intros Hm.
  - rewrite H1 by assumption. apply nsqrt_Fin. apply (Variance_nonneg g P HP k C i Hi Hm).
  - rewrite H2 by assumption. reflexivity.
Qed.

Lemma npow_nan j : (0 < j)%nat -> npow NaN j = NaN.
Proof. destruct j as [|[|j]]; [lia|reflexivity|]. intros _. reflexivity. Qed.

Lemma normalised_ok j : (0 < j)%nat ->
  exists m, get_normalised_central_moment o (dname (cvar k) C) j lw = Ok m /\ shp m = mdims k C g /\
    forall i, in_grid g i ->
      (0 < marg g P C i -> 0 < Variance g P k C i ->
         ent m (mcoords k C i) = Fin (Moment g P k C j (Mean g P k C i) i / sqrt (Variance g P k C i) ^ j)) /\
      (0 < marg g P C i -> Variance g P k C i = 0 ->
         ent m (mcoords k C i) = ndiv (Fin (Moment g P k C j (Mean g P k C i) i)) (Fin 0)) /\
      (marg g P C i = 0 -> ent m (mcoords k C i) = NaN).
Proof.
  intros Hj. unfold get_normalised_central_moment.
  destruct (central_ok j) as (m & E & Hs & He). rewrite E. cbn [bind].
  destruct dispersion_ok as (d & Ed & Hds & Hde). rewrite Ed. cbn [bind].
  destruct (bop_same_is ndiv m (amap (fun d => npow d j) d) _ Hs Hds) as (q & Eq & Hqs & Hqe).
  exists q. split; [exact Eq|]. split; [exact Hqs|]. intros i Hi.
  rewrite Hqe by (apply mcoords_inb; assumption). cbn [amap ent].
  destruct (He i Hi) as [H1 H2]. destruct (Hde i Hi) as [H3 H4]. split; [|split].
  - intros Hm Hv. rewrite H1, H3 by assumption. rewrite npow_Fin, ndiv_Fin; [reflexivity|].
    apply pow_nonzero. pose proof (sqrt_lt_R0 _ Hv). lra.
  - intros Hm Hv. rewrite H1, H3 by assumption. rewrite Hv, sqrt_0, npow_Fin, pow_i by assumption. reflexivity.
  - intros Hm. rewrite H2 by assumption. apply ndiv_nan_l.
Qed.

(** with zero variance every central moment of positive order is zero *)
Lemma Moment_zero i j : in_grid g i -> 0 < marg g P C i -> (0 < j)%nat -> Variance g P k C i = 0 ->
  Moment g P k C j (Mean g P k C i) i = 0.
Proof.
  intros Hi Hm Hj Hv. pose proof (proj1 (Variance_zero g P HP k C i HD Hi Hm) Hv) as Z.
  unfold Moment. rewrite Ex_E. unfold E.
  replace 0 with (sumR (map (fun _ : bin => 0 * 0) (bins_over g (cvar k) i))) by (rewrite sumR_map_scal; ring).
  apply sumR_map_ext. intros b Hb.
  pose proof (cw_nonneg g P HP (cvar k) C i Hi Hm b Hb) as W.
  destruct (Req_dec (cw g P (cvar k) C i b) 0) as [z|z]; [rewrite z; ring|].
  assert (0 < marg g P (union (cvar k) C) b).
  { assert (Hw : 0 < cw g P (cvar k) C i b) by lra. unfold cw in Hw.
    apply Rmult_lt_reg_r with (/ marg g P C i); [apply Rinv_0_lt_compat; assumption|].
    rewrite Rmult_0_l. exact Hw. }
  rewrite (Z b Hb) by assumption. rewrite Rminus_diag_eq by reflexivity. rewrite pow_i by assumption. ring.
Qed.

Lemma excess_kurtosis_ok f2m1 :
  exists kt ek, get_kurtosis o (dname (cvar k) C) lw = Ok kt /\
    get_excess_kurtosis f2m1 o (dname (cvar k) C) lw = Ok ek /\
    forall i, in_grid g i -> ent ek (mcoords k C i) = nsub (ent kt (mcoords k C i)) (Fin 3).
Proof.
  unfold get_excess_kurtosis, get_excess_central_moment, get_kurtosis.
  destruct (normalised_ok 4 ltac:(lia)) as (m & E & Hs & He). rewrite E. cbn [bind].
  exists m.
  destruct (bop_is nsub m (scal (get_normalised_central_moment_normal f2m1 4)) _ _ _ _ (mdims k C g)
    (self_is m _ Hs) (scal_is _) (bshape_nil_r _)) as (q & Eq & Hqs & Hqe).
  exists q. split; [reflexivity|]. split; [exact Eq|]. intros i Hi.
  rewrite Hqe by (apply mcoords_inb; assumption). rewrite bidx_self by (apply mcoords_inb; assumption).
  f_equal. cbn. f_equal. lra.
Qed.
End Obj.
