(** * ParStat: ages, positions and metallicities of parametric components:
    moments, covariances and L-moments. *)
From Coq Require Import Reals Lra Lia List Bool Arith ZArith String Ascii.
From Verif Require Import MilesLemmas Num NumLemmas Arr ArrLemmas PyStr StrLemmas Cube Base Spec SpecLemmas Repr CubeLemmas CondLemmas
  DistLemmas StringClaims Moments MomArr MomSpec MomLemmas MomLemmas2 MomLemmas3 MomLemmas4 MomLemmas5 MomLemmas6 LMom MomClaims
  Parametric ParSpec ParRepr ParLemmas ParDist ParClaims ParMoments ParMomSpec ParMomOther
  MixParSpec MixParLemmas NormalL NormalLSpec NormalLLemmas NormalLClaims StatGen.
Import ListNotations.
Local Open Scope R_scope.

Section Par.
Context (L : stats_lib) (self : par) (g : grid) (m : par_model) (q : num) (lw : bool).
Context (H : par_on L self g m) (Hg : good_grid g) (Hm : good_par g m).
Let o := par_obj L q self.
Let Hc : cube_on (o_cube o) g := po_cube _ _ _ _ H.

Section One.
Context (k : coord) (C : vset) (Hk : k <> Cv) (HD : disjoint (cvar k) C = true) (Hl : par_lw_ok g m lw (has_v C)).
Let P := par_joint g m lw (has_v C).
Context (HT : nonempty C = false -> total g P = 1) (Hh : no_holes g m lw (cvar k) C).
Let HG : gives o g P lw (cvar k) C := par_gives L self g m q lw H Hg Hm (cvar k) C (not_v k Hk) (cvar_nonempty k) HD Hl HT Hh.
Let HP : nonneg g P := joint_nonneg g m lw Hg Hm (has_v C) Hl.
Let HM : o_mean o (dname (cvar k) C) = None := proj1 (no_own_mean L self q k C Hk HD).
Let HN : o_moment o (dname (cvar k) C) = None := proj2 (no_own_mean L self q k C Hk HD).

Definition par_variance := variance_gen o g P lw Hc Hg HP k C HD HG HM HN.
Definition par_shape f2m1 := shape_gen o g P lw Hc Hg HP k C HD HG HM HN f2m1.
Definition par_l_x j := l_x_gen o g P lw Hc k C HD HG j.
Definition par_hist (Hx : is_x k = false) := hist_ok o g P lw Hc Hg HP k C Hx HD HG.
Definition par_excess (Hx : is_x k = false) qn j := excess_ok o g P lw Hc Hg HP k C Hx HD HG qn j.
Lemma par_l_mean : is_x k = false ->
  exists a b, get_l_mean o (dname (cvar k) C) lw = Ok a /\ get_mean o (dname (cvar k) C) lw = Ok b /\
    shp a = shp b /\ forall i, in_grid g i -> ent a (coords C i) = ent b (coords C i).
Proof.
  intros Hx. destruct (l_moment_ok o g P lw Hc Hg k C Hx HD HG 0) as (a & Ea & Hsa & Hea).
  destruct (mean_ok o g P lw Hc Hg k C HD HG HM) as (b & Eb & Hsb & Heb).
  assert (M : mdims k C g = dims C g) by (destruct k; try discriminate Hx; reflexivity).
  assert (M' : forall i, mcoords k C i = coords C i) by (intros; destruct k; try discriminate Hx; reflexivity).
  exists a, b. do 2 (split; [assumption|]). split; [congruence|]. intros i Hi.
  destruct (Hea i Hi) as [A1 A2]. destruct (Heb i Hi) as [B1 B2]. rewrite M' in *.
  destruct (marg_nonneg g P C i Hi HP) as [Hp|Hp].
  - rewrite A1, B1, Ltrap_mean by (assumption || lra). reflexivity.
  - rewrite A2, B2 by (symmetry; assumption). reflexivity.
Qed.
End One.

Lemma par_covariance a b C : a <> Cv -> b <> Cv -> before a b = true -> disjoint (union (cvar a) (cvar b)) C = true ->
  par_lw_ok g m lw (has_v C) -> let P := par_joint g m lw (has_v C) in
  (nonempty C = false -> total g P = 1) -> no_holes g m lw (cvar a) C -> no_holes g m lw (cvar b) C ->
  exists r, get_covariance o (dname (union (cvar a) (cvar b)) C) lw = Ok r /\ shp r = mdims (xkey a b) C g /\
    forall i, in_grid g i ->
      (0 < marg g P C i -> ent r (mcoords (xkey a b) C i) = Fin (Covar g P a b C i)) /\
      (marg g P C i = 0 -> ent r (mcoords (xkey a b) C i) = NaN).
Proof.
  intros Ha Hb Hab HD Hl P HT Hha Hhb. pose proof (HDa a b C HD) as Da. pose proof (HDb a b C HD) as Db.
  destruct (no_own_mean L self q a C Ha Da) as [A1 A2]. destruct (no_own_mean L self q b C Hb Db) as [B1 B2].
  assert (HV : has_v (union (cvar a) (cvar b)) = false) by (destruct a, b; try reflexivity; contradiction Ha + contradiction Hb; reflexivity).
  apply (covariance_ok o g P lw Hc Hg a b C Hab HD); auto.
  - apply par_gives; auto using not_v, cvar_nonempty.
  - apply par_gives; auto using not_v, cvar_nonempty.
  - apply par_gives; auto using cvar_nonempty, union_nonempty.
    intros _ HI. exfalso. clear - HI Ha Hb Hab HD. destruct a, b; try discriminate Hab; try (contradiction Ha; reflexivity); try (contradiction Hb; reflexivity);
      destruct C as [[] [] [] []]; try discriminate HD; cbn in HI; repeat (destruct HI as [HI|HI]; [discriminate HI|]); exact HI.
Qed.
End Par.

(** ** L-moments of velocities *)
(** probability of velocity bin n given the C-variables of bin i *)
Definition v_given (g : grid) (m : par_model) (lw : bool) (C : vset) (i : bin) (n : nat) : R :=
  par_prob g m lw (union V_v C) (set_v n i) / par_prob g m lw C i.

Lemma union_with_v C : has_v C = false -> union V_v C = with_v true C /\ with_v false C = C.
Proof. destruct C as [[] [] [] []]; intros E; try discriminate E; split; reflexivity. Qed.
Lemma v_given_sum g m C i : good_grid g -> good_par g m -> has_v C = false -> in_grid g i -> 0 < par_prob g m false C i ->
  (forall n, (n < nv g)%nat -> 0 <= v_given g m false C i n) /\ Sum (nv g) (v_given g m false C i) <= 1.
Proof.
  intros Hg Hm HC Hi Hp. destruct (union_with_v C HC) as [EU EF].
  assert (VU : has_v (union V_v C) = true) by reflexivity. split.
  - intros n Hn. apply div_pos_le; [|exact Hp]. eapply par_prob_ge0; try eassumption; [intros E; discriminate E|].
    destruct Hi as (I1 & I2 & I3 & I4 & I5). repeat split; assumption.
  - unfold v_given, Rdiv. rewrite Sum_scal_r. apply Rmult_le_reg_r with (par_prob g m false C i); [exact Hp|].
    rewrite Rmult_assoc, Rinv_l, Rmult_1_r, Rmult_1_l by lra.
    rewrite (Sum_ext (nv g) _ (fun n => marg g (par_joint g m false true) (with_v true C) (set_v n i))).
    2: { intros n _. rewrite <- EU, <- VU at 1. symmetry. rewrite EU. apply (joint_marg g m false Hg (union V_v C) (set_v n i)). }
    rewrite marg_sum_v, EF, <- (joint_marg g m false Hg C i), HC. unfold marg. rewrite HC. cbn [over].
    destruct Hi as (I1 & I2 & I3 & I4 & I5). apply over_le; [auto|]. intros t Ht.
    cbn [over]. rewrite !Sum_over_comm. apply over_le; [auto|]. intros x Hx. rewrite !Sum_over_comm. apply over_le; [auto|]. intros y Hy.
    rewrite !Sum_over_comm. apply over_le; [auto|]. intros z Hz. apply par_joint_dom; assumption.
Qed.

Section Velocity.
Context (L : stats_lib) (self : par) (g : grid) (m : par_model) (q : num) (lw : bool).
Context (H : par_on L self g m) (Hg : good_grid g) (Hm : good_par g m).
Context (C : vset) (HC : has_v C = false) (Hl : par_lw_ok g m lw true).
Context (Htx : lw = true -> C <> VSet true false true false).
Let o := par_obj L q self.
Let Hc : cube_on (o_cube o) g := po_cube _ _ _ _ H.

Lemma v_disjoint : disjoint (cvar Cv) C = true.
Proof. destruct C as [[] [] [] []]; try discriminate HC; reflexivity. Qed.

(** what get_p returns for the velocity *)
Lemma v_entries : exists p, o_get_p o (dname (cvar Cv) C) false lw = Ok p /\ shp p = (dims (cvar Cv) g ++ dims C g)%list /\
  forall i, in_grid g i -> (nonempty C = false -> par_prob g m lw C i = 1) -> 0 < par_prob g m lw C i ->
    forall n, (n < nv g)%nat -> ent p (n :: coords C i) = Fin (v_given g m lw C i n).
Proof.
  assert (HU : has_v (union V_v C) = true) by reflexivity.
  assert (CI : forall i n, coords C (set_v n i) = coords C i) by (intros; destruct C as [[] [] [] []]; try discriminate HC; reflexivity).
  assert (PI : forall i n, par_prob g m lw C (set_v n i) = par_prob g m lw C i) by (intros; apply par_prob_set_v; assumption).
  assert (GI : forall i n, in_grid g i -> (n < nv g)%nat -> in_grid g (set_v n i)) by (intros i n (I1 & I2 & I3 & I4 & I5) Hn; repeat split; assumption).
  unfold dname. change (cvar Cv) with V_v. destruct (nonempty C) eqn:EC.
  - destruct (par_p_cond L self g m H Hg Hm V_v C false lw eq_refl EC v_disjoint Hl) as (p & Ep & Hps & Hpe).
    { destruct lw; [|reflexivity]. specialize (Htx eq_refl). destruct C as [[] [] [] []]; try discriminate HC; try discriminate EC; try reflexivity.
      contradiction Htx; reflexivity. }
    exists p. split; [exact Ep|]. split; [exact Hps|]. intros i Hi _ Hp n Hn.
    destruct (Hpe (set_v n i) (GI i n Hi Hn)) as [P1 _]. rewrite CI, PI in P1. cbn [coords V_v] in P1.
    etransitivity; [apply P1; exact Hp|]. unfold v_given. f_equal. field. lra.
  - assert (C0 : C = no_vars) by (destruct C as [[] [] [] []]; try discriminate; reflexivity).
    destruct (par_p_marg L self g m H Hg Hm V_v false lw eq_refl Hl) as (p & Ep & Hps & Hpe).
    exists p. split; [exact Ep|]. rewrite C0. split; [rewrite app_nil_r; exact Hps|]. intros i Hi Hn1 Hp n Hn.
    etransitivity; [exact (Hpe (set_v n i) (GI i n Hi Hn))|]. unfold v_given, pent. rewrite Hn1 by reflexivity.
    change (union V_v no_vars) with V_v. f_equal; field.
Qed.

(** every L-moment is the trapezoid sum with the probability between the lowest
    edge and edge n in place of the cumulative probability *)
Lemma par_v_l_moment j : exists a, get_l_moment o (dname (cvar Cv) C) (S j) lw = Ok a /\ shp a = dims C g /\
  forall i, in_grid g i -> (nonempty C = false -> par_prob g m lw C i = 1) -> 0 < par_prob g m lw C i ->
    ent a (coords C i) = Fin (trap (vE g) (fun n => Sum n (v_given g m lw C i)) (nv g) j).
Proof.
  destruct v_entries as (p & Ep & Hps & Hpe).
  destruct (l_moment_raw o g lw Hc Hg Cv C eq_refl v_disjoint p j Ep Hps) as (a & Ea & Has & Hae).
  exists a. split; [exact Ea|]. split; [exact Has|]. intros i Hi Hn Hp. destruct (Hae i Hi) as [A1 _].
  apply A1. intros n Hn'. apply Hpe; assumption.
Qed.
(** the L-mean *)
Lemma par_v_l_mean : exists a, get_l_mean o (dname (cvar Cv) C) lw = Ok a /\ shp a = dims C g /\
  forall i, in_grid g i -> (nonempty C = false -> par_prob g m lw C i = 1) -> 0 < par_prob g m lw C i ->
    exists r, ent a (coords C i) = Fin r /\ r = Sum (nv g) (fun n => mid (vE g) n * v_given g m lw C i n) /\
      (lw = false -> Rmin 0 (mid (vE g) 0) <= r <= Rmax 0 (mid (vE g) (nv g - 1))).
Proof.
  destruct (par_v_l_moment 0) as (a & Ea & Has & Hae). exists a. split; [exact Ea|]. split; [exact Has|].
  intros i Hi Hn Hp. set (r := Sum (nv g) (fun n => mid (vE g) n * v_given g m lw C i n)). exists r. split; [|split; [reflexivity|]].
  - rewrite (Hae i Hi Hn Hp). f_equal. unfold trap, r. apply Sum_ext. intros n Hn'. unfold legendre. cbn [legendre2 fst Sum]. unfold mid. lra.
  - intros El. destruct (v_given_sum g m C i Hg Hm HC Hi) as [V0 V1]; [rewrite <- El; exact Hp|]. rewrite <- El in V0, V1.
    pose proof (gg_v _ Hg) as Gv. set (lo := Rmin 0 (mid (vE g) 0)). set (hi := Rmax 0 (mid (vE g) (nv g - 1))).
    assert (L0 : lo <= 0) by apply Rmin_l. assert (H0 : 0 <= hi) by apply Rmax_l.
    assert (B : forall n, (n < nv g)%nat -> lo <= mid (vE g) n <= hi).
    { intros n Hn'. split.
      - apply Rle_trans with (mid (vE g) 0); [apply Rmin_r|]. apply (mid_mono (nv g)); [exact (gg_vE _ Hg)|lia|assumption].
      - apply Rle_trans with (mid (vE g) (nv g - 1)); [|apply Rmax_r]. apply (mid_mono (nv g)); [exact (gg_vE _ Hg)|lia|lia]. }
    assert (S0 : 0 <= Sum (nv g) (v_given g m lw C i)) by (apply Sum_nonneg; assumption). split.
    + apply Rle_trans with (lo * Sum (nv g) (v_given g m lw C i)); [nra|]. rewrite <- Sum_scal. apply Sum_le. intros n Hn'.
      apply Rmult_le_compat_r; [auto|apply B; assumption].
    + apply Rle_trans with (hi * Sum (nv g) (v_given g m lw C i)); [|nra]. rewrite <- Sum_scal. apply Sum_le. intros n Hn'.
      apply Rmult_le_compat_r; [auto|apply B; assumption].
Qed.
End Velocity.
