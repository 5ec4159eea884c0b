(** * Indep: consequences of independence, for base components. *)
From Coq Require Import Reals Lra Lia List Bool Arith ZArith String Ascii.
From Verif Require Import Num NumLemmas Arr PyStr Cube Base Spec SpecLemmas Repr DistLemmas
  Moments MomSpec MomLemmas MomLemmas2 MomLemmas3 MomLemmas4 MomLemmas5 MomLemmas6 Stat LMom MomClaims TotalSpec TotalVar SameSpec CondSame LightGiven IndepSpec.
Import ListNotations.
Local Open Scope R_scope.

Ltac sets := repeat match goal with S : vset |- _ => destruct S as [[] [] [] []] end; try discriminate; reflexivity.
Lemma union_swap A B C : union A (union B C) = union B (union A C). Proof. sets. Qed.
Lemma subset_union_l A C : subset A (union A C) = true. Proof. sets. Qed.
Lemma subset_union_mid A B C : subset (union A C) (union A (union B C)) = true. Proof. sets. Qed.
Lemma subset_right B C A : subset (union B C) (union A (union B C)) = true. Proof. sets. Qed.
Lemma subset_same C : subset C C = true. Proof. sets. Qed.
Lemma subset_union_mono A C S : subset C S = true -> subset (union A C) (union A S) = true.
Proof.
  unfold subset, union. cbn [has_t has_v has_x has_z]. rewrite !andb_true_iff. intros [[[H1 H2] H3] H4].
  destruct (has_t A), (has_v A), (has_x A), (has_z A); cbn [orb implb]; auto.
Qed.
Lemma nonempty_union_r B C : nonempty C = true -> nonempty (union B C) = true. Proof. intros. sets. Qed.
Lemma swap_pair A B : union A B = union B A. Proof. sets. Qed.
Lemma no_vars_union A : union A no_vars = A. Proof. sets. Qed.

Section Math.
Context (g : grid) (P : joint) (HP : nonneg g P).
Context (A B C : vset) (D1 : disjoint A B = true) (D2 : disjoint A C = true) (D3 : disjoint B C = true).

Lemma D12 : disjoint A (union B C) = true. Proof. rewrite disjoint_union_r, D1, D2. reflexivity. Qed.
Lemma D21 : disjoint B (union A C) = true. Proof. rewrite disjoint_union_r, D3, disjoint_comm, D1. reflexivity. Qed.
Lemma pos_less i : in_grid g i -> 0 < marg g P (union B C) i -> 0 < marg g P C i.
Proof. clear D1 D2 D3. intros Hi Hp. pose proof (marg_mono g P C (union B C) i Hi HP (subset_union_r B C)). lra. Qed.
Lemma marg_le S i : in_grid g i -> marg g P (union S C) i <= marg g P C i.
Proof. intros Hi. apply marg_mono; try assumption. apply subset_union_r. Qed.

Lemma indep_same : indep g P A B C -> forall i, in_grid g i -> 0 < marg g P (union B C) i -> same g P P C (union B C) A i.
Proof.
  intros HI i Hi Hp. split; [exact (pos_less i Hi Hp)|]. split; [exact Hp|]. intros j Hj.
  destruct (bins_marg g P A C i j Hi D2 Hj) as (Hj' & _ & E1). destruct (bins_marg g P A (union B C) i j Hi D12 Hj) as (_ & _ & E2).
  pose proof (HI j Hj') as K. rewrite E1, E2 in K. pose proof (pos_less i Hi Hp) as Hc.
  apply (Rmult_eq_reg_r (marg g P C i * marg g P (union B C) i)); [|apply Rgt_not_eq, Rmult_lt_0_compat; assumption].
  transitivity (marg g P (union A C) j * marg g P (union B C) i); [field; lra|]. rewrite <- K. field. lra.
Qed.
(** and back *)
Lemma same_indep : (forall i, in_grid g i -> 0 < marg g P (union B C) i ->
    marg g P (union A C) i / marg g P C i = marg g P (union A (union B C)) i / marg g P (union B C) i) -> indep g P A B C.
Proof.
  clear D1 D2 D3. intros HE i Hi. destruct (marg_nonneg g P (union B C) i Hi HP) as [Hp|Hz].
  - pose proof (pos_less i Hi Hp) as Hc. pose proof (HE i Hi Hp) as K.
    transitivity (marg g P (union A (union B C)) i / marg g P (union B C) i * (marg g P C i * marg g P (union B C) i)); [field; lra|].
    rewrite <- K. field. lra.
  - pose proof (marg_mono g P (union B C) _ i Hi HP (subset_right B C A)) as K.
    pose proof (marg_nonneg g P (union A (union B C)) i Hi HP) as K'. assert (E : marg g P (union A (union B C)) i = 0) by lra.
    rewrite E, <- Hz. ring.
Qed.
Lemma indep_sym : indep g P A B C -> indep g P B A C.
Proof. clear D1 D2 D3. intros HI i Hi. rewrite <- (union_swap A B C), (HI i Hi). apply Rmult_comm. Qed.
(** fewer variables *)
Lemma indep_fewer S T : A = union S T -> disjoint S T = true -> indep g P A B C -> indep g P S B C.
Proof.
  intros E HST HI i Hi.
  assert (T1 : disjoint T (union S (union B C)) = true).
  { pose proof D12 as K. rewrite E, disjoint_union_l in K. apply andb_prop in K as [_ K]. rewrite disjoint_union_r, K, disjoint_comm, HST. reflexivity. }
  pose proof T1 as T4. rewrite disjoint_union_r in T4. apply andb_prop in T4 as [TS T4].
  pose proof T4 as T2. rewrite disjoint_union_r in T2. apply andb_prop in T2 as [_ T2].
  assert (T3 : disjoint T (union S C) = true) by (rewrite disjoint_union_r, TS, T2; reflexivity).
  rewrite <- (sum_over_marg g P T (union S (union B C)) i T1), <- (sum_over_marg g P T (union S C) i T3).
  rewrite <- !sum_bins_over. rewrite (Rmult_comm _ (marg g P C i)), (Rmult_comm _ (marg g P (union B C) i)), <- !sumR_scal, !map_map.
  apply SpecLemmas.sumR_map_ext. intros j Hj. destruct (bins_marg g P T C i j Hi T2 Hj) as (Hj' & _ & E1).
  destruct (bins_marg g P T (union B C) i j Hi T4 Hj) as (_ & _ & E2). rewrite <- E1, <- E2.
  assert (E3 : union T (union S (union B C)) = union A (union B C)) by (rewrite E, (union_comm S T), union_assoc; reflexivity).
  assert (E4 : union T (union S C) = union A C) by (rewrite E, (union_comm S T), union_assoc; reflexivity).
  rewrite E3, E4. rewrite Rmult_comm, (HI j Hj'). apply Rmult_comm.
Qed.

(** light: only B and C matter for it *)
Lemma indep_lit : indep g P A B C -> light_by g (union B C) -> forall i, in_grid g i ->
  marg g (lit g P) (union A C) i * marg g P C i = marg g P (union A C) i * marg g (lit g P) C i.
Proof.
  intros HI HL i Hi. rewrite <- (sum_over_marg g (lit g P) B (union A C) i D21), <- (sum_over_marg g (lit g P) B C i D3).
  rewrite <- !sum_bins_over. rewrite (Rmult_comm _ (marg g P C i)), <- !sumR_scal, !map_map.
  apply SpecLemmas.sumR_map_ext. intros j Hj. destruct (bins_marg g P B C i j Hi D3 Hj) as (Hj' & _ & E1).
  destruct (bins_marg g P B (union A C) i j Hi D21 Hj) as (_ & _ & E2). rewrite <- E1, <- E2.
  rewrite <- (union_swap A B C). rewrite !marg_lit by (auto using light_by_union).
  transitivity (bright g j * (marg g P (union A (union B C)) j * marg g P C j)); [ring|]. rewrite (HI j Hj'). ring.
Qed.
End Math.

Lemma marg_light g P S i : marg g (light g P) S i = / total g (lit g P) * marg g (lit g P) S i.
Proof.
  rewrite <- marg_scal. unfold marg, light, Rdiv. repeat (apply over_ext_all; intros). apply Rmult_comm.
Qed.
Lemma lit_zero g P S i : good_grid g -> nonneg g P -> in_grid g i -> marg g P S i = 0 -> marg g (lit g P) S i = 0.
Proof.
  intros Hg HP Hi Hz. rewrite marg_bins in *.
  assert (K : forall j, In j (bins_over g (compl S) i) -> P (bt j) (bv j) (bx j) (by_ j) (bz j) = 0).
  { revert Hz. assert (N : forall j, In j (bins_over g (compl S) i) -> 0 <= P (bt j) (bv j) (bx j) (by_ j) (bz j)).
    { intros j Hj. destruct (bins_over_in g _ i j Hi Hj) as [(a & b & c & d & e) _]. apply HP; assumption. }
    revert N. generalize (bins_over g (compl S) i). induction l as [|q l IH]; [intros _ _ j []|].
    intros N Hz j [<-|Hj]; cbn [map sumR fold_right] in Hz.
    - assert (0 <= sumR (map (fun j => P (bt j) (bv j) (bx j) (by_ j) (bz j)) l)).
      { clear IH Hz. assert (N' : forall j, In j l -> 0 <= P (bt j) (bv j) (bx j) (by_ j) (bz j)) by (intros j Hj; apply N; right; exact Hj).
        clear N. induction l as [|r l IH]; cbn; [lra|]. pose proof (N' r (or_introl eq_refl)). assert (K := IH (fun j Hj => N' j (or_intror Hj))). unfold sumR in *; lra. }
      pose proof (N q (or_introl eq_refl)). unfold sumR in *; lra.
    - apply IH; [intros; apply N; right; assumption| |exact Hj].
      assert (0 <= sumR (map (fun j => P (bt j) (bv j) (bx j) (by_ j) (bz j)) l)).
      { clear IH Hz. assert (N' : forall j, In j l -> 0 <= P (bt j) (bv j) (bx j) (by_ j) (bz j)) by (intros j' Hj'; apply N; right; exact Hj').
        clear N Hj. induction l as [|r l IH]; cbn; [lra|]. pose proof (N' r (or_introl eq_refl)). assert (K := IH (fun j Hj => N' j (or_intror Hj))). unfold sumR in *; lra. }
      pose proof (N q (or_introl eq_refl)). unfold sumR in *; lra. }
  transitivity (sumR (map (fun _ : bin => 0 * 0) (bins_over g (compl S) i))).
  - apply SpecLemmas.sumR_map_ext. intros j Hj. unfold lit. rewrite (K j Hj). ring.
  - rewrite <- (map_map (fun _ => 0) (fun r => 0 * r)), sumR_scal. ring.
Qed.

Section Light.
Context (g : grid) (P : joint) (Hg : good_grid g) (HP : nonneg g P).
Context (A B C : vset) (D1 : disjoint A B = true) (D2 : disjoint A C = true) (D3 : disjoint B C = true).
Context (HI : indep g P A B C).

(** independence survives light weighting *)
Lemma indep_light1 : light_by g (union B C) -> indep g (light g P) A B C.
Proof.
  intros HL i Hi. rewrite !marg_light. pose proof (indep_lit g P A B C D1 D3 HI HL i Hi) as K. pose proof (HI i Hi) as K'.
  rewrite (marg_lit g P (union B C)), (marg_lit g P (union A (union B C))) by (auto using light_by_union).
  destruct (marg_nonneg g P C i Hi HP) as [Hc|Hz].
  - apply (Rmult_eq_reg_r (marg g P C i)); [|lra].
    set (T := / total g (lit g P)).
    transitivity (T * T * bright g i * marg g (lit g P) C i * (marg g P (union A (union B C)) i * marg g P C i)); [ring|]. rewrite K'.
    transitivity (T * T * bright g i * marg g P (union B C) i * (marg g P (union A C) i * marg g (lit g P) C i)); [ring|].
    rewrite <- K. ring.
  - pose proof (marg_le g P HP C A i Hi) as L1. pose proof (marg_nonneg g P (union A C) i Hi HP) as L2.
    assert (E1 : marg g P (union A C) i = 0) by lra.
    rewrite (lit_zero g P C i), (lit_zero g P (union A C) i) by (assumption || (symmetry; assumption)). ring.
Qed.
Lemma fit_light i : light_by g (union B C) -> in_grid g i -> 0 < marg g (light g P) C i -> same g (light g P) P C C A i.
Proof.
  intros HL Hi Hp.
  assert (Hc : 0 < marg g P C i).
  { destruct (marg_nonneg g P C i Hi HP) as [K|K]; [exact K|]. exfalso. rewrite marg_light, (lit_zero g P C i) in Hp by (assumption || (symmetry; assumption)). lra. }
  split; [exact Hp|]. split; [exact Hc|]. intros j Hj.
  destruct (bins_marg g P A C i j Hi D2 Hj) as (Hj' & _ & E1). destruct (bins_marg g (lit g P) A C i j Hi D2 Hj) as (_ & _ & E2).
  pose proof (indep_lit g P A B C D1 D3 HI HL j Hj') as K. rewrite E1, E2 in K. rewrite !marg_light in *.
  set (T := / total g (lit g P)) in *.
  assert (T <> 0 /\ marg g (lit g P) C i <> 0) as [T0 M0] by (split; intros Z; rewrite Z in Hp; lra).
  transitivity (marg g (lit g P) (union A C) j * marg g P C i / (marg g (lit g P) C i * marg g P C i)); [field; lra|]. rewrite K. field. lra.
Qed.
End Light.

(** ** products *)
Lemma bin_eta j : Bin (bt j) (bv j) (bx j) (by_ j) (bz j) = j. Proof. destruct j; reflexivity. Qed.
Lemma function_only S h : function_of S h -> only S h.
Proof. intros H i j K. apply H, coords_agree, K. Qed.
Lemma sum_over_move g D E E' F i j : only E F -> subset E (union D E') = true -> agree E' i j -> sum_over g D i F = sum_over g D j F.
Proof.
  intros HF HS (H1 & H2 & H3 & H4). unfold sum_over. destruct D as [d1 d2 d3 d4], E as [e1 e2 e3 e4], E' as [f1 f2 f3 f4].
  unfold subset, union in HS. cbn [has_t has_v has_x has_z] in *. apply andb_prop in HS as [HS S4]. apply andb_prop in HS as [HS S3]. apply andb_prop in HS as [S1 S2].
  destruct d1, d2, d3, d4; cbn [sum_if orb] in *; repeat (apply Sum_ext; intros ? _); apply HF; unfold agree; cbn [bt bv bx by_ bz has_t has_v has_x has_z];
    (split; [|split; [|split]]); intros K; subst; cbn [implb] in *; auto.
Qed.
Lemma marg_over g (F : bin -> R) S i : marg g (fun t v x y z => F (Bin t v x y z)) S i = sum_over g (compl S) i F.
Proof.
  rewrite marg_bins, <- sum_bins_over. apply SpecLemmas.sumR_map_ext. intros j _. rewrite bin_eta. reflexivity.
Qed.
Section Product.
Context (g : grid) (f : joint) (A C : vset) (u w : bin -> R) (HF : factored g f A C u w) (DAC : disjoint A C = true).

(** bin volume: that of the variables in A, and of the others *)
Let U j := u j * vol g A j.
Let W j := w j * vol g (others A) j.
Lemma vol_agree S i j : agree S i j -> vol g S i = vol g S j.
Proof.
  clear. intros (H1 & H2 & H3 & H4). unfold vol, ifw. destruct S as [[] [] [] []]; cbn [has_t has_v has_x has_z] in *;
  rewrite ?(H1 eq_refl), ?(H2 eq_refl), ?(proj1 (H3 eq_refl)), ?(proj2 (H3 eq_refl)), ?(H4 eq_refl); reflexivity.
Qed.
Lemma only_U : only (union A C) U.
Proof.
  intros i j Ha. unfold U. rewrite (function_only _ _ (proj1 HF) i j Ha). f_equal. apply vol_agree.
  eapply agree_subset; [|exact Ha]. apply subset_union_l.
Qed.
Lemma only_W : only (compl A) W.
Proof. intros i j Ha. unfold W. rewrite (function_only _ _ (proj1 (proj2 HF)) i j Ha). f_equal. apply vol_agree. exact Ha. Qed.
Lemma mass_UW j : in_grid g j -> mass g f (bt j) (bv j) (bx j) (by_ j) (bz j) = U j * W j.
Proof.
  intros Hj. unfold mass. rewrite (proj2 (proj2 HF)) by (rewrite bin_eta; exact Hj). rewrite bin_eta. unfold U, W, vol, ifw, others.
  destruct A as [[] [] [] []]; cbn [has_t has_v has_x has_z negb]; ring.
Qed.
Lemma marg_UW S i : disjoint A S = true -> subset C S = true -> in_grid g i ->
  marg g (mass g f) (union A S) i = U i * sum_over g (compl (union A S)) i W.
Proof.
  intros HD HS Hi. rewrite marg_bins, <- sum_bins_over, <- sumR_scal, map_map. apply SpecLemmas.sumR_map_ext. intros j Hj.
  destruct (bins_compl_agree g (union A S) i j Hi Hj) as [Hj' Ha]. rewrite mass_UW by exact Hj'. f_equal.
  apply only_U. eapply agree_subset; [|exact Ha]. apply subset_union_mono, HS.
Qed.
Lemma marg_S S i : disjoint A S = true -> subset C S = true -> in_grid g i ->
  marg g (mass g f) S i = sum_over g A i U * sum_over g (compl (union A S)) i W.
Proof.
  intros HD HS Hi. rewrite <- (sum_over_marg g (mass g f) A S i HD), Rmult_comm, <- !sum_bins_over, <- sumR_scal, map_map.
  apply SpecLemmas.sumR_map_ext. intros j Hj. destruct (bins_over_in g A i j Hi Hj) as [Hj' Ha].
  rewrite marg_UW by assumption. rewrite Rmult_comm. f_equal. rewrite sum_bins_over. apply (sum_over_move g _ (compl A) (compl A) W j i only_W); [apply subset_union_r|exact Ha].
Qed.
Lemma factored_indep B : disjoint A B = true -> indep g (mass g f) A B C.
Proof.
  intros DB i Hi. assert (DU : disjoint A (union B C) = true) by (rewrite disjoint_union_r, DB, DAC; reflexivity).
  assert (SC : subset C C = true) by (apply subset_same).
  rewrite !marg_UW by (assumption || apply subset_union_r).
  rewrite !(marg_S) by (assumption || apply subset_union_r). ring.
Qed.
End Product.

(** ** arrays *)
Section Base.
Context (self : component) (g : grid) (f : joint) (lw : bool).
Context (H : comp_on self g f) (Hg : good_grid g) (Hf : nonneg g f) (Hl : lw_ok g f lw).
Let P := prob g f lw.
Let o := base_obj self.
Let Hc : cube_on (o_cube o) g := cm_cube _ _ _ H.
Let HP : nonneg g P := prob_nonneg g f lw Hg Hf Hl.


Section Given.
Context (A B C : vset) (HB : nonempty B = true) (D1 : disjoint A B = true) (D2 : disjoint A C = true) (D3 : disjoint B C = true).
Context (HT : nonempty C = false -> total g P = 1).
Let NBC : nonempty (union B C) = true := union_nonempty B C HB.
Let DA : disjoint A (union B C) = true := D12 A B C D1 D2.

Lemma p_C density : nonempty A = true -> exists a, get_p self (dname A C) density lw = Ok a /\
  forall i, in_grid g i -> 0 < marg g P C i ->
    ent a (coords A i ++ coords C i) = Fin (marg g P (union A C) i / marg g P C i / (if density then vol g A i else 1)).
Proof.
  clear NBC DA HB D1 D3. intros HA. unfold dname. destruct (nonempty C) eqn:EC.
  - destruct (get_p_cond self g f H Hg Hf A C density lw HA EC D2 Hl) as (a & Ea & _ & Ha).
    exists a. split; [exact Ea|]. intros i Hi. exact (proj1 (Ha i Hi)).
  - destruct (get_p_marg self g f H Hg Hf A density lw HA Hl) as (a & Ea & _ & Ha). exists a. split; [exact Ea|]. intros i Hi _.
    assert (EC' : C = no_vars) by (clear - EC; destruct C as [[] [] [] []]; try discriminate EC; reflexivity).
    assert (E0 : coords C i = []) by (rewrite EC'; reflexivity).
    assert (EU : union A C = A) by (rewrite EC'; apply no_vars_union).
    assert (T1 : marg g P C i = 1) by (rewrite EC', marg_none; apply HT; reflexivity).
    rewrite E0, app_nil_r, (Ha i Hi), EU, T1. fold P. f_equal. unfold Rdiv. rewrite Rinv_1, Rmult_1_r. reflexivity.
Qed.
Lemma indep_p density : nonempty A = true -> indep g P A B C ->
  alike g (get_p self (dname A C) density lw) (get_p self (cname A (union B C)) density lw)
    (fun i => coords A i ++ coords C i)%list (fun i => coords A i ++ coords (union B C) i)%list (fun i => 0 < marg g P (union B C) i).
Proof.
  intros HA HI. destruct (p_C density HA) as (a & Ea & Ha).
  destruct (get_p_cond self g f H Hg Hf A (union B C) density lw HA NBC DA Hl) as (b & Eb & _ & Hb).
  exists a, b. split; [exact Ea|]. split; [exact Eb|]. intros i Hi Hp.
  destruct (indep_same g P HP A B C D1 D2 HI i Hi Hp) as (S1 & S2 & Sj).
  rewrite (Ha i Hi S1). etransitivity; [|symmetry; exact (proj1 (Hb i Hi) S2)]. f_equal. f_equal. apply Sj, bins_over_self, Hi.
Qed.
Lemma p_indep : nonempty A = true ->
  alike g (get_p self (dname A C) false lw) (get_p self (cname A (union B C)) false lw)
    (fun i => coords A i ++ coords C i)%list (fun i => coords A i ++ coords (union B C) i)%list (fun i => 0 < marg g P (union B C) i) ->
  indep g P A B C.
Proof.
  intros HA (a & b & Ea & Eb & He). destruct (p_C false HA) as (a' & Ea' & Ha). rewrite Ea in Ea'. injection Ea' as <-.
  destruct (get_p_cond self g f H Hg Hf A (union B C) false lw HA NBC DA Hl) as (b' & Eb' & _ & Hb). rewrite Eb in Eb'. injection Eb' as <-.
  apply same_indep; [exact HP|]. intros i Hi Hp. pose proof (He i Hi Hp) as K.
  rewrite (Ha i Hi (pos_less g P HP B C i Hi Hp)), (proj1 (Hb i Hi) Hp) in K. injection K as K. fold P in K. lra.
Qed.
End Given.

Section Stats.
Context (B C : vset) (HB : nonempty B = true) (D3 : disjoint B C = true).
Context (HT : nonempty C = false -> total g P = 1).
Let NBC : nonempty (union B C) = true := union_nonempty B C HB.
Let G A (HA : nonempty A = true) (HD : disjoint A C = true) : gives o g P lw A C := base_gives self g f lw A C H Hg Hf Hl HA HD HT.
Let G' A (HA : nonempty A = true) (HD : disjoint A (union B C) = true) : gives o g P lw A (union B C) :=
  base_gives self g f lw A (union B C) H Hg Hf Hl HA HD ltac:(congruence).
Let Q (i : bin) := 0 < marg g P (union B C) i.

Lemma indep_statistics k : disjoint (cvar k) B = true -> disjoint (cvar k) C = true -> indep g P (cvar k) B C ->
  statistics_alike o g k C (union B C) lw lw Q.
Proof.
  intros D1 D2 HI. pose proof (D12 (cvar k) B C D1 D2) as DA.
  pose proof (G _ (cvar_nonempty k) D2) as G1. pose proof (G' _ (cvar_nonempty k) DA) as G2.
  apply (statistics_ok o g Hc Hg P P lw lw C (union B C) HP HP k D2 DA G1 G2 eq_refl eq_refl eq_refl eq_refl).
  intros i Hi Hq. left. apply indep_same; assumption.
Qed.
Lemma indep_covariances a b : before a b = true -> let A := union (cvar a) (cvar b) in
  disjoint A B = true -> disjoint A C = true -> indep g P A B C -> covariances_alike o g a b C (union B C) lw lw Q.
Proof.
  intros Hab A D1 D2 HI. pose proof (D12 A B C D1 D2) as DU.
  pose proof (HDa a b C D2) as Da. pose proof (HDb a b C D2) as Db. pose proof (HDa a b B D1) as Ba. pose proof (HDb a b B D1) as Bb.
  pose proof (HDa a b (union B C) DU) as Ua. pose proof (HDb a b (union B C) DU) as Ub.
  assert (NE : nonempty A = true) by (apply union_nonempty, cvar_nonempty).
  pose proof (pair_disjoint a b Hab) as Dab.
  assert (Ia : indep g P (cvar a) B C) by (exact (indep_fewer g P A B C D1 D2 (cvar a) (cvar b) eq_refl Dab HI)).
  assert (Ib : indep g P (cvar b) B C).
  { apply (indep_fewer g P A B C D1 D2 (cvar b) (cvar a)); [apply swap_pair|rewrite disjoint_comm; exact Dab|exact HI]. }
  pose proof (G _ (cvar_nonempty a) Da) as A1. pose proof (G' _ (cvar_nonempty a) Ua) as A2.
  pose proof (G _ (cvar_nonempty b) Db) as B1. pose proof (G' _ (cvar_nonempty b) Ub) as B2.
  pose proof (G _ NE D2) as G1. pose proof (G' _ NE DU) as G2.
  apply (covariances_ok o g Hc Hg P P lw lw C (union B C) HP HP a b Hab D2 DU A1 B1 G1 A2 B2 G2 eq_refl eq_refl eq_refl eq_refl eq_refl eq_refl eq_refl eq_refl).
  intros i Hi Hq. split; [|split]; left; apply indep_same; assumption.
Qed.
End Stats.
End Base.

Lemma Mean_here g P (HP : nonneg g P) k C i j : in_grid g i -> in_grid g j -> agree C j i -> Mean g P k C j = Mean g P k C i.
Proof.
  intros Hi Hj Ha. unfold Mean, Ex. rewrite (marg_agree g P C j i Ha). f_equal.
  apply (sum_over_move g _ (union (cvar k) C) C); [|apply subset_same|exact Ha].
  intros p q K. rewrite (marg_agree g P _ p q K). f_equal. apply only_cmid. eapply agree_subset; [|exact K]. apply subset_union_l.
Qed.
Lemma indep_covar g P (HP : nonneg g P) a b C i : before a b = true -> disjoint (union (cvar a) (cvar b)) C = true ->
  indep g P (cvar a) (cvar b) C -> in_grid g i -> 0 < marg g P C i -> Covar g P a b C i = 0.
Proof.
  intros Hab HD HI Hi Hm. pose proof (HDa a b C HD) as Da. pose proof (HDb a b C HD) as Db. pose proof (pair_disjoint a b Hab) as Dab.
  rewrite <- (covariance_by_means g P HP a b C i Hi Hm Hab HD).
  rewrite (Ex_occupied g P HP (cvar b) C i _ (fun _ => 0) Hi Hm).
  - apply Ex_const; assumption.
  - intros j Hj Hp. destruct (bins_marg g P (cvar b) C i j Hi Db Hj) as (Hj' & Ha & _).
    pose proof (indep_same g P HP (cvar a) (cvar b) C Dab Da HI j Hj' Hp) as S.
    rewrite <- (Mean_same g P P C (union (cvar b) C) a j S), (Mean_here g P HP a C i j) by assumption. ring.
Qed.
