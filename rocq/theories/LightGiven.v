(** * LightGiven: light weighting when the light of the template is known. *)
From Coq Require Import Reals Lra Lia List Bool Arith ZArith String Ascii.
From Verif Require Import Num NumLemmas Arr PyStr Cube Base Spec SpecLemmas Repr DistLemmas
  Moments MomSpec MomLemmas MomLemmas2 MomLemmas3 MomLemmas4 MomLemmas5 MomLemmas6 Stat LMom MomClaims TotalSpec TotalVar SameSpec CondSame.
Import ListNotations.
Local Open Scope R_scope.

Definition compl (S : vset) : vset := VSet (negb (has_t S)) (negb (has_v S)) (negb (has_x S)) (negb (has_z S)).
Lemma compl_disjoint S : disjoint (compl S) S = true.
Proof. destruct S as [[] [] [] []]; reflexivity. Qed.
Lemma compl_union S : union (compl S) S = all_vars.
Proof. destruct S as [[] [] [] []]; reflexivity. Qed.
Lemma marg_bins g P S i : marg g P S i = sumR (map (fun j => P (bt j) (bv j) (bx j) (by_ j) (bz j)) (bins_over g (compl S) i)).
Proof.
  rewrite <- (sum_over_marg g P (compl S) S i (compl_disjoint S)), compl_union, <- sum_bins_over.
  apply SpecLemmas.sumR_map_ext. intros j _. apply marg_all.
Qed.
Lemma agree_sym S i j : agree S i j -> agree S j i.
Proof. unfold agree. intros (A & B & D & E). split; [|split; [|split]]; intros K; [rewrite A|rewrite B|destruct (D K) as [-> ->]; split|rewrite E]; auto. Qed.
Lemma bins_compl_agree g S i j : in_grid g i -> In j (bins_over g (compl S) i) -> in_grid g j /\ agree S j i.
Proof.
  intros Hi Hj. destruct (bins_over_in g _ i j Hi Hj) as [K (A & B & D & E)]. split; [exact K|].
  destruct S as [a b c d]; cbn [compl has_t has_v has_x has_z] in *. rewrite !negb_involutive in *.
  unfold agree. cbn [has_t has_v has_x has_z]. auto.
Qed.
Lemma light_by_more g C S : light_by g C -> subset C S = true -> light_by g S.
Proof.
  intros H HS i j Hi Hj Hc. apply H; try assumption. destruct i as [i1 i2 i3 i4 i5], j as [j1 j2 j3 j4 j5].
  destruct C as [[] [] [] []], S as [[] [] [] []]; try discriminate HS; cbn [coords has_t has_v has_x has_z opt app bt bv bx by_ bz] in *; congruence.
Qed.
Lemma subset_union_r A C : subset C (union A C) = true.
Proof. destruct A as [[] [] [] []], C as [[] [] [] []]; reflexivity. Qed.
Lemma light_by_union g A C : light_by g C -> light_by g (union A C).
Proof. intros H. exact (light_by_more g C _ H (subset_union_r A C)). Qed.
Lemma light_by_tz g S : has_t S = true -> has_z S = true -> light_by g S.
Proof.
  intros Ht Hz i j _ _ Hc. unfold bright. destruct i as [i1 i2 i3 i4 i5], j as [j1 j2 j3 j4 j5]. destruct S as [p [] [] q]; cbn [has_t has_z] in Ht, Hz; subst p q;
  cbn [coords has_t has_v has_x has_z opt app bt bv bx by_ bz] in *; congruence.
Qed.
Lemma bright_agree g C i j : light_by g C -> in_grid g i -> in_grid g j -> agree C j i -> bright g j = bright g i.
Proof. intros H Hi Hj Ha. apply H; try assumption. apply coords_agree; assumption. Qed.

Lemma marg_lit g P S i : light_by g S -> in_grid g i -> marg g (lit g P) S i = bright g i * marg g P S i.
Proof.
  intros HL Hi. rewrite !marg_bins, <- sumR_scal, map_map. apply SpecLemmas.sumR_map_ext. intros j Hj.
  destruct (bins_compl_agree g S i j Hi Hj) as [K A]. unfold lit. change (Lw g (bt j) (bz j)) with (bright g j).
  rewrite (bright_agree g S i j HL Hi K A). ring.
Qed.
Lemma bright_nonneg g i : good_grid g -> in_grid g i -> 0 <= bright g i.
Proof. intros Hg (A & _ & _ & _ & E). apply (gg_L g Hg); assumption. Qed.

(** light-weighted probabilities of P, and the mass-weighted ones *)
Section Two.
Context (g : grid) (P : joint) (Hg : good_grid g) (HP : nonneg g P) (HT : 0 < total g (lit g P)).
Let PL := light g P.
Lemma marg_PL S i : light_by g S -> in_grid g i -> marg g PL S i = bright g i / total g (lit g P) * marg g P S i.
Proof.
  intros HL Hi. transitivity (marg g (fun t v x y z => / total g (lit g P) * lit g P t v x y z) S i).
  - unfold marg, PL, light, Rdiv. repeat (apply over_ext_all; intros). apply Rmult_comm.
  - rewrite marg_scal, marg_lit by assumption. unfold Rdiv; ring.
Qed.
Lemma lit_fit C : light_by g C -> forall A i, disjoint A C = true -> in_grid g i -> 0 < bright g i -> fit g PL P C C A i.
Proof.
  intros HL A i HD Hi Hb.
  assert (K : 0 < bright g i / total g (lit g P)) by (apply Rdiv_lt_0_compat; assumption).
  destruct (marg_nonneg g P C i Hi HP) as [Hp|Hp]; [left|right].
  - assert (Hq : 0 < marg g PL C i) by (rewrite marg_PL by assumption; apply Rmult_lt_0_compat; assumption).
    split; [exact Hq|]. split; [exact Hp|]. intros j Hj. destruct (bins_over_in g A i j Hi Hj) as [Hj' Ha].
    rewrite (marg_PL (union A C)) by (auto using light_by_union). rewrite (marg_PL C) by assumption.
    rewrite (bright_agree g C i j HL Hi Hj').
    + field. lra.
    + eapply agree_sub; [|exact Ha]. rewrite disjoint_comm; assumption.
  - split; [rewrite marg_PL, <- Hp by assumption; ring|symmetry; exact Hp].
Qed.
Lemma lit_dark C i : light_by g C -> in_grid g i -> bright g i = 0 -> marg g PL C i = 0.
Proof. intros HL Hi Hb. rewrite marg_PL, Hb by assumption. unfold Rdiv. ring. Qed.
End Two.

(** ** base components *)
Section Base.
Context (self : component) (g : grid) (f : joint).
Context (H : comp_on self g f) (Hg : good_grid g) (Hf : nonneg g f) (Hl : lw_ok g f true).
Context (C : vset) (HL : light_by g C) (HT : nonempty C = false -> total g (mass g f) = 1).
Let P := mass g f.
Let PL := light g P.
Let o := base_obj self.
Let Hc : cube_on (o_cube o) g := cm_cube _ _ _ H.
Let Hno : lw_ok g f false. Proof. intros X; discriminate X. Qed.
Let HP : nonneg g P := mass_nonneg g f Hg Hf.
Let HPL : nonneg g PL := prob_nonneg g f true Hg Hf Hl.
Let Hpos : 0 < total g (lit g P) := Hl eq_refl.
Let GL A (HA : nonempty A = true) (HD : disjoint A C = true) : gives o g PL true A C :=
  base_gives self g f true A C H Hg Hf Hl HA HD (fun _ => total_prob_lw g f Hl).
Let GM A (HA : nonempty A = true) (HD : disjoint A C = true) : gives o g P false A C :=
  base_gives self g f false A C H Hg Hf Hno HA HD HT.
Let Q (i : bin) := 0 < bright g i.

Lemma given_p A density : nonempty A = true -> disjoint A C = true ->
  exists a b, get_p self (dname A C) density true = Ok a /\ get_p self (dname A C) density false = Ok b /\
    forall i, in_grid g i ->
      (0 < bright g i -> ent a (coords A i ++ coords C i) = ent b (coords A i ++ coords C i)) /\
      (nonempty C = true -> bright g i = 0 -> ent a (coords A i ++ coords C i) = NaN).
Proof.
  clear GL GM. intros HA HD. unfold dname. destruct (nonempty C) eqn:EC.
  - destruct (get_p_cond self g f H Hg Hf A C density true HA EC HD Hl) as (a & Ea & _ & Ha).
    destruct (get_p_cond self g f H Hg Hf A C density false HA EC HD Hno) as (b & Eb & _ & Hb).
    exists a, b. split; [exact Ea|]. split; [exact Eb|]. intros i Hi. split.
    + intros Hbr. destruct (lit_fit g P HP Hpos C HL A i HD Hi Hbr) as [(S1 & S2 & Sj)|[Z1 Z2]].
      * rewrite (proj1 (Ha i Hi) S1), (proj1 (Hb i Hi) S2). f_equal. f_equal. apply Sj, bins_over_self; exact Hi.
      * rewrite (proj2 (Ha i Hi) Z1), (proj2 (Hb i Hi) Z2). reflexivity.
    + intros _ Hd. apply (proj2 (Ha i Hi)). apply lit_dark; assumption.
  - destruct (get_p_marg self g f H Hg Hf A density true HA Hl) as (a & Ea & _ & Ha).
    destruct (get_p_marg self g f H Hg Hf A density false HA Hno) as (b & Eb & _ & Hb).
    exists a, b. split; [exact Ea|]. split; [exact Eb|]. intros i Hi. split; [|discriminate].
    intros Hbr. assert (E0 : coords C i = []) by (destruct C as [[] [] [] []]; try discriminate EC; reflexivity).
    assert (EC' : C = no_vars) by (destruct C as [[] [] [] []]; try discriminate EC; reflexivity).
    assert (EU : union A C = A) by (rewrite EC'; destruct A as [[] [] [] []]; reflexivity).
    rewrite E0, app_nil_r, (Ha i Hi), (Hb i Hi). f_equal. f_equal.
    destruct (lit_fit g P HP Hpos C HL A i HD Hi Hbr) as [(S1 & S2 & Sj)|[Z1 Z2]].
    + specialize (Sj i (bins_over_self g A i Hi)). rewrite EU in Sj.
      assert (T1 : marg g PL C i = 1) by (rewrite EC', marg_none; apply total_prob_lw; exact Hl).
      assert (T2 : marg g P C i = 1) by (rewrite EC', marg_none; apply HT; reflexivity).
      fold PL in Sj. rewrite T1, T2 in Sj. unfold PL, P in *. unfold prob. lra.
    + exfalso. rewrite EC', marg_none in Z2. unfold P in Z2. rewrite (HT eq_refl) in Z2. lra.
Qed.

Lemma given_statistics k : disjoint (cvar k) C = true -> statistics_alike o g k C C true false Q.
Proof.
  intros HD. pose proof (GL _ (cvar_nonempty k) HD) as G1. pose proof (GM _ (cvar_nonempty k) HD) as G2.
  apply (statistics_ok o g Hc Hg PL P true false C C HPL HP k HD HD G1 G2 eq_refl eq_refl eq_refl eq_refl).
  intros i Hi Hq. exact (lit_fit g P HP Hpos C HL (cvar k) i HD Hi Hq).
Qed.
Lemma given_covariances a b : before a b = true -> disjoint (union (cvar a) (cvar b)) C = true ->
  covariances_alike o g a b C C true false Q.
Proof.
  intros Hab HD. pose proof (HDa a b C HD) as Da. pose proof (HDb a b C HD) as Db.
  pose proof (GL _ (cvar_nonempty a) Da) as A1. pose proof (GM _ (cvar_nonempty a) Da) as A2.
  pose proof (GL _ (cvar_nonempty b) Db) as B1. pose proof (GM _ (cvar_nonempty b) Db) as B2.
  assert (NE : nonempty (union (cvar a) (cvar b)) = true) by (apply union_nonempty, cvar_nonempty).
  pose proof (GL _ NE HD) as G1. pose proof (GM _ NE HD) as G2.
  apply (covariances_ok o g Hc Hg PL P true false C C HPL HP a b Hab HD HD A1 B1 G1 A2 B2 G2 eq_refl eq_refl eq_refl eq_refl eq_refl eq_refl eq_refl eq_refl).
  intros i Hi Hq. split; [|split]; apply lit_fit; assumption.
Qed.
End Base.

(** ** light-weighted results from mass-weighted ones and the light-weighted
    distribution of what determines the light *)
Section Spread.
Context (self : component) (g : grid) (f : joint).
Context (H : comp_on self g f) (Hg : good_grid g) (Hf : nonneg g f) (Hl : lw_ok g f true).
Context (B C : vset) (HB : nonempty B = true) (HBC : disjoint B C = true) (HL : light_by g (union B C)).
Let P := mass g f.
Let PL := light g P.
Let o := base_obj self.
Let Hc : cube_on (o_cube o) g := cm_cube _ _ _ H.
Let Hno : lw_ok g f false. Proof. intros X; discriminate X. Qed.
Let HP : nonneg g P := mass_nonneg g f Hg Hf.
Let HPL : nonneg g PL := prob_nonneg g f true Hg Hf Hl.
Let Hpos : 0 < total g (lit g P) := Hl eq_refl.
Let NBC : nonempty (union B C) = true := union_nonempty B C HB.

Lemma lit_bright j : in_grid g j -> 0 < marg g PL (union B C) j -> 0 < bright g j.
Proof.
  intros Hj Hp. destruct (bright_nonneg g j Hg Hj) as [Hb|Hb]; [exact Hb|].
  unfold PL in Hp. rewrite (lit_dark g P (union B C) j HL Hj (eq_sym Hb)) in Hp. lra.
Qed.
Lemma spread_mean k : disjoint (cvar k) B = true -> disjoint (cvar k) C = true ->
  exists p m m0, get_p self (dname B C) false true = Ok p /\ get_mean o (dname (cvar k) (union B C)) false = Ok m /\
    get_mean o (dname (cvar k) C) true = Ok m0 /\
    forall i, in_grid g i -> 0 < marg g PL C i ->
      averaged g PL B C p (fun j => ent m (mcoords k (union B C) j)) i = ent m0 (mcoords k C i).
Proof.
  intros D1 D2. assert (D3 : disjoint (cvar k) (union B C) = true) by (rewrite disjoint_union_r, D1, D2; reflexivity).
  destruct (base_gives self g f true B C H Hg Hf Hl HB HBC (fun _ => total_prob_lw g f Hl)) as (p & Ep & _ & Pe).
  destruct (mean_ok o g P false Hc Hg k (union B C) D3
    (base_gives self g f false _ _ H Hg Hf Hno (cvar_nonempty k) D3 ltac:(congruence)) eq_refl) as (m & Em & _ & Me).
  destruct (mean_ok o g PL true Hc Hg k C D2
    (base_gives self g f true _ _ H Hg Hf Hl (cvar_nonempty k) D2 (fun _ => total_prob_lw g f Hl)) eq_refl) as (m0 & Em0 & _ & M0).
  exists p, m, m0. do 3 (split; [assumption|]). intros i Hi Hp.
  rewrite (proj1 (M0 i Hi) Hp). assert (TM : Ex g PL B C (Mean g PL k (union B C)) i = Mean g PL k C i) by (apply total_mean; assumption).
  rewrite <- TM.
  apply averaged_Ex; try assumption.
  - intros j Hj Hq. apply (proj1 (Pe j Hj) Hq).
  - intros j Hj Hq. destruct (bins_over_in g B i j Hi Hj) as [Hj' _].
    destruct (lit_fit g P HP Hpos (union B C) HL (cvar k) j D3 Hj' (lit_bright j Hj' Hq)) as [S|[Z _]].
    + rewrite (proj1 (Me j Hj') (proj1 (proj2 S))). f_equal. symmetry. apply (Mean_same g PL P (union B C) (union B C) k j S).
    + exfalso. unfold PL in Hq. rewrite Z in Hq. lra.
Qed.
Lemma spread_p A : nonempty A = true -> disjoint A B = true -> disjoint A C = true ->
  exists p a b, get_p self (dname B C) false true = Ok p /\ get_p self (cname A (union B C)) false false = Ok a /\
    get_p self (dname A C) false true = Ok b /\
    forall i, in_grid g i -> 0 < marg g PL C i ->
      averaged g PL B C p (fun j => ent a (coords A j ++ coords (union B C) j)) i = ent b (coords A i ++ coords C i).
Proof.
  intros HA D1 D2. assert (D3 : disjoint A (union B C) = true) by (rewrite disjoint_union_r, D1, D2; reflexivity).
  destruct (base_gives self g f true B C H Hg Hf Hl HB HBC (fun _ => total_prob_lw g f Hl)) as (p & Ep & _ & Pe).
  destruct (base_gives self g f true A C H Hg Hf Hl HA D2 (fun _ => total_prob_lw g f Hl)) as (b & Eb & _ & Be).
  destruct (get_p_cond self g f H Hg Hf A (union B C) false false HA NBC D3 Hno) as (a & Ea & _ & Ae).
  exists p, a, b. do 3 (split; [assumption|]). intros i Hi Hp. rewrite (proj1 (Be i Hi) Hp).
  set (h := fun j => marg g PL (union A (union B C)) j / marg g PL (union B C) j).
  rewrite (averaged_Ex g PL HPL B C p _ h i Hi Hp HBC).
  - f_equal. unfold Ex. f_equal.
    transitivity (sum_over g B i (marg g PL (union B (union A C)))).
    + apply sum_over_ext; [exact Hi|]. intros j Hj. unfold h.
      assert (E : union A (union B C) = union B (union A C)).
      { destruct A as [[] [] [] []], B as [[] [] [] []], C as [[] [] [] []]; reflexivity. }
      rewrite E. destruct (marg_nonneg g PL (union B C) j Hj HPL) as [Q|Q]; [field; lra|].
      rewrite <- Q. assert (Z : marg g PL (union B (union A C)) j <= marg g PL (union B C) j).
      { apply marg_mono; try assumption. destruct A as [[] [] [] []], B as [[] [] [] []], C as [[] [] [] []]; reflexivity. }
      pose proof (marg_nonneg g PL (union B (union A C)) j Hj HPL). lra.
    + apply sum_over_marg. rewrite disjoint_union_r, HBC, disjoint_comm, D1. reflexivity.
  - intros j Hj Hq. apply (proj1 (Pe j Hj) Hq).
  - intros j Hj Hq. destruct (bins_over_in g B i j Hi Hj) as [Hj' _].
    destruct (lit_fit g P HP Hpos (union B C) HL A j D3 Hj' (lit_bright j Hj' Hq)) as [(S1 & S2 & Sj)|[Z _]].
    + rewrite (proj1 (Ae j Hj') S2). unfold h. f_equal. etransitivity; [|symmetry; exact (Sj j (bins_over_self g A j Hj'))].
      unfold Rdiv at 1. rewrite Rinv_1, Rmult_1_r. reflexivity.
    + exfalso. unfold PL in Hq. rewrite Z in Hq. lra.
Qed.
End Spread.
