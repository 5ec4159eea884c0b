(** * LightGivenPar: light weighting given what determines the light, for
    parametric components. *)
From Coq Require Import Reals Lra Lia List Bool Arith ZArith String Ascii.
From Verif Require Import Num NumLemmas Arr PyStr Cube Base Spec SpecLemmas Repr DistLemmas
  Moments MomSpec MomLemmas MomLemmas4 MomClaims SameSpec CondSame LightGiven
  Parametric ParSpec ParRepr ParSetSpec ParLemmas ParClaims ParMoments GaussSpec ParMomSpec ParMomMath ParMomClaims ParMomOther.
Import ListNotations.
Local Open Scope R_scope.

Lemma total_first g (F : nat -> nat -> nat -> nat -> R) : (0 < nv g)%nat ->
  total g (fun t v x y z => match v with O => F t x y z | _ => 0 end) = total (flat g) (fun t _ x y z => F t x y z).
Proof.
  intros Hn. unfold total. cbn [flat nt nv nx ny nz]. apply Sum_ext. intros t _.
  set (G := Sum (nx g) (fun x => Sum (ny g) (fun y => Sum (nz g) (fun z => F t x y z)))).
  transitivity (Sum (nv g) (fun v => match v with O => (fun _ : nat => G) 0%nat | _ => 0 end)).
  - apply Sum_ext. intros [|v] _; [reflexivity|].
    transitivity (Sum (nx g) (fun _ => 0)); [|apply Sum_0]. apply Sum_ext; intros x _.
    transitivity (Sum (ny g) (fun _ => 0)); [|apply Sum_0]. apply Sum_ext; intros y _. apply Sum_0.
  - rewrite (Sum_first (nv g) (fun _ => G) Hn). cbn [Sum]. unfold G. ring.
Qed.

Section Par.
Context (L : stats_lib) (self : par) (g : grid) (m : par_model) (q : num).
Context (H : par_on L self g m) (Hg : good_grid g) (Hm : good_par g m).
(** all the light, and that within the velocities of the cube *)
Definition all_light (b : bool) : R := total (pgrid g b) (lit (pgrid g b) (pjoint g m b)).
Lemma light_total b : total g (lit g (par_joint g m false b)) = all_light b.
Proof.
  unfold all_light. destruct b; [reflexivity|]. cbn [pgrid].
  rewrite (total_ext (flat g) _ (fun t _ x y z => pprob g m false false t 0%nat x y z * Lw g t z)).
  2:{ intros t v x y z _ Hv _ _ _. cbn in Hv. replace v with 0%nat by lia. reflexivity. }
  rewrite <- (total_first g (fun t x y z => pprob g m false false t 0%nat x y z * Lw g t z)) by apply (gg_v _ Hg).
  apply total_ext. intros t [|v] x y z _ _ _ _ _; unfold lit, par_joint; [reflexivity|apply Rmult_0_l].
Qed.
Lemma joint_light b t v x y z : par_joint g m true b t v x y z = light g (par_joint g m false b) t v x y z.
Proof.
  unfold light. rewrite light_total. unfold par_joint, all_light. destruct b; [reflexivity|].
  destruct v as [|v]; [reflexivity|]. unfold lit, Rdiv. ring.
Qed.
Lemma marg_joint_light b S i : marg g (par_joint g m true b) S i = marg g (light g (par_joint g m false b)) S i.
Proof. unfold marg. repeat (apply over_ext_all; intros). apply joint_light. Qed.
Lemma joint_false_nonneg b : nonneg g (par_joint g m false b).
Proof. apply joint_nonneg; try assumption. intros X; discriminate X. Qed.
Lemma par_prob_light S i : light_by g S -> in_grid g i ->
  par_prob g m true S i = bright g i / all_light (has_v S) * par_prob g m false S i.
Proof.
  intros HL Hi. rewrite <- !(joint_marg g m) by exact Hg. rewrite marg_joint_light, marg_PL, light_total by assumption. reflexivity.
Qed.

(** ** light within the velocity range *)
Lemma lost_range t x y : 0 <= lost g m t x y /\ (good_norm (pm_F m) -> 0 < lost g m t x y).
Proof.
  rewrite lost_tails. pose proof (gp_F g m Hm ((vE g 0 - pm_mu m t x y) / pm_sig m t x y)).
  pose proof (gp_F g m Hm ((vE g (nv g) - pm_mu m t x y) / pm_sig m t x y)). split; [lra|].
  intros [K _]. pose proof (K ((vE g 0 - pm_mu m t x y) / pm_sig m t x y)). lra.
Qed.
Lemma light_lost : all_light false - all_light true =
  total (flat g) (fun t _ x y z => txz_mass g m t x y z * Lw g t z * lost g m t x y).
Proof.
  unfold all_light. cbn [pgrid]. rewrite <- !(marg_none _ _ (Bin 0 0 0 0 0)).
  assert (E : marg g (lit g (pjoint g m true)) no_vars (Bin 0 0 0 0 0) =
    marg (flat g) (fun t _ x y z => txz_mass g m t x y z * Lw g t z * Sum (nv g) (fun v => vbin g m t v x y)) no_vars (Bin 0 0 0 0 0)).
  { rewrite <- marg_flat_v by reflexivity. unfold marg. repeat (apply over_ext_all; intros). unfold lit, pjoint. ring. }
  rewrite E, marg_minus. unfold marg. repeat (apply over_ext_all; intros). unfold lit, pjoint, lost. cbn [flat Lw]. ring.
Qed.
Lemma zero_total h (P : joint) : nonneg h P -> total h P = 0 -> joint_eq h P (fun _ _ _ _ _ => 0).
Proof.
  intros HP HT t v x y z Ht Hv Hx Hy Hz. pose (i := Bin t v x y z).
  assert (Hi : in_grid h i) by (repeat split; assumption).
  pose proof (marg_mono h P no_vars all_vars i Hi HP eq_refl) as K. rewrite marg_none, marg_all, HT in K.
  pose proof (HP t v x y z Ht Hv Hx Hy Hz). cbn [i bt bv bx by_ bz] in K. lra.
Qed.
Lemma txz_lit_nonneg : nonneg (flat g) (fun t _ x y z => txz_mass g m t x y z * Lw g t z).
Proof.
  intros t v x y z Ht Hv Hx Hy Hz. cbn [flat nt nv nx ny nz] in *.
  pose proof (joint_false_nonneg false t 0%nat x y z Ht (gg_v _ Hg) Hx Hy Hz) as K. unfold par_joint, pprob, pjoint in K. rewrite Rmult_1_r in K.
  apply Rmult_le_pos; [exact K|apply (gg_L _ Hg); assumption].
Qed.
Lemma light_in_range : all_light true <= all_light false /\
  (good_norm (pm_F m) -> 0 < all_light false -> all_light true < all_light false).
Proof.
  assert (N : nonneg (flat g) (fun t _ x y z => txz_mass g m t x y z * Lw g t z * lost g m t x y)).
  { intros t v x y z Ht Hv Hx Hy Hz. apply Rmult_le_pos; [exact (txz_lit_nonneg t v x y z Ht Hv Hx Hy Hz)|apply lost_range]. }
  pose proof (total_nonneg _ _ N) as T. rewrite <- light_lost in T. split; [lra|].
  intros F Hp. destruct (Rle_lt_or_eq_dec 0 (all_light false - all_light true) T) as [K|K]; [lra|]. exfalso.
  rewrite light_lost in K. pose proof (zero_total _ _ N (eq_sym K)) as Z.
  assert (E : all_light false = total (flat g) (fun t v x y z => 0 * 1)).
  { unfold all_light. cbn [pgrid]. apply total_ext. intros t v x y z Ht Hv Hx Hy Hz. specialize (Z t v x y z Ht Hv Hx Hy Hz).
    destruct (lost_range t x y) as [_ W]. specialize (W F). unfold lit, pjoint. cbn [flat Lw].
    apply Rmult_integral in Z as [Z|Z]; [|lra]. rewrite Rmult_1_r, Z. ring. }
  rewrite E, total_scal in Hp. lra.
Qed.
Lemma light_pos : par_lw_ok g m true true -> par_lw_ok g m true false.
Proof. intros W _. pose proof (W eq_refl) as K. pose proof (proj1 light_in_range) as K'. unfold all_light in K'. cbn [pgrid] in *. lra. Qed.

(** ** distributions *)
Section C.
Context (C : vset) (HL : light_by g C).
Lemma par_given_p A density : nonempty A = true -> nonempty C = true -> disjoint A C = true ->
  par_lw_ok g m true (has_v (union A C)) -> cname A C <> "v_tx"%string ->
  exists a b, par_get_p L self (cname A C) density true = Ok a /\ par_get_p L self (cname A C) density false = Ok b /\
    forall i, in_grid g i ->
      (0 < bright g i -> 0 < par_prob g m false C i ->
        exists p, ent b (coords A i ++ coords C i) = Fin p /\
          ent a (coords A i ++ coords C i) = Fin (if has_v A then all_light false / all_light true * p else p)) /\
      (bright g i = 0 -> ent a (coords A i ++ coords C i) = NaN).
Proof.
  intros HA EC HD Hl Hn.
  destruct (par_cond_claim L self g m H Hg Hm A C density true HA EC HD Hl (fun _ => Hn)) as (a & Ea & _ & Ha).
  destruct (par_cond_claim L self g m H Hg Hm A C density false HA EC HD ltac:(intros X; discriminate X) ltac:(intros X; discriminate X)) as (b & Eb & _ & Hb).
  exists a, b. split; [exact Ea|]. split; [exact Eb|]. intros i Hi.
  assert (LC : 0 < all_light (has_v C)).
  { destruct (has_v (union A C)) eqn:EU.
    - destruct (has_v C); [exact (Hl eq_refl)|exact (light_pos Hl eq_refl)].
    - assert (EV : has_v C = false) by (destruct A as [[] [] [] []], C as [[] [] [] []]; try discriminate EU; reflexivity).
      rewrite EV. exact (Hl eq_refl). }
  assert (LU : 0 < all_light (has_v (union A C))) by exact (Hl eq_refl).
  split.
  - intros Hbr Hp.
    assert (Hq : 0 < par_prob g m true C i).
    { rewrite par_prob_light by assumption. apply Rmult_lt_0_compat; [apply Rdiv_lt_0_compat|]; assumption. }
    exists (par_prob g m false (union A C) i / par_prob g m false C i / (if density then vol g A i else 1)).
    split; [apply (proj1 (Hb i Hi) Hp)|]. rewrite (proj1 (Ha i Hi) Hq). f_equal.
    rewrite !par_prob_light by (auto using light_by_union).
    set (w := if density then vol g A i else 1). unfold Rdiv. set (w' := / w).
    assert (EU : has_v (union A C) = (has_v A || has_v C)%bool) by reflexivity. rewrite EU in *.
    assert (ED : has_v A = true -> has_v C = false).
    { intros E. destruct (has_v C) eqn:E'; [|reflexivity]. exfalso. unfold disjoint in HD. rewrite E, E' in HD. cbn [andb] in HD. rewrite !orb_true_r in HD. discriminate HD. }
    destruct (has_v A); cbn [orb] in *.
    + rewrite (ED eq_refl) in *. field. lra.
    + field. lra.
  - intros Hd. apply (proj2 (Ha i Hi)); [|left; reflexivity]. rewrite par_prob_light, Hd by assumption. unfold Rdiv. ring.
Qed.

(** ** statistics of ages, positions and metallicities *)
Let o := par_obj L q self.
Let Hc : cube_on (o_cube o) g := po_cube _ _ _ _ H.
Let P := par_joint g m false (has_v C).
Let PL := par_joint g m true (has_v C).
Context (Hl : par_lw_ok g m true (has_v C)) (HT : nonempty C = false -> total g P = 1).
Lemma par_fit A i : disjoint A C = true -> in_grid g i -> 0 < bright g i -> fit g PL P C C A i.
Proof.
  intros HD Hi Hb.
  assert (Hpos : 0 < total g (lit g P)) by (unfold P; rewrite light_total; exact (Hl eq_refl)).
  pose proof (lit_fit g P (joint_false_nonneg _) Hpos C HL A i HD Hi Hb) as K.
  unfold fit, same in *. unfold PL. setoid_rewrite marg_joint_light. exact K.
Qed.
Lemma total_PL : total g PL = 1.
Proof.
  unfold PL. rewrite (total_ext g _ (light g P)) by (intros t v x y z _ _ _ _ _; apply joint_light).
  apply total_light. unfold P. rewrite light_total. pose proof (Hl eq_refl) as K. unfold all_light. lra.
Qed.
Lemma par_given_statistics k : k <> Cv -> disjoint (cvar k) C = true -> no_holes g m false (cvar k) C ->
  statistics_alike o g k C C true false (fun i => 0 < bright g i).
Proof.
  intros Hk HD Hh.
  assert (G1 : gives o g PL true (cvar k) C).
  { apply par_gives; auto using not_v, cvar_nonempty; [intros _; exact total_PL|intros X; discriminate X]. }
  assert (G2 : gives o g P false (cvar k) C).
  { apply par_gives; auto using not_v, cvar_nonempty. intros X; discriminate X. }
  destruct (no_own_mean L self q k C Hk HD) as [N1 N2].
  apply (statistics_ok o g Hc Hg PL P true false C C (joint_nonneg g m true Hg Hm _ Hl) (joint_false_nonneg _) k HD HD G1 G2 N1 N1 N2 N2).
  intros i Hi Hq. apply par_fit; assumption.
Qed.

(** ** velocities *)
Context (Hv : has_v C = false).
Lemma weight_light i b : in_grid g i -> in_grid g b -> agree C b i -> 0 < bright g i ->
  weight g m true C i b = weight g m false C i b.
Proof.
  intros Hi Hb Ha Hq. unfold weight.
  assert (E : has_v (union (rest C) C) = false) by (unfold union, rest; cbn [has_v]; rewrite Hv; reflexivity).
  rewrite (par_prob_light (union (rest C) C) b) by (auto using light_by_union).
  rewrite (par_prob_light C i) by assumption. rewrite E, Hv, (bright_agree g C i b HL Hi Hb Ha).
  assert (LC : 0 < all_light false) by (rewrite Hv in Hl; exact (Hl eq_refl)).
  unfold Rdiv. rewrite !Rinv_mult. rewrite Rinv_inv.
  replace (bright g i * / all_light false * par_prob g m false (union (rest C) C) b * (/ bright g i * all_light false * / par_prob g m false C i))
    with ((bright g i * / bright g i) * (all_light false * / all_light false) * (par_prob g m false (union (rest C) C) b * / par_prob g m false C i)) by ring.
  rewrite !Rinv_r by lra. ring.
Qed.
Lemma rest_disjoint : disjoint C (rest C) = true.
Proof. clear. destruct C as [[] [] [] []]; reflexivity. Qed.
Lemma over_rest_light i G : in_grid g i -> 0 < bright g i -> over_rest g m true C i G = over_rest g m false C i G.
Proof.
  intros Hi Hq. unfold over_rest. rewrite <- !sum_bins_over. apply SpecLemmas.sumR_map_ext. intros b Hb.
  destruct (bins_over_in g _ i b Hi Hb) as [Hb' Ha]. rewrite weight_light; try assumption; [reflexivity|].
  eapply agree_sub; [|exact Ha]. exact rest_disjoint.
Qed.
Lemma par_given_velocity : nonempty C = true ->
  let Q i := 0 < bright g i /\ 0 < par_prob g m false C i in
  alike g (get_mean o (dname V_v C) true) (get_mean o (dname V_v C) false) (coords C) (coords C) Q /\
  (forall j, alike g (get_central_moment (par_obj L (Fin 1) self) (dname V_v C) j true) (get_central_moment (par_obj L (Fin 1) self) (dname V_v C) j false) (coords C) (coords C) Q).
Proof.
  intros NC Q. assert (Hl' : par_lw_ok g m true false) by (rewrite Hv in Hl; exact Hl).
  assert (Hn : par_lw_ok g m false false) by (intros X; discriminate X).
  assert (LC : 0 < all_light false) by exact (Hl' eq_refl).
  assert (PQ : forall i, in_grid g i -> Q i -> 0 < par_prob g m true C i).
  { intros i Hi [Q1 Q2]. rewrite par_prob_light by assumption. rewrite Hv. apply Rmult_lt_0_compat; [apply Rdiv_lt_0_compat|]; assumption. }
  split.
  - destruct (par_mean_claim L self g m true H Hg Hm Hl' q C Hv) as (a & Ea & _ & Ha).
    destruct (par_mean_claim L self g m false H Hg Hm Hn q C Hv) as (b & Eb & _ & Hb).
    exists a, b. split; [exact Ea|]. split; [exact Eb|]. intros i Hi HQ.
    rewrite (proj1 (Ha i Hi) (PQ i Hi HQ)) by congruence. rewrite (proj1 (Hb i Hi) (proj2 HQ)) by congruence. f_equal.
    apply over_rest_light; [exact Hi|exact (proj1 HQ)].
  - intros j. destruct (par_central_claim L self g m true H Hg Hm Hl' C j Hv) as (a & Ea & _ & Ha).
    destruct (par_central_claim L self g m false H Hg Hm Hn C j Hv) as (b & Eb & _ & Hb).
    exists a, b. split; [exact Ea|]. split; [exact Eb|]. intros i Hi HQ.
    destruct (Ha i Hi (PQ i Hi HQ) ltac:(congruence)) as (M & EM & G & HG & HM).
    destruct (Hb i Hi (proj2 HQ) ltac:(congruence)) as (M' & EM' & HM'). rewrite EM, EM'. f_equal.
    apply (mixture_moment_unique g m false C i (mixture_mean g m false C i) j); try assumption.
    assert (EE : mixture_mean g m false C i = mixture_mean g m true C i) by (symmetry; apply over_rest_light; [exact Hi|exact (proj1 HQ)]).
    rewrite EE. exists G. split; [exact HG|]. rewrite HM. apply over_rest_light; [exact Hi|exact (proj1 HQ)].
Qed.
End C.
End Par.
