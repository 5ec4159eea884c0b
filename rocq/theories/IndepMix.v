(** * IndepMix: independence in mixtures of base components. *)
From Coq Require Import Reals Lra Lia List Bool Arith ZArith String Ascii.
From Verif Require Import Num NumLemmas Arr ArrLemmas PyStr Cube Base Spec SpecLemmas Repr Build CondLemmas DistLemmas
  Moments MomArr MomSpec MomLemmas MomLemmas4 MomLemmas5 MomLemmas6 LMom MomClaims MomRefuted StatGen
  Mixture MixSpec MixGen MixLemmas MixCond MixMom MixExample MixStat MixStatSpec MixStatLemmas MixStatClaims SameSpec CondSame LightGiven LightGivenMix IndepSpec Indep.
Import ListNotations.
Local Open Scope R_scope.

Section Mix.
Context (self : mixture) (g : grid) (comps : list component) (l : parts) (lw : bool) (B C : vset).
Context (H : mix_on self g comps l) (Hg : good_grid g).
Context (Hm : forall q, (q < List.length l)%nat -> lw_ok g (pf l q) lw).
Context (HB : nonempty B = true) (D3 : disjoint B C = true).
Context (HT : nonempty C = false -> lw = false ->
     sumR (map snd l) = 1 /\ forall q, (q < List.length l)%nat -> total g (mass g (pf l q)) = 1).
Let P := prob g (mixf l) lw.
Let NBC : nonempty (union B C) = true := union_nonempty B C HB.
Let HTB : nonempty (union B C) = false -> lw = false ->
     sumR (map snd l) = 1 /\ forall q, (q < List.length l)%nat -> total g (mass g (pf l q)) = 1. Proof. congruence. Qed.
Let HG := mix_on_gen self g comps l H Hg.
Let Hl : lw_ok g (mixf l) lw := mix_lw_ok self g comps l H Hg lw Hm.
Let HP : nonneg g P := base_nonneg self g comps l lw H Hg Hm.
(** every member has mass in the bin *)
Let Q (i : bin) := forall q, (q < List.length l)%nat -> 0 < marg g (prob g (pf l q) lw) (union B C) i.

Lemma Q_less i : in_grid g i -> Q i -> forall q, (q < List.length l)%nat -> 0 < marg g (prob g (pf l q) lw) C i.
Proof.
  clear HT. intros Hi Hq q Lq. apply (pos_less g (prob g (pf l q) lw)) with (B := B); try assumption; [|exact (Hq q Lq)].
  apply prob_nonneg; [exact Hg|exact (pf_nonneg self g comps l H q Lq)|exact (Hm q Lq)].
Qed.
Lemma Q_pos i : in_grid g i -> Q i -> 0 < marg g P (union B C) i.
Proof. clear HT. intros Hi Hq. exact (base_pos self g comps l lw (union B C) H Hg Hm i Hi Hq). Qed.

Lemma mix_indep_p A density : nonempty A = true -> disjoint A B = true -> disjoint A C = true -> indep g P A B C ->
  alike g (mix_get_p self (dname A C) true density lw) (mix_get_p self (cname A (union B C)) true density lw)
    (fun i => coords A i ++ coords C i)%list (fun i => coords A i ++ coords (union B C) i)%list (fun i => 0 < marg g P (union B C) i).
Proof.
  intros HA D1 D2 HI. pose proof (D12 A B C D1 D2) as DA.
  assert (T0 : nonempty C = false -> total g P = 1) by (intros E; exact (proj2 (normalised_mass self g comps l lw C H Hg Hm HT E))).
  destruct (mix_p_cond self g _ HG Hg A (union B C) true density lw HA NBC DA Hl) as (b & Eb & _ & Hb).
  assert (K : exists a, mix_get_p self (dname A C) true density lw = Ok a /\ forall i, in_grid g i -> 0 < marg g P C i ->
    ent a (coords A i ++ coords C i) = Fin (marg g P (union A C) i / marg g P C i / (if density then vol g A i else 1))).
  { clear HT HTB Hb NBC. unfold dname. destruct (nonempty C) eqn:EC.
    - destruct (mix_p_cond self g _ HG Hg A C true density lw HA EC D2 Hl) as (a & Ea & _ & Ha). exists a. split; [exact Ea|].
      intros i Hi Hp. rewrite (Ha i Hi). fold P. destruct (Rlt_dec 0 (marg g P C i)) as [_|K]; [reflexivity|contradiction].
    - destruct (mix_p_marg self g _ HG Hg A true density lw HA Hl) as (a & Ea & _ & Ha). exists a. split; [exact Ea|]. intros i Hi _.
      assert (EC' : C = no_vars) by (clear - EC; destruct C as [[] [] [] []]; try discriminate EC; reflexivity).
      assert (E0 : coords C i = []) by (rewrite EC'; reflexivity).
      assert (EU : union A C = A) by (rewrite EC'; apply no_vars_union).
      assert (T1 : marg g P C i = 1) by (rewrite EC', marg_none; apply T0; reflexivity).
      rewrite E0, app_nil_r, (Ha i Hi), EU, T1. fold P. f_equal. unfold Rdiv. rewrite Rinv_1, Rmult_1_r. reflexivity. }
  destruct K as (a & Ea & Ha). exists a, b. split; [exact Ea|]. split; [exact Eb|]. intros i Hi Hp.
  destruct (indep_same g P HP A B C D1 D2 HI i Hi Hp) as (S1 & S2 & Sj).
  rewrite (Ha i Hi S1), (Hb i Hi). fold P. destruct (Rlt_dec 0 (marg g P (union B C) i)) as [_|K]; [|contradiction].
  f_equal. f_equal. apply Sj, bins_over_self, Hi.
Qed.

Lemma mix_indep_statistics k : disjoint (cvar k) B = true -> disjoint (cvar k) C = true -> indep g P (cvar k) B C ->
  let w := dname (cvar k) C in let w' := dname (cvar k) (union B C) in let m := mcoords k C in let m' := mcoords k (union B C) in
  alike g (mix_mean self w lw) (mix_mean self w' lw) m m' Q /\
  (forall j, alike g (mix_central_moment self w j lw) (mix_central_moment self w' j lw) m m' Q) /\
  alike g (mix_variance self w lw) (mix_variance self w' lw) m m' Q /\
  alike g (mix_dispersion self w lw) (mix_dispersion self w' lw) m m' Q /\
  (is_x k = false -> forall j, alike g (get_l_moment (mix_obj self) w (S j) lw) (get_l_moment (mix_obj self) w' (S j) lw) (coords C) (coords (union B C))
     (fun i => 0 < marg g P (union B C) i)).
Proof.
  intros D1 D2 HI w w' m m'. pose proof (D12 (cvar k) B C D1 D2) as DA.
  assert (SM : forall i, in_grid g i -> 0 < marg g P (union B C) i -> same g P P C (union B C) (cvar k) i) by (intros; apply indep_same; assumption).
  split; [|split; [|split; [|split]]].
  - destruct (base_mean_right self g comps l lw C H Hg Hm HT k D2) as (a & Ea & _ & Ha).
    destruct (base_mean_right self g comps l lw (union B C) H Hg Hm HTB k DA) as (b & Eb & _ & Hb).
    exists a, b. split; [exact Ea|]. split; [exact Eb|]. intros i Hi HQ.
    etransitivity; [exact (proj1 (Ha i Hi) (Q_less i Hi HQ))|]. etransitivity; [|symmetry; exact (proj1 (Hb i Hi) HQ)].
    f_equal. exact (Mean_same g P P C (union B C) k i (SM i Hi (Q_pos i Hi HQ))).
  - intros j. destruct (base_central_right self g comps l lw C H Hg Hm HT k D2 j) as (a & Ea & _ & Ha).
    destruct (base_central_right self g comps l lw (union B C) H Hg Hm HTB k DA j) as (b & Eb & _ & Hb).
    exists a, b. split; [exact Ea|]. split; [exact Eb|]. intros i Hi HQ.
    etransitivity; [exact (proj1 (Ha i Hi) (Q_less i Hi HQ))|]. etransitivity; [|symmetry; exact (proj1 (Hb i Hi) HQ)].
    f_equal. exact (Central_same g P P C (union B C) k j i (SM i Hi (Q_pos i Hi HQ))).
  - destruct (mixb_variance self g comps l lw C H Hg Hm HT k D2) as (a & s & Ea & _ & _ & _ & Ha).
    destruct (mixb_variance self g comps l lw (union B C) H Hg Hm HTB k DA) as (b & s' & Eb & _ & _ & _ & Hb).
    exists a, b. split; [exact Ea|]. split; [exact Eb|]. intros i Hi HQ.
    destruct (proj1 (Ha i Hi) (Q_less i Hi HQ)) as (V & V1 & V2 & V3). destruct (proj1 (Hb i Hi) HQ) as (W & W1 & W2 & W3).
    pose proof (SM i Hi (Q_pos i Hi HQ)) as S. pose proof (Mean_same g P P C (union B C) k i S) as E.
    pose proof (Ex_same g P P C (union B C) (cvar k) (fun b => cmid g k b ^ 2) (fun b => cmid g k b ^ 2) i S (fun _ _ => eq_refl)) as E2.
    assert (EV : V = W) by (rewrite (proj1 V3), (proj1 W3); fold P; rewrite E, E2; reflexivity).
    unfold m, m'. rewrite V1, W1, EV. reflexivity.
  - destruct (mixb_variance self g comps l lw C H Hg Hm HT k D2) as (a & s & _ & Ea & _ & _ & Ha).
    destruct (mixb_variance self g comps l lw (union B C) H Hg Hm HTB k DA) as (b & s' & _ & Eb & _ & _ & Hb).
    exists s, s'. split; [exact Ea|]. split; [exact Eb|]. intros i Hi HQ.
    destruct (proj1 (Ha i Hi) (Q_less i Hi HQ)) as (V & V1 & V2 & V3). destruct (proj1 (Hb i Hi) HQ) as (W & W1 & W2 & W3).
    pose proof (SM i Hi (Q_pos i Hi HQ)) as S. pose proof (Mean_same g P P C (union B C) k i S) as E.
    pose proof (Ex_same g P P C (union B C) (cvar k) (fun b => cmid g k b ^ 2) (fun b => cmid g k b ^ 2) i S (fun _ _ => eq_refl)) as E2.
    assert (EV : V = W) by (rewrite (proj1 V3), (proj1 W3); fold P; rewrite E, E2; reflexivity).
    unfold m, m'. rewrite V2, W2, EV. reflexivity.
  - intros Hx j.
    apply (alike_weaken g _ _ (coords C) (coords (union B C)) (fit g P P C (union B C) (cvar k))).
    + intros i Hi Hp. left. apply SM; assumption.
    + exact (l_moment_alike (mix_obj self) g (mo_cube _ _ _ _ H) Hg P P lw lw C (union B C) k D2 DA
        (base_mix_gives self g comps l lw C H Hg Hm HT _ (cvar_nonempty k) D2)
        (base_mix_gives self g comps l lw (union B C) H Hg Hm HTB _ (cvar_nonempty k) DA) j Hx).
Qed.
End Mix.

Lemma mix_indep_covariance self g comps l lw C : mix_on self g comps l -> good_grid g ->
  (forall q, (q < List.length l)%nat -> lw_ok g (pf l q) lw) ->
  (nonempty C = false -> lw = false -> sumR (map snd l) = 1 /\ forall q, (q < List.length l)%nat -> total g (mass g (pf l q)) = 1) ->
  let P := prob g (mixf l) lw in
  forall a b, before a b = true -> let A := union (cvar a) (cvar b) in disjoint A C = true -> indep g P (cvar a) (cvar b) C ->
  exists c r, mix_covariance self (dname A C) lw = Ok c /\ mix_correlation self (dname A C) lw = Ok r /\
    forall i, in_grid g i -> (forall q, (q < List.length l)%nat -> 0 < marg g (prob g (pf l q) lw) C i) ->
      ent c (mcoords (xkey a b) C i) = Fin 0 /\
      (0 < Variance g P a C i -> 0 < Variance g P b C i -> ent r (mcoords (xkey a b) C i) = Fin 0).
Proof.
  intros H Hg Hm HT P a b Hab A HD HI.
  destruct (mixb_covariance self g comps l lw C H Hg Hm HT a b Hab HD) as (c & Ec & _ & Hce).
  destruct (mixb_correlation self g comps l lw C H Hg Hm HT a b Hab HD) as (r & Er & _ & Hre).
  exists c, r. split; [exact Ec|]. split; [exact Er|]. intros i Hi Hq.
  assert (Z : Covar g P a b C i = 0).
  { apply indep_covar; try assumption; [exact (base_nonneg self g comps l lw H Hg Hm)|exact (base_pos self g comps l lw C H Hg Hm i Hi Hq)]. }
  split.
  - etransitivity; [exact (proj1 (Hce i Hi) Hq)|]. f_equal. exact Z.
  - intros V1 V2. destruct (proj1 (proj1 (Hre i Hi) Hq) V1 V2) as (x & E1 & E2 & _). rewrite E1, E2. fold P. rewrite Z. f_equal. unfold Rdiv. ring.
Qed.

(** members with the same distribution of A given C *)
Lemma mix_factored g l A C u ws : l <> [] -> List.length ws = List.length l ->
  (forall q w, nth_error ws q = Some w -> factored g (pf l q) A C u w) ->
  factored g (mixf l) A C u (fun j => sumR (map (fun p => snd p * fst p j) (combine ws (map snd l)))).
Proof.
  intros HN HL HF. destruct l as [|p0 l0]; [contradiction HN; reflexivity|]. clear HN. destruct ws as [|w0 ws0]; [discriminate HL|].
  split; [exact (proj1 (HF 0%nat w0 eq_refl))|]. split.
  - intros i j Hc. apply f_equal. apply map_ext_in. intros [w c] Hin. cbn [fst snd]. f_equal.
    apply in_combine_l in Hin. apply In_nth_error in Hin as [q Hq]. exact (proj1 (proj2 (HF q w Hq)) i j Hc).
  - intros t v x y z Hi. unfold mixf. revert HL HF. generalize (p0 :: l0) as l, (w0 :: ws0) as ws. clear p0 l0 w0 ws0.
    induction l as [|p l IH]; intros [|w ws] HL HF; try discriminate HL; [cbn; ring|].
    cbn [map combine sumR fold_right fst snd]. injection HL as HL.
    assert (K : sumR (map (fun q => snd q * fst q t v x y z) l) = u (Bin t v x y z) * sumR (map (fun p => snd p * fst p (Bin t v x y z)) (combine ws (map snd l)))).
    { apply (IH ws HL). intros q w' Hq. exact (HF (S q) w' Hq). }
    unfold sumR in K |- *. rewrite K. pose proof (proj2 (proj2 (HF 0%nat w eq_refl)) t v x y z Hi) as K0. unfold pf in K0. cbn [nth] in K0. unfold joint in *. rewrite K0. ring.
Qed.

(** ** independence in each member is not independence in the mixture *)
Definition young : bin -> R := fun i => if Nat.eqb (bt i) 0 then 1 else 0.
Definition slow : bin -> R := fun i => if Nat.eqb (bv i) 0 then 1 else 0.
Definition fa : joint := fun t v x y z => young (Bin t v x y z) * slow (Bin t v x y z).
Definition fb : joint := fun t v x y z => (1 - young (Bin t v x y z)) * (1 - slow (Bin t v x y z)).
Definition ab : parts := [(fa, 1 / 2); (fb, 1 / 2)].
Definition mab : mixture := Mixture (cube_of exg) [comp_member (comp_of exg fa); comp_member (comp_of exg fb)] [Fin (1 / 2); Fin (1 / 2)].
Lemma mab_on : mix_on mab exg [comp_of exg fa; comp_of exg fb] ab.
Proof.
  constructor; try reflexivity; [apply cube_of_on; [apply exg_uniform_x|apply exg_uniform_y]|discriminate|].
  intros [|[|k]] c q E1 E2; cbn in E1, E2; try (destruct k; discriminate E1); injection E1 as <-; injection E2 as <-; cbn [fst snd];
    (split; [apply comp_of_on; [apply exg_uniform_x|apply exg_uniform_y]|split; [|lra]]);
    intros t v x y z _ _ _ _ _; unfold fa, fb, young, slow; cbn [bt bv]; destruct (Nat.eqb t 0), (Nat.eqb v 0); lra.
Qed.
Lemma tv_factored h k : factored exg (fun t v x y z => h (bt (Bin t v x y z)) * k (bv (Bin t v x y z))) (VSet true false false false) (VSet false false true false)
  (fun j => h (bt j)) (fun j => k (bv j)).
Proof.
  split; [|split; [|intros; reflexivity]]; intros [a b c d e] [a' b' c' d' e'] K; cbn [coords union others has_t has_v has_x has_z negb orb opt app bt bv bx by_ bz] in *; congruence.
Qed.
Lemma ab_indep q : (q < 2)%nat -> indep exg (mass exg (pf ab q)) (VSet true false false false) (VSet false true false false) (VSet false false true false).
Proof.
  intros Hq. destruct q as [|[|q]]; [| |lia].
  - exact (factored_indep exg _ _ _ _ _ (tv_factored (fun t => if Nat.eqb t 0 then 1 else 0) (fun v => if Nat.eqb v 0 then 1 else 0)) eq_refl (VSet false true false false) eq_refl).
  - exact (factored_indep exg _ _ _ _ _ (tv_factored (fun t => 1 - if Nat.eqb t 0 then 1 else 0) (fun v => 1 - if Nat.eqb v 0 then 1 else 0)) eq_refl (VSet false true false false) eq_refl).
Qed.
Lemma mixture_refuted : exists self g comps l i c v, mix_on self g comps l /\ good_grid g /\ in_grid g i /\
  (forall q, (q < List.length l)%nat -> indep g (mass g (pf l q)) (cvar Ct) (cvar Cv) (VSet false false true false) /\
     0 < marg g (mass g (pf l q)) (VSet false false true false) i) /\
  mix_covariance self "tv_x" false = Ok c /\ ent c [bx i; by_ i] = Fin v /\ v <> 0.
Proof.
  set (i := Bin 0 0 0 0 0). assert (Hi : in_grid exg i) by (repeat split; cbn; lia).
  assert (N : forall q, (q < List.length ab)%nat -> lw_ok exg (pf ab q) false) by (intros q _ X; discriminate X).
  destruct (mixb_covariance mab exg _ ab false (VSet false false true false) mab_on exg_good N ltac:(discriminate) Ct Cv eq_refl eq_refl) as (c & Ec & _ & Hc).
  exists mab, exg, [comp_of exg fa; comp_of exg fb], ab, i, c. eexists. split; [exact mab_on|]. split; [exact exg_good|]. split; [exact Hi|].
  assert (HQ : forall q, (q < List.length ab)%nat -> 0 < marg exg (mass exg (pf ab q)) (VSet false false true false) i).
  { intros q Hq. destruct q as [|[|q]]; [| |cbn in Hq; lia]; unfold pf, ab, fa, fb, young, slow; cbn [nth fst]; ex_num. }
  split; [intros q Hq; split; [exact (ab_indep q Hq)|exact (HQ q Hq)]|].
  split; [exact Ec|]. split; [exact (proj1 (Hc i Hi) HQ)|].
  unfold mixf, ab, fa, fb, young, slow. cbn [map fst snd]. unfold sumR. cbn [fold_right]. mom_num.
Qed.
