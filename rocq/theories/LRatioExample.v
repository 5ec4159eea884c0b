(** * LRatioExample: the L-kurtosis of one distribution on shifted velocity grids. *)
From Coq Require Import Reals Lra Lia List Bool Arith ZArith String Ascii.
From Verif Require Import Num NumLemmas Arr PyStr Cube Base Moments Spec SpecLemmas Repr MomSpec LMom MomLemmas NormalL NormalLSpec QuantLemmas NormalLClaims MomRefuted
  FourierLemmas DistLemmas MomLemmas5 NormalLLemmas Build CoordUnitsSpec CoordUnits LRatioSpec LRatio.
Import ListNotations.
Local Open Scope R_scope.
Local Open Scope string_scope.

(** velocities from another origin *)
Definition vshift (c : R) : units := Units (fun _ => 1) (fun k => match k with Cv => c | _ => 0 end).
Lemma vshift_pos c : positive_units (vshift c). Proof. intros k. cbn. lra. Qed.
Lemma shift_uniform u g : uniform (nx g) (xE g) -> uniform (ny g) (yE g) ->
  uniform (nx (rescaled u g)) (xE (rescaled u g)) /\ uniform (ny (rescaled u g)) (yE (rescaled u g)).
Proof.
  intros H1 H2. split; intros i Hi; [specialize (H1 i Hi)|specialize (H2 i Hi)]; unfold wid in *; cbn; unfold in_units; nra.
Qed.
Definition exs (c : R) : component := comp_of (rescaled (vshift c) exg) (per_unit (vshift c) exf).
Lemma exs_on c : comp_on (exs c) (rescaled (vshift c) exg) (per_unit (vshift c) exf).
Proof. destruct (shift_uniform (vshift c) exg exg_uniform_x exg_uniform_y). apply comp_of_on; assumption. Qed.

Definition vset_t : vset := VSet true false false false.
Definition ext0 : bin := Bin 0 0 0 0 0.
Lemma ext0_in : in_grid exg ext0. Proof. repeat split; cbn; lia. Qed.
Lemma ext0_pos : 0 < marg exg (prob exg exf false) vset_t ext0.
Proof. unfold vset_t, ext0. ex_num. Qed.
Lemma ext_p : bin_prob exg (prob exg exf false) Cv vset_t ext0 0 = 1 / 3 /\ bin_prob exg (prob exg exf false) Cv vset_t ext0 1 = 2 / 3.
Proof. split; unfold vset_t, ext0, bin_prob; mom_num; field. Qed.
Lemma exs_ratios c : exists s v, get_l_skewness (base_obj (exs c)) "v_t" false = Ok s /\ get_l_kurtosis (base_obj (exs c)) "v_t" false = Ok v /\
  ent s [0]%nat = Fin (1 / 3 + 2 / 3 * c) /\ ent v [0]%nat = Fin (1 + 20 / 27 * c) /\
  is_l_moment (rescaled (vshift c) exg) (prob exg exf false) Cv vset_t ext0 2 (17 / 54) /\
  is_l_moment (rescaled (vshift c) exg) (prob exg exf false) Cv vset_t ext0 3 (- (1 / 27)) /\
  is_l_moment (rescaled (vshift c) exg) (prob exg exf false) Cv vset_t ext0 4 (1 / 81).
Proof.
  set (u := vshift c). set (g := rescaled u exg). set (P := prob exg exf false).
  pose proof (vshift_pos c) as Hu. fold u in Hu.
  pose proof (units_good u Hu exg exg_good : good_grid g) as Hg. pose proof (nonneg_units u Hu exg exf exf_nonneg) as Hf. pose proof (lw_ok_units u Hu exg exf false (ex_lw_ok _)) as Hl.
  pose proof (prob_units u Hu exg exf false) as EP. fold g P in EP.
  pose proof (base_gives (exs c) g _ false (cvar Cv) vset_t (exs_on c) Hg Hf Hl eq_refl eq_refl ltac:(discriminate)) as HG. unfold g at 2 in HG. fold g in HG. fold u in HG. rewrite EP in HG.
  pose proof (prob_nonneg exg exf false exg_good exf_nonneg (ex_lw_ok _) : nonneg g P) as HP.
  pose proof (cm_cube _ _ _ (exs_on c) : cube_on _ g) as Hc.
  destruct (normalised_ok (base_obj (exs c)) g P false Hc Hg HP Cv vset_t eq_refl eq_refl HG 2) as (s & Es & _ & Hs).
  destruct (normalised_ok (base_obj (exs c)) g P false Hc Hg HP Cv vset_t eq_refl eq_refl HG 3) as (v & Ev & _ & Hv).
  assert (Hi : in_grid g ext0) by exact ext0_in. assert (Hm : 0 < marg g P vset_t ext0) by exact ext0_pos.
  destruct (Hs ext0 Hi) as [S1 _]. specialize (S1 Hm). destruct (Hv ext0 Hi) as [V1 _]. specialize (V1 Hm).
  destruct (Ltrap2 g P Hg HP Cv vset_t eq_refl eq_refl ext0 Hi Hm) as (M2 & I2 & E2 & _ & _).
  destruct (Ltrap3 g P HP Cv vset_t ext0 Hi Hm) as (M3 & I3 & E3). destruct (Ltrap4 g P HP Cv vset_t ext0 Hi Hm) as (M4 & I4 & E4).
  assert (p0 : bin_prob g P Cv vset_t ext0 0 = 1 / 3) by exact (proj1 ext_p). assert (p1 : bin_prob g P Cv vset_t ext0 1 = 2 / 3) by exact (proj2 ext_p).
  assert (F0 : cdf g P Cv vset_t ext0 0 = 0) by reflexivity.
  assert (F1 : cdf g P Cv vset_t ext0 1 = 1 / 3) by (rewrite cdf_bin, F0, p0; field).
  assert (F2 : cdf g P Cv vset_t ext0 2 = 1) by (rewrite cdf_bin, F1, p1; field).
  assert (e0 : cedge g Cv 0 = c - 1) by (cbn; unfold in_units; cbn; ring).
  assert (e1 : cedge g Cv 1 = c) by (cbn; unfold in_units; cbn; ring).
  assert (e2 : cedge g Cv 2 = c + 1) by (cbn; unfold in_units; cbn; ring).
  assert (N : cn g Cv = 2%nat) by reflexivity.
  assert (LD : Ldisp g P Cv vset_t ext0 = 1 / 2).
  { unfold Ldisp. rewrite N. cbn [Sum]. unfold wid. rewrite F0, F1, F2, e0, e1, e2. field. }
  assert (T3 : Ltrap g P Cv vset_t 2 ext0 = 1 / 6 + c / 3).
  { unfold Ltrap, trap. cbv zeta. rewrite N. cbn [Sum]. rewrite !(legendre_weight 3) by lia. cbn [lweight]. rewrite F0, F1, F2, e0, e1, e2. field. }
  assert (T4 : Ltrap g P Cv vset_t 3 ext0 = 1 / 2 + 10 / 27 * c).
  { unfold Ltrap, trap. cbv zeta. rewrite N. cbn [Sum]. rewrite !(legendre_weight 4) by lia. cbn [lweight]. rewrite F0, F1, F2, e0, e1, e2. field. }
  exists s, v. split; [exact Es|]. split; [exact Ev|].
  split; [etransitivity; [exact S1|]; rewrite T3, LD; f_equal; field|]. split; [etransitivity; [exact V1|]; rewrite T4, LD; f_equal; field|].
  rewrite LD in E2. rewrite T3 in E3. rewrite T4 in E4. unfold over2, over3, over4 in E2, E3, E4. rewrite N in E2, E3, E4. cbn [Sum] in E2, E3, E4. cbv zeta in E4.
  unfold mid, wid in E2, E3, E4. rewrite p0, p1 in E2. rewrite p0, p1, F0, F1, F2 in E3. rewrite p0, p1, F0, F1, F2 in E4. rewrite e0, e1, e2 in E2. rewrite e0, e1, e2 in E3. rewrite e0, e1, e2 in E4.
  replace (17 / 54) with M2 by lra. replace (- (1 / 27)) with M3 by lra. replace (1 / 81) with M4 by lra. auto.
Qed.

Lemma unbounded_claim : forall B, exists self g f, comp_on self g f /\ good_grid g /\ nonneg g f /\
  exists s v S4 K4 M2 M3 M4, get_l_skewness (base_obj self) "v_t" false = Ok s /\ get_l_kurtosis (base_obj self) "v_t" false = Ok v /\
    ent s [0]%nat = Fin S4 /\ ent v [0]%nat = Fin K4 /\
    is_l_moment g (prob g f false) Cv (VSet true false false false) (Bin 0 0 0 0 0) 2 M2 /\
    is_l_moment g (prob g f false) Cv (VSet true false false false) (Bin 0 0 0 0 0) 3 M3 /\
    is_l_moment g (prob g f false) Cv (VSet true false false false) (Bin 0 0 0 0 0) 4 M4 /\
    M3 / M2 = - (2 / 17) /\ M4 / M2 = 2 / 51 /\ B < S4 /\ B < K4.
Proof.
  intros B. set (c := Rabs B * 2). set (u := vshift c). pose proof (vshift_pos c) as Hu.
  exists (exs c), (rescaled u exg), (per_unit u exf). split; [apply exs_on|]. split; [exact (units_good u Hu exg exg_good)|].
  split; [exact (nonneg_units u Hu exg exf exf_nonneg)|].
  rewrite (prob_units u Hu exg exf false).
  destruct (exs_ratios c) as (s & v & Es & Ev & S1 & V1 & I2 & I3 & I4). fold u in I2, I3, I4.
  exists s, v, (1 / 3 + 2 / 3 * c), (1 + 20 / 27 * c), (17 / 54), (- (1 / 27)), (1 / 81).
  do 7 (split; [assumption|]). split; [field|]. split; [field|]. unfold c. pose proof (Rle_abs B). pose proof (Rabs_pos B). split; lra.
Qed.
