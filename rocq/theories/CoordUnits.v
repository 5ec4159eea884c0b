(** * CoordUnits: base and parametric components in other units. *)
From Coq Require Import Reals Lra Lia List Bool Arith ZArith String Ascii FunctionalExtensionality.
From Verif Require Import Num NumLemmas Arr ArrLemmas PyStr Cube Base Spec SpecLemmas Repr DistLemmas Moments MomSpec MomArr MomLemmas MomLemmas2 MomLemmas3
  MomLemmas4 MomLemmas5 MomLemmas6 Stat MomClaims Parametric ParSpec ParRepr ParLemmas ParDist ParClaims ParMoments GaussSpec GaussLemmas ParMomSpec ParMomMath
  ParMomLemmas ParMomClaims MixParSpec CoordUnitsSpec.
Import ListNotations.
Local Open Scope R_scope.

Section Units.
Context (u : units) (Hu : positive_units u).

Lemma us0 k : us u k <> 0. Proof. apply Rgt_not_eq, Hu. Qed.
Lemma wid_units k e n : wid (fun n => in_units u k (e n)) n = us u k * wid e n.
Proof. unfold wid, in_units. ring. Qed.
Lemma mid_units k e n : mid (fun n => in_units u k (e n)) n = in_units u k (mid e n).
Proof. unfold mid, in_units. field. Qed.
Lemma units_good g : good_grid g -> good_grid (rescaled u g).
Proof.
  intros [H1 H2 H3 H4 H5 H6 H7 H8 H9 H10 H11]. constructor; try assumption; intros i Hi; cbn; unfold in_units;
  apply Rplus_lt_compat_l, Rmult_lt_compat_l; auto.
Qed.
Lemma unit_vol_pos S : 0 < unit_vol u S.
Proof.
  unfold unit_vol. destruct S as [[] [] [] []]; cbn; pose proof (Hu Ct); pose proof (Hu Cv); pose proof (Hu Cx1); pose proof (Hu Cx2); pose proof (Hu Cz);
  repeat (apply Rmult_lt_0_compat; try assumption); lra.
Qed.
Lemma unit_vol0 S : unit_vol u S <> 0. Proof. apply Rgt_not_eq, unit_vol_pos. Qed.
Lemma vol_units g S i : vol (rescaled u g) S i = unit_vol u S * vol g S i.
Proof. unfold vol, unit_vol. cbn [tE vE xE yE zE rescaled]. rewrite !wid_units. destruct S as [[] [] [] []]; cbn; ring. Qed.
Lemma mass_units g f : mass (rescaled u g) (per_unit u f) = mass g f.
Proof.
  do 5 (apply functional_extensionality; intros ?). unfold mass, per_unit. cbn [tE vE xE yE zE rescaled]. rewrite !wid_units.
  unfold unit_vol, ifw. cbn. field. repeat split; apply us0.
Qed.
Lemma lit_units g P : lit (rescaled u g) P = lit g P. Proof. reflexivity. Qed.
Lemma prob_units g f lw : prob (rescaled u g) (per_unit u f) lw = prob g f lw.
Proof. unfold prob. rewrite mass_units. reflexivity. Qed.
Lemma lw_ok_units g f lw : lw_ok g f lw -> lw_ok (rescaled u g) (per_unit u f) lw.
Proof. intros H E. rewrite mass_units. exact (H E). Qed.
Lemma nonneg_units g f : nonneg g f -> nonneg (rescaled u g) (per_unit u f).
Proof.
  intros H t v x y z Ht Hv Hx Hy Hz. apply Rmult_le_pos; [apply H; assumption|]. left. apply Rinv_0_lt_compat. apply unit_vol_pos.
Qed.
Lemma cmid_units g k i : cmid (rescaled u g) k i = in_units u k (cmid g k i).
Proof. unfold cmid. destruct k; apply mid_units. Qed.

(** what changes of an expectation *)
Lemma per_volume_ok S g density p i : per_volume u S density (Fin (p / (if density then vol g S i else 1))) =
  Fin (p / (if density then vol (rescaled u g) S i else 1)).
Proof.
  unfold per_volume. rewrite ndiv_Fin by (destruct density; [apply unit_vol0|lra]). f_equal. destruct density; [|field].
  rewrite vol_units. unfold Rdiv. rewrite Rinv_mult. ring.
Qed.
Section Ex.
Context (g : grid) (P : joint) (C : vset).
Lemma Mean_units k i : disjoint (cvar k) C = true -> in_grid g i -> 0 < marg g P C i ->
  Mean (rescaled u g) P k C i = in_units u k (Mean g P k C i).
Proof.
  intros HD Hi Hm. unfold Mean.
  change (Ex g P (cvar k) C (cmid (rescaled u g) k) i = in_units u k (Ex g P (cvar k) C (cmid g k) i)).
  rewrite (Ex_ext g P _ _ _ (fun b => uo u k + us u k * cmid g k b) i Hi) by (intros; apply cmid_units).
  rewrite !Ex_E, E_plus, E_scal, E_const by (apply cw_sum; assumption). reflexivity.
Qed.
Lemma Moment_units k j c i : in_grid g i -> Moment (rescaled u g) P k C j (in_units u k c) i = us u k ^ j * Moment g P k C j c i.
Proof.
  intros Hi. unfold Moment.
  change (Ex g P (cvar k) C (fun b => (cmid (rescaled u g) k b - in_units u k c) ^ j) i = us u k ^ j * Ex g P (cvar k) C (fun b => (cmid g k b - c) ^ j) i).
  rewrite (Ex_ext g P _ _ _ (fun b => us u k ^ j * (cmid g k b - c) ^ j) i Hi).
  - rewrite !Ex_E, E_scal. reflexivity.
  - intros b _. rewrite cmid_units, <- Rpow_mult_distr. f_equal. unfold in_units. ring.
Qed.
Lemma Variance_units k i : disjoint (cvar k) C = true -> in_grid g i -> 0 < marg g P C i ->
  Variance (rescaled u g) P k C i = us u k ^ 2 * Variance g P k C i.
Proof. intros HD Hi Hm. unfold Variance. rewrite Mean_units by assumption. apply Moment_units. exact Hi. Qed.
Lemma sqrt_units k V : 0 <= V -> sqrt (us u k ^ 2 * V) = us u k * sqrt V.
Proof.
  intros HV. rewrite sqrt_mult; [|apply pow2_ge_0|exact HV]. f_equal. rewrite <- Rsqr_pow2. apply sqrt_Rsqr. left. apply Hu.
Qed.
Lemma Covar_units a b i : disjoint (cvar a) C = true -> disjoint (cvar b) C = true -> in_grid g i -> 0 < marg g P C i ->
  Covar (rescaled u g) P a b C i = us u a * us u b * Covar g P a b C i.
Proof.
  intros Ha Hb Hi Hm. unfold Covar. rewrite !Mean_units by assumption.
  change (Ex g P (union (cvar a) (cvar b)) C (fun j => (cmid (rescaled u g) a j - in_units u a (Mean g P a C i)) *
      (cmid (rescaled u g) b j - in_units u b (Mean g P b C i))) i =
    us u a * us u b * Ex g P (union (cvar a) (cvar b)) C (fun j => (cmid g a j - Mean g P a C i) * (cmid g b j - Mean g P b C i)) i).
  rewrite (Ex_ext g P _ _ _ (fun j => us u a * us u b * ((cmid g a j - Mean g P a C i) * (cmid g b j - Mean g P b C i))) i Hi).
  - rewrite !Ex_E, E_scal. reflexivity.
  - intros j _. rewrite !cmid_units. unfold in_units. ring.
Qed.
Lemma cdf_units k i n : cdf (rescaled u g) P k C i n = cdf g P k C i n.
Proof. reflexivity. Qed.
Lemma Ldisp_units k i : Ldisp (rescaled u g) P k C i = us u k * Ldisp g P k C i.
Proof.
  unfold Ldisp. replace (cn (rescaled u g) k) with (cn g k) by (destruct k; reflexivity). rewrite <- Sum_scal. apply Sum_ext. intros n Hn.
  replace (wid (cedge (rescaled u g) k) n) with (us u k * wid (cedge g k) n) by (destruct k; symmetry; apply wid_units).
  rewrite !cdf_units. ring.
Qed.
End Ex.

(** ** base components *)
Section Base.
Context (c c' : component) (g : grid) (f : joint) (Hon : comp_on c g f) (Hon' : comp_on c' (rescaled u g) (per_unit u f)) (Hg : good_grid g) (Hf : nonneg g f).
Let Hg' := units_good g Hg.
Let Hf' := nonneg_units g f Hf.
Lemma units_marg S density lw : nonempty S = true -> lw_ok g f lw ->
  exists a b, get_p c (name S) density lw = Ok a /\ get_p c' (name S) density lw = Ok b /\ shp a = dims S g /\ shp b = dims S g /\
    forall i, in_grid g i -> ent b (coords S i) = per_volume u S density (ent a (coords S i)).
Proof.
  intros HS Hl. destruct (get_p_marg c g f Hon Hg Hf S density lw HS Hl) as (a & Ea & Hs & He).
  destruct (get_p_marg c' (rescaled u g) _ Hon' Hg' Hf' S density lw HS (lw_ok_units g f lw Hl)) as (b & Eb & Hs' & He').
  exists a, b. do 4 (split; [assumption|]). intros i Hi. rewrite (He i Hi), per_volume_ok. rewrite prob_units in He'. exact (He' i Hi).
Qed.
Lemma units_cond A C density lw : nonempty A = true -> nonempty C = true -> disjoint A C = true -> lw_ok g f lw ->
  exists a b, get_p c (cname A C) density lw = Ok a /\ get_p c' (cname A C) density lw = Ok b /\
    shp a = (dims A g ++ dims C g)%list /\ shp b = (dims A g ++ dims C g)%list /\
    forall i, in_grid g i -> ent b (coords A i ++ coords C i) = per_volume u A density (ent a (coords A i ++ coords C i)).
Proof.
  intros HA HC HD Hl. destruct (get_p_cond c g f Hon Hg Hf A C density lw HA HC HD Hl) as (a & Ea & Hs & He).
  destruct (get_p_cond c' (rescaled u g) _ Hon' Hg' Hf' A C density lw HA HC HD (lw_ok_units g f lw Hl)) as (b & Eb & Hs' & He').
  exists a, b. do 4 (split; [assumption|]). intros i Hi. destruct (He i Hi) as [A1 A2]. destruct (He' i Hi) as [B1 B2].
  rewrite (prob_units g f lw) in B1, B2.
  destruct (marg_nonneg g _ C i Hi (prob_nonneg g f lw Hg Hf Hl)) as [Hp|Hz].
  - rewrite (A1 Hp), per_volume_ok. exact (B1 Hp).
  - symmetry in Hz. rewrite (A2 Hz). exact (B2 Hz).
Qed.
Section Mom.
Context (C : vset) (lw : bool) (Hl : lw_ok g f lw).
Context (HT : nonempty C = false -> lw = false -> total g (mass g f) = 1).
Let HT1 : nonempty C = false -> total g (prob g f lw) = 1.
Proof. intros E. destruct lw eqn:El; [apply total_light; apply Rgt_not_eq, Hl; reflexivity|apply HT; auto]. Qed.
Let HT2 : nonempty C = false -> total (rescaled u g) (prob (rescaled u g) (per_unit u f) lw) = 1.
Proof. intros E. rewrite prob_units. exact (HT1 E). Qed.
Let P := prob g f lw.
Let Hl' := lw_ok_units g f lw Hl.
Section One.
Context (q : coord) (HD : disjoint (cvar q) C = true).
Lemma units_mean : exists a b, get_mean (base_obj c) (dname (cvar q) C) lw = Ok a /\ get_mean (base_obj c') (dname (cvar q) C) lw = Ok b /\
    shp a = mdims q C g /\ shp b = mdims q C g /\ forall i, in_grid g i -> ent b (mcoords q C i) = num_in_units u q (ent a (mcoords q C i)).
Proof.
  destruct (mean_claim c g f lw Hon Hg Hf Hl q C HD HT1) as (a & Ea & Hs & He).
  destruct (mean_claim c' (rescaled u g) _ lw Hon' Hg' Hf' Hl' q C HD HT2) as (b & Eb & Hs' & He').
  exists a, b. do 4 (split; [assumption|]). intros i Hi. destruct (He i Hi) as [A1 A2]. destruct (He' i Hi) as [B1 B2].
  rewrite (prob_units g f lw) in B1, B2.
  destruct (marg_nonneg g _ C i Hi (prob_nonneg g f lw Hg Hf Hl)) as [Hp|Hz].
  - rewrite (proj1 (A1 Hp)). etransitivity; [exact (proj1 (B1 Hp))|]. rewrite Mean_units by assumption. reflexivity.
  - symmetry in Hz. rewrite (A2 Hz). exact (B2 Hz).
Qed.
Lemma units_central j : exists a b, get_central_moment (base_obj c) (dname (cvar q) C) j lw = Ok a /\
    get_central_moment (base_obj c') (dname (cvar q) C) j lw = Ok b /\
    shp a = mdims q C g /\ shp b = mdims q C g /\ forall i, in_grid g i -> ent b (mcoords q C i) = nmul (Fin (us u q ^ j)) (ent a (mcoords q C i)).
Proof.
  destruct (MomClaims.central_claim c g f lw Hon Hg Hf Hl q C HD HT1 j) as (a & Ea & Hs & He).
  destruct (MomClaims.central_claim c' (rescaled u g) _ lw Hon' Hg' Hf' Hl' q C HD HT2 j) as (b & Eb & Hs' & He').
  exists a, b. do 4 (split; [assumption|]). intros i Hi. destruct (He i Hi) as [A1 A2]. destruct (He' i Hi) as [B1 B2].
  rewrite (prob_units g f lw) in B1, B2.
  destruct (marg_nonneg g _ C i Hi (prob_nonneg g f lw Hg Hf Hl)) as [Hp|Hz].
  - rewrite (A1 Hp). etransitivity; [exact (B1 Hp)|]. rewrite Mean_units, Moment_units by assumption. reflexivity.
  - symmetry in Hz. rewrite (A2 Hz). exact (B2 Hz).
Qed.
Lemma units_dispersion : exists a b, get_dispersion (base_obj c) (dname (cvar q) C) lw = Ok a /\ get_dispersion (base_obj c') (dname (cvar q) C) lw = Ok b /\
    shp a = mdims q C g /\ shp b = mdims q C g /\ forall i, in_grid g i -> ent b (mcoords q C i) = nmul (Fin (us u q)) (ent a (mcoords q C i)).
Proof.
  destruct (units_central 2) as (a & b & Ea & Eb & Hs & Hs' & He). destruct (MomClaims.central_claim c g f lw Hon Hg Hf Hl q C HD HT1 2) as (a0 & Ea0 & _ & He0).
  rewrite Ea in Ea0. injection Ea0 as <-. unfold get_dispersion, get_variance. rewrite Ea, Eb. cbn [bind]. eexists. eexists.
  do 2 (split; [reflexivity|]). cbn [amap shp ent]. do 2 (split; [assumption|]). intros i Hi. rewrite (He i Hi). destruct (He0 i Hi) as [A1 A2].
  destruct (marg_nonneg g _ C i Hi (prob_nonneg g f lw Hg Hf Hl)) as [Hp|Hz].
  - rewrite (A1 Hp), nmul_Fin. fold (Variance g (prob g f lw) q C i).
    pose proof (Variance_nonneg g (prob g f lw) (prob_nonneg g f lw Hg Hf Hl) q C i Hi Hp) as VN.
    unfold nsqrt. destruct (Rle_dec 0 (Variance g (prob g f lw) q C i)); [|contradiction].
    destruct (Rle_dec 0 (us u q ^ 2 * Variance g (prob g f lw) q C i)) as [_|N]; [rewrite sqrt_units by assumption; reflexivity|].
    exfalso. apply N. apply Rmult_le_pos; [apply pow2_ge_0|exact VN].
  - symmetry in Hz. rewrite (A2 Hz). reflexivity.
Qed.
Lemma units_shape f2m1 : exists sk sk' ku ku' ek ek',
    get_skewness (base_obj c) (dname (cvar q) C) lw = Ok sk /\ get_skewness (base_obj c') (dname (cvar q) C) lw = Ok sk' /\
    get_kurtosis (base_obj c) (dname (cvar q) C) lw = Ok ku /\ get_kurtosis (base_obj c') (dname (cvar q) C) lw = Ok ku' /\
    get_excess_kurtosis f2m1 (base_obj c) (dname (cvar q) C) lw = Ok ek /\ get_excess_kurtosis f2m1 (base_obj c') (dname (cvar q) C) lw = Ok ek' /\
    forall i, in_grid g i -> 0 < marg g (prob g f lw) C i ->
      ent sk' (mcoords q C i) = ent sk (mcoords q C i) /\ ent ku' (mcoords q C i) = ent ku (mcoords q C i) /\ ent ek' (mcoords q C i) = ent ek (mcoords q C i).
Proof.
  destruct (shape_claim c g f lw Hon Hg Hf Hl q C HD HT1 f2m1) as (sk & ku & ek & E1 & E2 & E3 & _ & _ & He).
  destruct (shape_claim c' (rescaled u g) _ lw Hon' Hg' Hf' Hl' q C HD HT2 f2m1) as (sk' & ku' & ek' & E1' & E2' & E3' & _ & _ & He').
  exists sk, sk', ku, ku', ek, ek'. do 6 (split; [assumption|]). intros i Hi Hp. destruct (He i Hi Hp) as [A1 A2].
  rewrite (prob_units g f lw) in He'. destruct (He' i Hi Hp) as [B1 B2]. rewrite Variance_units in B1, B2 by assumption.
  pose proof (Variance_nonneg g (prob g f lw) (prob_nonneg g f lw Hg Hf Hl) q C i Hi Hp) as VN.
  destruct VN as [VP|VZ].
  - destruct (A1 VP) as (x & y & X1 & X2 & X3 & Ex & Ey & _).
    destruct B1 as (x' & y' & Y1 & Y2 & Y3 & Ex' & Ey' & _); [apply Rmult_lt_0_compat; [apply pow_lt, Hu|exact VP]|].
    rewrite Mean_units, Moment_units, sqrt_units in Ex', Ey' by (assumption || lra).
    assert (S0 : sqrt (Variance g (prob g f lw) q C i) <> 0) by (apply Rgt_not_eq, sqrt_lt_R0, VP).
    assert (x' = x) as ->. { rewrite Ex, Ex', Rpow_mult_distr. field. split; [exact S0|apply us0]. }
    assert (y' = y) as ->. { rewrite Ey, Ey', Rpow_mult_distr. field. split; [exact S0|apply us0]. }
    rewrite X1, X2, X3. auto.
  - symmetry in VZ. destruct (A2 VZ) as (X1 & X2 & X3). rewrite X1, X2, X3. apply B2. rewrite VZ. ring.
Qed.
Lemma units_l_mean : is_x q = false -> exists a b, get_l_mean (base_obj c) (dname (cvar q) C) lw = Ok a /\ get_l_mean (base_obj c') (dname (cvar q) C) lw = Ok b /\
    shp a = dims C g /\ shp b = dims C g /\ forall i, in_grid g i -> ent b (coords C i) = num_in_units u q (ent a (coords C i)).
Proof.
  intros Hx. destruct (l_mean_claim c g f lw Hon Hg Hf Hl q C HD HT1 Hx) as (a & m & Ea & Em & Hs & He).
  destruct (l_mean_claim c' (rescaled u g) _ lw Hon' Hg' Hf' Hl' q C HD HT2 Hx) as (b & m' & Eb & Em' & Hs' & He').
  destruct units_mean as (n & n' & En & En' & Sn & Sn' & Hn). rewrite Em in En. injection En as <-. rewrite Em' in En'. injection En' as <-.
  assert (MD : mdims q C g = dims C g) by (destruct q; try discriminate Hx; reflexivity).
  exists a, b. do 2 (split; [assumption|]). split; [congruence|]. split; [congruence|]. intros i Hi. rewrite (He i Hi), (He' i Hi).
  assert (MC : mcoords q C i = coords C i) by (destruct q; try discriminate Hx; reflexivity). rewrite <- MC. apply Hn. exact Hi.
Qed.
Lemma units_l_disp : is_x q = false -> exists a b, get_l_dispersion (base_obj c) (dname (cvar q) C) lw = Ok a /\ get_l_dispersion (base_obj c') (dname (cvar q) C) lw = Ok b /\
    shp a = dims C g /\ shp b = dims C g /\ forall i, in_grid g i -> ent b (coords C i) = nmul (Fin (us u q)) (ent a (coords C i)).
Proof.
  intros Hx. destruct (l_disp_claim c g f lw Hon Hg Hf Hl q C HD HT1 Hx) as (a & Ea & Hs & He).
  destruct (l_disp_claim c' (rescaled u g) _ lw Hon' Hg' Hf' Hl' q C HD HT2 Hx) as (b & Eb & Hs' & He').
  exists a, b. do 4 (split; [assumption|]). intros i Hi. destruct (He i Hi) as [A1 A2]. destruct (He' i Hi) as [B1 B2].
  rewrite (prob_units g f lw) in B1, B2.
  destruct (marg_nonneg g _ C i Hi (prob_nonneg g f lw Hg Hf Hl)) as [Hp|Hz].
  - rewrite (proj1 (A1 Hp)). etransitivity; [exact (proj1 (B1 Hp))|]. rewrite Ldisp_units. reflexivity.
  - symmetry in Hz. rewrite (A2 Hz). exact (B2 Hz).
Qed.
End One.
Section Two.
Context (x y : coord) (Hab : before x y = true) (HD : disjoint (union (cvar x) (cvar y)) C = true).
Let Dx : disjoint (cvar x) C = true. Proof. clear -HD. destruct x, y, C as [[] [] [] []]; try discriminate HD; reflexivity. Qed.
Let Dy : disjoint (cvar y) C = true. Proof. clear -HD. destruct x, y, C as [[] [] [] []]; try discriminate HD; reflexivity. Qed.
Lemma units_cov : exists a b, get_covariance (base_obj c) (dname (union (cvar x) (cvar y)) C) lw = Ok a /\
    get_covariance (base_obj c') (dname (union (cvar x) (cvar y)) C) lw = Ok b /\ shp a = mdims (xkey x y) C g /\ shp b = mdims (xkey x y) C g /\
    forall i, in_grid g i -> ent b (mcoords (xkey x y) C i) = nmul (Fin (us u x * us u y)) (ent a (mcoords (xkey x y) C i)).
Proof.
  destruct (cov_claim c g f lw Hon Hg Hf Hl x y C Hab HD HT1) as (a & Ea & Hs & He).
  destruct (cov_claim c' (rescaled u g) _ lw Hon' Hg' Hf' Hl' x y C Hab HD HT2) as (b & Eb & Hs' & He').
  exists a, b. do 4 (split; [assumption|]). intros i Hi. destruct (He i Hi) as [A1 A2]. destruct (He' i Hi) as [B1 B2].
  rewrite (prob_units g f lw) in B1, B2.
  destruct (marg_nonneg g _ C i Hi (prob_nonneg g f lw Hg Hf Hl)) as [Hp|Hz].
  - rewrite (A1 Hp). etransitivity; [exact (B1 Hp)|]. rewrite nmul_Fin. f_equal.
    rewrite <- (Covar_eq g (prob g f lw)) by assumption. rewrite <- (Covar_eq (rescaled u g) (prob g f lw)) by assumption.
    apply Covar_units; assumption.
  - symmetry in Hz. rewrite (A2 Hz). exact (B2 Hz).
Qed.
Lemma units_corr : exists a b, get_correlation (base_obj c) (dname (union (cvar x) (cvar y)) C) lw = Ok a /\
    get_correlation (base_obj c') (dname (union (cvar x) (cvar y)) C) lw = Ok b /\ shp a = mdims (xkey x y) C g /\ shp b = mdims (xkey x y) C g /\
    forall i, in_grid g i -> ent b (mcoords (xkey x y) C i) = ent a (mcoords (xkey x y) C i).
Proof.
  destruct (corr_claim c g f lw Hon Hg Hf Hl x y C Hab HD HT1) as (a & Ea & Hs & He).
  destruct (corr_claim c' (rescaled u g) _ lw Hon' Hg' Hf' Hl' x y C Hab HD HT2) as (b & Eb & Hs' & He').
  exists a, b. do 4 (split; [assumption|]). intros i Hi. destruct (He i Hi) as (A1 & A2 & A3). destruct (He' i Hi) as (B1 & B2 & B3).
  rewrite (prob_units g f lw) in B1, B2, B3.
  destruct (marg_nonneg g _ C i Hi (prob_nonneg g f lw Hg Hf Hl)) as [Hp|Hz].
  - rewrite !Variance_units in B1, B2 by assumption. rewrite Covar_units in B1 by assumption.
    pose proof (Variance_nonneg g (prob g f lw) (prob_nonneg g f lw Hg Hf Hl) x C i Hi Hp) as [Vx|Vx].
    + pose proof (Variance_nonneg g (prob g f lw) (prob_nonneg g f lw Hg Hf Hl) y C i Hi Hp) as [Vy|Vy].
      * destruct (A1 Hp Vx Vy) as (r & Er & _ & Rr).
        destruct (B1 Hp) as (r' & Er' & _ & Rr'); [apply Rmult_lt_0_compat; [apply pow_lt, Hu|assumption]..|].
        etransitivity; [exact Er'|]. rewrite Er. f_equal. rewrite Rr, Rr'.
        rewrite (sqrt_mult (us u x ^ 2 * _) (us u y ^ 2 * _)), !sqrt_units, sqrt_mult; try (apply Rmult_le_pos; [apply pow2_ge_0|]); try lra.
        field. repeat split; try apply us0; apply Rgt_not_eq, sqrt_lt_R0; assumption.
      * rewrite A2 by (try assumption; rewrite <- Vy; ring). apply B2; [exact Hp|]. rewrite <- Vy. ring.
    + rewrite A2 by (try assumption; rewrite <- Vx; ring). apply B2; [exact Hp|]. rewrite <- Vx. ring.
  - symmetry in Hz. rewrite (A3 Hz). exact (B3 Hz).
Qed.
End Two.
End Mom.
End Base.
End Units.
