(** * LRatio: L-skewness and L-kurtosis. *)
From Coq Require Import Reals Lra Lia List Bool Arith ZArith String Psatz FunctionalExtensionality.
From Verif Require Import Num NumLemmas Arr ArrLemmas PyStr Cube Base Ssps Spec SpecLemmas Repr CubeLemmas CubeGeom
  BaseLemmas CondLemmas DistLemmas Moments MomArr MomSpec MomLemmas MomLemmas2 MomLemmas3 MomLemmas5 LMom MomClaims FourierLemmas
  GaussSpec GaussLemmas NormalL NormalLSpec QuantLemmas NormalLLemmas NormalLClaims
  Parametric ParSpec ParRepr ParLemmas ParDist ParClaims ParMoments ParMomSpec ParMomOther ParStat StatGen
  Mixture MixSpec MixGen MixLemmas MixCond MixMom MixExample MixParSpec MixParLemmas MixParClaims MixStat MixStatSpec MixStatLemmas MixStatClaims
  CoordUnitsSpec CoordUnits LRatioSpec.
Import ListNotations.
Local Open Scope R_scope.

(** the mean of F (1 - F) for F between u and v *)
Definition between (u v : R) : R := (u + v) / 2 - (u * u + u * v + v * v) / 3.
Lemma between_simpson u v : between u v = (u * (1 - u) + 4 * ((u + v) / 2 * (1 - (u + v) / 2)) + v * (1 - v)) / 6.
Proof. unfold between. field. Qed.
Lemma between_nonneg u v : 0 <= u <= v -> v <= 1 -> 0 <= between u v.
Proof. intros H1 H2. rewrite between_simpson. assert (0 <= u * (1 - u)) by nra. assert (0 <= v * (1 - v)) by nra. assert (0 <= (u + v) / 2 * (1 - (u + v) / 2)) by nra. lra. Qed.
Lemma between_pos u v : 0 <= u -> u < v -> v <= 1 -> 0 < between u v.
Proof.
  intros H1 H2 H3. rewrite between_simpson. assert (0 <= u * (1 - u)) by nra. assert (0 <= v * (1 - v)) by nra.
  assert (0 < (u + v) / 2 * (1 - (u + v) / 2)) by (apply Rmult_lt_0_compat; lra). lra.
Qed.

Lemma widk g (Hg : good_grid g) k (Hk : is_x k = false) n : (n < cn g k)%nat -> 0 < wid (cedge g k) n.
Proof.
  intros Hn. unfold wid. pose proof (gg_tE _ Hg n). pose proof (gg_vE _ Hg n). pose proof (gg_zE _ Hg n).
  destruct k; try discriminate Hk; cbn in *; intuition lra.
Qed.

(** ** the fourth order *)
Lemma poly4_int a b c0 c1 c2 c3 c4 : a <= b ->
  integral (fun w => c0 + c1 * w + c2 * w ^ 2 + c3 * w ^ 3 + c4 * w ^ 4) a b
    (c0 * (b - a) + c1 * (b ^ 2 - a ^ 2) / 2 + c2 * (b ^ 3 - a ^ 3) / 3 + c3 * (b ^ 4 - a ^ 4) / 4 + c4 * (b ^ 5 - a ^ 5) / 5).
Proof.
  intros H. set (F := fun w => c0 * w + c1 / 2 * w ^ 2 + c2 / 3 * w ^ 3 + c3 / 4 * w ^ 4 + c4 / 5 * w ^ 5).
  replace (c0 * (b - a) + c1 * (b ^ 2 - a ^ 2) / 2 + c2 * (b ^ 3 - a ^ 3) / 3 + c3 * (b ^ 4 - a ^ 4) / 4 + c4 * (b ^ 5 - a ^ 5) / 5) with (F b - F a)
    by (unfold F; field).
  apply integral_derive; [assumption| |].
  - intros x. unfold F.
    replace (c0 + c1 * x + c2 * x ^ 2 + c3 * x ^ 3 + c4 * x ^ 4) with
      (c0 * 1 + c1 / 2 * (INR 2 * x ^ pred 2) + c2 / 3 * (INR 3 * x ^ pred 3) + c3 / 4 * (INR 4 * x ^ pred 4) + c4 / 5 * (INR 5 * x ^ pred 5)) by (cbn; field).
    apply (derivable_pt_lim_plus (fun w => c0 * w + c1 / 2 * w ^ 2 + c2 / 3 * w ^ 3 + c3 / 4 * w ^ 4) (fun w => c4 / 5 * w ^ 5)).
    + apply (derivable_pt_lim_plus (fun w => c0 * w + c1 / 2 * w ^ 2 + c2 / 3 * w ^ 3) (fun w => c3 / 4 * w ^ 4)).
      * apply (derivable_pt_lim_plus (fun w => c0 * w + c1 / 2 * w ^ 2) (fun w => c2 / 3 * w ^ 3)).
        -- apply (derivable_pt_lim_plus (fun w => c0 * w) (fun w => c1 / 2 * w ^ 2)).
           ++ apply (derivable_pt_lim_scal id c0 x 1), derivable_pt_lim_id.
           ++ apply (derivable_pt_lim_scal (fun w => w ^ 2)), derivable_pt_lim_pow.
        -- apply (derivable_pt_lim_scal (fun w => w ^ 3)), derivable_pt_lim_pow.
      * apply (derivable_pt_lim_scal (fun w => w ^ 4)), derivable_pt_lim_pow.
    + apply (derivable_pt_lim_scal (fun w => w ^ 5)), derivable_pt_lim_pow.
  - intros x. apply derivable_continuous_pt.
    apply (derivable_pt_plus (fun w => c0 + c1 * w + c2 * w ^ 2 + c3 * w ^ 3) (fun w => c4 * w ^ 4)).
    + apply (derivable_pt_plus (fun w => c0 + c1 * w + c2 * w ^ 2) (fun w => c3 * w ^ 3)).
      * apply (derivable_pt_plus (fun w => c0 + c1 * w) (fun w => c2 * w ^ 2)).
        -- apply (derivable_pt_plus (fun w => c0) (fun w => c1 * w)); [apply derivable_pt_const|].
           apply (derivable_pt_scal id), derivable_pt_id.
        -- apply (derivable_pt_scal (fun w => w ^ 2)), derivable_pt_pow.
      * apply (derivable_pt_scal (fun w => w ^ 3)), derivable_pt_pow.
    + apply (derivable_pt_scal (fun w => w ^ 4)), derivable_pt_pow.
Qed.
Lemma trap_bias4 a b u v : u <= v ->
  exists I, integral (fun w => line a b u v w * lweight 4 w) u v I /\
    (a * lweight 4 u + b * lweight 4 v) / 2 * (v - u) =
    I + (let h := (u + v) / 2 in (v - u) ^ 2 * (b - a) * (10 * h ^ 2 - 10 * h + 2) + (v - u) ^ 3 * ((a + b) / 2) * (10 * h - 5) + (v - u) ^ 4 * (b - a)).
Proof.
  intros Huv. set (s := (b - a) / (v - u)). set (A := a - u * s).
  assert (S0 : u = v \/ (s * (v - u) = b - a)).
  { destruct (Req_dec u v); [left; assumption|right]. unfold s. field. lra. }
  cbn [lweight]. eexists; split.
  - eapply integral_ext; [|apply (poly4_int u v (- A) (12 * A - s) (12 * s - 30 * A) (20 * A - 30 * s) (20 * s) Huv)].
    intros w. unfold line. fold s. unfold A. ring.
  - unfold A. cbv zeta. destruct S0 as [->|S0]; [field|]. replace b with (a + s * (v - u)) by lra. field.
Qed.

Section Obj.
Context (o : obj) (g : grid) (P : joint) (lw : bool).
Context (Hc : cube_on (o_cube o) g) (Hg : good_grid g) (HP : nonneg g P).
Context (k : coord) (C : vset).
Context (Hk : is_x k = false) (HD : disjoint (cvar k) C = true) (HG : gives o g P lw (cvar k) C).
Let p i := bin_prob g P k C i.
Let w := wid (cedge g k).
Let c := mid (cedge g k).
Let F i := cdf g P k C i.

Lemma Ltrap4 i : in_grid g i -> 0 < marg g P C i ->
  exists M, is_l_moment g P k C i 4 M /\ Ltrap g P k C 3 i = M + over4 (cn g k) (p i) w c (F i).
Proof.
  intros Hi Hm. set (e := cedge g k).
  destruct (choice_below (cn g k) (fun n x => integral (fun t => line (e n) (e (S n)) (F i n) (F i (S n)) t * lweight 4 t) (F i n) (F i (S n)) x /\
    (e n * lweight 4 (F i n) + e (S n) * lweight 4 (F i (S n))) / 2 * (F i (S n) - F i n) = x +
    (let h := (F i n + F i (S n)) / 2 in (F i (S n) - F i n) ^ 2 * (e (S n) - e n) * (10 * h ^ 2 - 10 * h + 2) +
       (F i (S n) - F i n) ^ 3 * ((e n + e (S n)) / 2) * (10 * h - 5) + (F i (S n) - F i n) ^ 4 * (e (S n) - e n)))) as (I & HI).
  { intros n Hn. apply trap_bias4. apply (cdf_step g P HP k C i n Hi Hm Hn). }
  exists (Sum (cn g k) I). split.
  - exists I. split; [intros n Hn; apply (HI n Hn)|reflexivity].
  - unfold Ltrap, trap, over4. cbv zeta. rewrite <- Sum_plus. apply Sum_ext. intros n Hn. fold (F i) e. rewrite !(legendre_weight 4) by lia.
    rewrite (proj2 (HI n Hn)). cbv zeta. f_equal. unfold w, c, wid, mid, p. fold e.
    replace (bin_prob g P k C i n) with (F i (S n) - F i n) by (unfold F; rewrite cdf_bin; ring). reflexivity.
Qed.
Lemma Ltrap3 i : in_grid g i -> 0 < marg g P C i ->
  exists M, is_l_moment g P k C i 3 M /\ Ltrap g P k C 2 i = M + over3 (cn g k) (p i) w c (F i).
Proof.
  intros Hi Hm. destruct (Ltrap_true g P HP k C 3 i ltac:(lia) Hi Hm) as (M & HM & E). exists M. split; [exact HM|]. cbn [Nat.sub] in E. rewrite E. f_equal.
  apply Sum_ext. intros n Hn. cbn [bias]. unfold w, c, wid, mid, p.
  replace (bin_prob g P k C i n) with (F i (S n) - F i n) by (unfold F; rewrite cdf_bin; ring). unfold F. field.
Qed.
Lemma Ltrap2 i : in_grid g i -> 0 < marg g P C i ->
  exists M, is_l_moment g P k C i 2 M /\ Ldisp g P k C i = M + over2 (cn g k) (p i) w /\ 0 < M /\ 0 < over2 (cn g k) (p i) w.
Proof.
  intros Hi Hm. destruct (Ltrap_true g P HP k C 2 i ltac:(lia) Hi Hm) as (M & HM & E). cbn [Nat.sub] in E. rewrite (Ltrap_disp g P k C Hk HD i Hm) in E.
  assert (E2 : Sum (cn g k) (fun n => bias 2 (cedge g k n) (cedge g k (S n)) (cdf g P k C i n) (cdf g P k C i (S n))) = over2 (cn g k) (p i) w).
  { apply Sum_ext. intros n Hn. cbn [bias]. unfold w, wid, p.
    replace (bin_prob g P k C i n) with (F i (S n) - F i n) by (unfold F; rewrite cdf_bin; ring). unfold F. field. }
  rewrite E2 in E. destruct (some_bin g P HP k C Hk HD i Hi Hm) as (n & Hn & Hp).
  assert (PO : 0 < over2 (cn g k) (p i) w).
  { apply (Sum_pos (cn g k) _ n Hn).
    - intros j Hj. pose proof (widk g Hg k Hk j Hj). assert (0 <= p i j ^ 2) by apply pow2_ge_0. unfold w. nra.
    - pose proof (widk g Hg k Hk n Hn). assert (0 < p i n ^ 2) by (apply pow_lt; exact Hp). cbv beta. unfold w.
      apply Rdiv_lt_0_compat; [|lra]. apply Rmult_lt_0_compat; assumption. }
  exists M. do 2 (split; [assumption|]). split; [|exact PO].
  (* Ldisp is the sum of w F (1 - F) over pairs; the true one takes off at most a third of it *)
  replace M with (Ldisp g P k C i - over2 (cn g k) (p i) w) by lra. unfold Ldisp, over2. 
  assert (B : forall m, (m < cn g k)%nat -> 0 <= cdf g P k C i m <= cdf g P k C i (S m) /\ cdf g P k C i (S m) <= 1).
  { intros m Hmn. pose proof (cdf_nonneg g P HP k C i m Hi Hm ltac:(lia)) as F0. pose proof (cdf_step g P HP k C i m Hi Hm Hmn) as F1.
    pose proof (cdf_le1 g P HP k C Hk HD i (cn g k - S m) Hi Hm ltac:(lia)) as F2. replace (cn g k - (cn g k - S m))%nat with (S m) in F2 by lia. lra. }
  assert (ET : forall m, w m * ((cdf g P k C i m + cdf g P k C i (S m)) / 2 - cdf g P k C i m * cdf g P k C i (S m)) + - (w m * p i m ^ 2 / 3) =
    w m * between (cdf g P k C i m) (cdf g P k C i (S m))).
  { intros m. unfold p, between. rewrite cdf_bin. field. }
  replace (Sum _ _ - Sum _ _) with (Sum (cn g k) (fun m => w m * between (cdf g P k C i m) (cdf g P k C i (S m)))).
  - apply (Sum_pos (cn g k) _ n Hn).
    + intros m Hmn. pose proof (widk g Hg k Hk m Hmn). apply Rmult_le_pos; [unfold w; lra|]. apply between_nonneg; apply B; exact Hmn.
    + pose proof (widk g Hg k Hk n Hn). apply Rmult_lt_0_compat; [assumption|]. pose proof (B n Hn). pose proof (cdf_bin g P k C i n).
      apply between_pos; lra.
  - rewrite (Sum_ext _ _ (fun m => w m * ((cdf g P k C i m + cdf g P k C i (S m)) / 2 - cdf g P k C i m * cdf g P k C i (S m)) + (-1) * (w m * p i m ^ 2 / 3))).
    + rewrite Sum_plus, Sum_scal. unfold w. ring.
    + intros m _. rewrite <- ET. ring.
Qed.

Lemma ratios_ok q : normal_quantile q ->
  exists r d s u x, get_normalised_l_moment_normal q 4 = Ok (Fin r) /\ get_l_dispersion o (dname (cvar k) C) lw = Ok d /\
    get_l_skewness o (dname (cvar k) C) lw = Ok s /\ get_l_kurtosis o (dname (cvar k) C) lw = Ok u /\
    get_excess_l_kurtosis q o (dname (cvar k) C) lw = Ok x /\
    shp d = dims C g /\ shp s = dims C g /\ shp u = dims C g /\ shp x = dims C g /\
    forall i, in_grid g i ->
      (0 < marg g P C i -> l_ratios_at g P k C i r (ent d (coords C i)) (ent s (coords C i)) (ent u (coords C i)) (ent x (coords C i))) /\
      (marg g P C i = 0 -> ent d (coords C i) = NaN /\ ent s (coords C i) = NaN /\ ent u (coords C i) = NaN /\ ent x (coords C i) = NaN).
Proof.
  intros Hq. destruct (l_moment_ok o g P lw Hc Hg k C Hk HD HG 1) as (d & Ed & Sd & Hd).
  destruct (normalised_ok o g P lw Hc Hg HP k C Hk HD HG 2) as (s & Es & Ss & Hs).
  destruct (excess_ok o g P lw Hc Hg HP k C Hk HD HG q 3 Hq) as (r & u & x & Er & _ & _ & Eu & Ex & Su & Sx & Hx).
  destruct (normalised_ok o g P lw Hc Hg HP k C Hk HD HG 3) as (u' & Eu' & _ & Hu). rewrite Eu in Eu'. injection Eu' as <-.
  exists r, d, s, u, x. do 9 (split; [assumption|]). intros i Hi.
  destruct (Hd i Hi) as [D1 D2]. destruct (Hs i Hi) as [S1 S2]. destruct (Hu i Hi) as [U1 U2]. destruct (Hx i Hi) as [X1 X2]. split; intros Hm.
  - destruct (Ltrap2 i Hi Hm) as (M2 & I2 & E2 & P2 & O2). destruct (Ltrap3 i Hi Hm) as (M3 & I3 & E3). destruct (Ltrap4 i Hi Hm) as (M4 & I4 & E4).
    destruct (X1 Hm) as (y & Y1 & Y2 & _). rewrite (U1 Hm) in Y1. injection Y1 as <-. rewrite E2, E4 in Y2.
    exists M2, M3, M4. cbv zeta. do 5 (split; [assumption|]).
    split; [rewrite (D1 Hm), (Ltrap_disp g P k C Hk HD i Hm), E2; reflexivity|].
    split; [rewrite (S1 Hm), E2, E3; reflexivity|]. split; [rewrite (U1 Hm), E2, E4; reflexivity|exact Y2].
  - destruct (X2 Hm) as [Y1 Y2]. auto.
Qed.
End Obj.

(** ** the classes of objects *)
Definition base_ratios self g f lw (H : comp_on self g f) (Hg : good_grid g) (Hf : nonneg g f) (Hl : lw_ok g f lw) k C
    (HD : disjoint (cvar k) C = true) (HT : nonempty C = false -> total g (prob g f lw) = 1) (Hk : is_x k = false) :=
  ratios_ok (base_obj self) g (prob g f lw) lw (cm_cube _ _ _ H) Hg (prob_nonneg g f lw Hg Hf Hl) k C Hk HD
    (base_gives self g f lw (cvar k) C H Hg Hf Hl (cvar_nonempty k) HD HT).
Definition par_ratios L self g m q lw (H : par_on L self g m) (Hg : good_grid g) (Hm : good_par g m) k C (Hk : k <> Cv)
    (HD : disjoint (cvar k) C = true) (Hl : par_lw_ok g m lw (has_v C)) (HT : nonempty C = false -> total g (par_joint g m lw (has_v C)) = 1)
    (Hh : no_holes g m lw (cvar k) C) (Hx : is_x k = false) :=
  ratios_ok (par_obj L q self) g (par_joint g m lw (has_v C)) lw (po_cube _ _ _ _ H) Hg (joint_nonneg g m lw Hg Hm (has_v C) Hl) k C Hx HD
    (par_gives L self g m q lw H Hg Hm (cvar k) C (not_v k Hk) (cvar_nonempty k) HD Hl HT Hh).
Definition mixb_ratios self g comps l lw C (H : mix_on self g comps l) (Hg : good_grid g)
    (Hm : forall q, (q < List.length l)%nat -> lw_ok g (pf l q) lw)
    (HT : nonempty C = false -> lw = false -> sumR (map snd l) = 1 /\ forall q, (q < List.length l)%nat -> total g (mass g (pf l q)) = 1)
    k (HD : disjoint (cvar k) C = true) (Hk : is_x k = false) :=
  ratios_ok (mix_obj self) g (prob g (mixf l) lw) lw (mo_cube _ _ _ _ H) Hg (base_nonneg self g comps l lw H Hg Hm) k C Hk HD
    (base_mix_gives self g comps l lw C H Hg Hm HT (cvar k) (cvar_nonempty k) HD).
Definition mixp_ratios self g l lw C (H : mixed_on self g l) (Hg : good_grid g)
    (Hm : forall q, (q < List.length l)%nat -> lit_ok g (kmass g (kk l q) (has_v C)) lw)
    (HN : nonempty C = false -> lw = false -> k_normal g l)
    k (HD : disjoint (cvar k) C = true) (Hv : k <> Cv) (Hk : is_x k = false) :=
  ratios_ok (mix_obj self) g (weighted g lw (kmix g l (has_v C))) lw (mp_cube _ _ _ H) Hg (mixed_nonneg self g l lw C H Hg Hm) k C Hk HD
    (mixed_mix_gives self g l lw C H Hg Hm HN (cvar k) (cvar_nonempty k) HD (not_v k Hv)).

(** ** other units and origins *)
Section Units.
Context (u : units) (Hu : positive_units u) (g : grid) (P : joint) (k : coord) (C : vset) (i : bin).
Context (Hk : is_x k = false) (HD : disjoint (cvar k) C = true) (Hm : 0 < marg g P C i).
Let F := cdf g P k C i.
Let p := bin_prob g P k C i.
Let Fp n : p n = F (S n) - F n.
Proof. unfold p, F. rewrite cdf_bin. ring. Qed.
Let F1 : F (cn g k) = 1.
Proof. apply cdf_n; assumption. Qed.
Definition ones (j : nat) : R := Sum (cn g k) (fun n => (legendre j (2 * F n - 1) + legendre j (2 * F (S n) - 1)) / 2 * (F (S n) - F n)).
Lemma Ltrap_units j : Ltrap (rescaled u g) P k C j i = us u k * Ltrap g P k C j i + uo u k * ones j.
Proof.
  unfold Ltrap, trap, ones. cbv zeta. replace (cn (rescaled u g) k) with (cn g k) by (destruct k; reflexivity).
  rewrite <- !Sum_scal, <- Sum_plus. apply Sum_ext. intros n Hn. rewrite !cdf_units. fold F.
  replace (cedge (rescaled u g) k n) with (uo u k + us u k * cedge g k n) by (destruct k; reflexivity).
  replace (cedge (rescaled u g) k (S n)) with (uo u k + us u k * cedge g k (S n)) by (destruct k; reflexivity). field.
Qed.
Lemma ones_2 : ones 2 = drift3 (cn g k) p.
Proof.
  set (G := fun n => 2 * F n ^ 3 - 3 * F n ^ 2 + F n).
  transitivity (Sum (cn g k) (fun n => p n ^ 3 + (G (S n) - G n))).
  - apply Sum_ext. intros n Hn. rewrite Fp, !(legendre_weight 3) by lia. cbn [lweight]. unfold G. field.
  - rewrite Sum_plus, Sum_telescope. unfold G. rewrite F1. assert (F0 : F 0%nat = 0) by reflexivity. rewrite F0. unfold drift3. ring.
Qed.
Lemma ones_3 : ones 3 = drift4 (cn g k) p F.
Proof.
  set (G := fun n => 5 * F n ^ 4 - 10 * F n ^ 3 + 6 * F n ^ 2 - F n).
  transitivity (Sum (cn g k) (fun n => p n ^ 3 * (5 * F n + 5 * F (S n) - 5) + (G (S n) - G n))).
  - apply Sum_ext. intros n Hn. rewrite Fp, !(legendre_weight 4) by lia. cbn [lweight]. unfold G. field.
  - rewrite Sum_plus, Sum_telescope. unfold G. rewrite F1. assert (F0 : F 0%nat = 0) by reflexivity. rewrite F0. unfold drift4. ring.
Qed.
End Units.

Lemma units_ratios u : positive_units u -> forall c c' g f, comp_on c g f -> comp_on c' (rescaled u g) (per_unit u f) -> good_grid g -> nonneg g f ->
  forall C lw, lw_ok g f lw -> (nonempty C = false -> total g (prob g f lw) = 1) -> forall k, disjoint (cvar k) C = true -> is_x k = false ->
  exists d s s' v v', get_l_dispersion (base_obj c) (dname (cvar k) C) lw = Ok d /\
    get_l_skewness (base_obj c) (dname (cvar k) C) lw = Ok s /\ get_l_skewness (base_obj c') (dname (cvar k) C) lw = Ok s' /\
    get_l_kurtosis (base_obj c) (dname (cvar k) C) lw = Ok v /\ get_l_kurtosis (base_obj c') (dname (cvar k) C) lw = Ok v' /\
    shp d = dims C g /\ shp s = dims C g /\ shp s' = dims C g /\ shp v = dims C g /\ shp v' = dims C g /\
    forall i, in_grid g i -> 0 < marg g (prob g f lw) C i ->
      let p := bin_prob g (prob g f lw) k C i in let F := cdf g (prob g f lw) k C i in
      exists L2 S3 K4, 0 < L2 /\ ent d (coords C i) = Fin L2 /\
        ent s (coords C i) = Fin S3 /\ ent s' (coords C i) = Fin (S3 + uo u k / us u k * (drift3 (cn g k) p / L2)) /\
        ent v (coords C i) = Fin K4 /\ ent v' (coords C i) = Fin (K4 + uo u k / us u k * (drift4 (cn g k) p F / L2)).
Proof.
  intros Hu c c' g f H H' Hg Hf C lw Hl HT k HD Hk. set (P := prob g f lw) in *.
  pose proof (units_good u Hu g Hg) as Hg'. pose proof (nonneg_units u Hu g f Hf) as Hf'. pose proof (lw_ok_units u Hu g f lw Hl) as Hl'.
  pose proof (prob_units u Hu g f lw) as EP. fold P in EP.
  assert (HT' : nonempty C = false -> total (rescaled u g) (prob (rescaled u g) (per_unit u f) lw) = 1) by (rewrite EP; exact HT).
  pose proof (base_gives c g f lw (cvar k) C H Hg Hf Hl (cvar_nonempty k) HD HT) as HG. fold P in HG.
  pose proof (base_gives c' _ _ lw (cvar k) C H' Hg' Hf' Hl' (cvar_nonempty k) HD HT') as HG'. rewrite EP in HG'.
  pose proof (prob_nonneg g f lw Hg Hf Hl) as HP. fold P in HP.
  assert (HP' : nonneg (rescaled u g) P) by exact HP.
  pose proof (cm_cube _ _ _ H) as Hc. pose proof (cm_cube _ _ _ H') as Hc'.
  destruct (l_moment_ok (base_obj c) g P lw Hc Hg k C Hk HD HG 1) as (d & Ed & Sd & Hd).
  destruct (normalised_ok (base_obj c) g P lw Hc Hg HP k C Hk HD HG 2) as (s & Es & Ss & Hs).
  destruct (normalised_ok (base_obj c') _ P lw Hc' Hg' HP' k C Hk HD HG' 2) as (s' & Es' & Ss' & Hs').
  destruct (normalised_ok (base_obj c) g P lw Hc Hg HP k C Hk HD HG 3) as (v & Ev & Sv & Hv).
  destruct (normalised_ok (base_obj c') _ P lw Hc' Hg' HP' k C Hk HD HG' 3) as (v' & Ev' & Sv' & Hv').
  exists d, s, s', v, v'. do 10 (split; [assumption|]). intros i Hi Hm p F.
  destruct (Hd i Hi) as [D _]. destruct (Hs i Hi) as [S1 _]. destruct (Hs' i Hi) as [S2 _]. destruct (Hv i Hi) as [V1 _]. destruct (Hv' i Hi) as [V2 _].
  assert (Hm' : 0 < marg (rescaled u g) P C i) by exact Hm.
  specialize (S2 Hm'). specialize (V2 Hm'). rewrite Ltrap_units, (Ldisp_units u g P C k i) in S2, V2 by assumption.
  rewrite ones_2 in S2 by assumption. rewrite ones_3 in V2 by assumption.
  pose proof (Ldisp_pos (base_obj c) g P lw Hg HP k C Hk HD HG i Hi Hm) as L0. pose proof (Hu k) as U0.
  exists (Ldisp g P k C i), (Ltrap g P k C 2 i / Ldisp g P k C i), (Ltrap g P k C 3 i / Ldisp g P k C i).
  split; [exact L0|]. split; [rewrite (D Hm), (Ltrap_disp g P k C Hk HD i Hm); reflexivity|].
  split; [exact (S1 Hm)|]. split; [etransitivity; [exact S2|]; f_equal; unfold p; field; lra|].
  split; [exact (V1 Hm)|]. etransitivity; [exact V2|]. f_equal. unfold p, F. field; lra.
Qed.

(** ** all probability in one bin *)
Lemma one_bin_ratios self g f lw : comp_on self g f -> good_grid g -> nonneg g f -> lw_ok g f lw ->
  forall k C, disjoint (cvar k) C = true -> (nonempty C = false -> total g (prob g f lw) = 1) -> is_x k = false ->
  exists s v, get_l_skewness (base_obj self) (dname (cvar k) C) lw = Ok s /\ get_l_kurtosis (base_obj self) (dname (cvar k) C) lw = Ok v /\
    forall i n, in_grid g i -> 0 < marg g (prob g f lw) C i -> (n < cn g k)%nat -> bin_prob g (prob g f lw) k C i n = 1 ->
      ent s (coords C i) = Fin (2 * mid (cedge g k) n / wid (cedge g k) n) /\ ent v (coords C i) = Fin 1 /\
      is_l_moment g (prob g f lw) k C i 3 0 /\ is_l_moment g (prob g f lw) k C i 4 0.
Proof.
  intros H Hg Hf Hl k C HD HT Hk. set (P := prob g f lw) in *.
  pose proof (base_gives self g f lw (cvar k) C H Hg Hf Hl (cvar_nonempty k) HD HT) as HG. fold P in HG.
  pose proof (prob_nonneg g f lw Hg Hf Hl) as HP. fold P in HP. pose proof (cm_cube _ _ _ H) as Hc.
  destruct (normalised_ok (base_obj self) g P lw Hc Hg HP k C Hk HD HG 2) as (s & Es & _ & Hs).
  destruct (normalised_ok (base_obj self) g P lw Hc Hg HP k C Hk HD HG 3) as (v & Ev & _ & Hv).
  exists s, v. do 2 (split; [assumption|]). intros i n Hi Hm Hn Hp.
  set (F := cdf g P k C i). set (e := cedge g k).
  assert (B : forall m, (m <= cn g k)%nat -> 0 <= F m <= 1).
  { intros m Hmn. pose proof (cdf_nonneg g P HP k C i m Hi Hm Hmn) as F0.
    pose proof (cdf_le1 g P HP k C Hk HD i (cn g k - m) Hi Hm ltac:(lia)) as F2. replace (cn g k - (cn g k - m))%nat with m in F2 by lia. fold F in F0, F2. lra. }
  assert (St : forall m, (m < cn g k)%nat -> F m <= F (S m)) by (intros m Hmn; apply (cdf_step g P HP k C i m Hi Hm Hmn)).
  assert (En : F (S n) = F n + 1) by (unfold F; rewrite cdf_bin, Hp; reflexivity).
  assert (N0 : F n = 0) by (pose proof (B n ltac:(lia)); pose proof (B (S n) ltac:(lia)); lra).
  assert (N1 : F (S n) = 1) by lra.
  assert (Low : forall m, (m <= n)%nat -> F m = 0).
  { intros m Hmn. assert (W : forall a, (a <= n)%nat -> F (n - a)%nat = 0).
    { induction a as [|a IH]; intros Ha; [rewrite Nat.sub_0_r; exact N0|]. specialize (IH ltac:(lia)).
      pose proof (St (n - S a)%nat ltac:(lia)) as SS. replace (S (n - S a)) with (n - a)%nat in SS by lia. pose proof (B (n - S a)%nat ltac:(lia)). lra. }
    specialize (W (n - m)%nat ltac:(lia)). replace (n - (n - m))%nat with m in W by lia. exact W. }
  assert (High : forall a, (S n + a <= cn g k)%nat -> F (S n + a)%nat = 1).
  { induction a as [|a IH]; intros Ha; [rewrite Nat.add_0_r; exact N1|]. specialize (IH ltac:(lia)).
    pose proof (St (S n + a)%nat ltac:(lia)) as SS. replace (S (S n + a)) with (S n + S a)%nat in SS by lia. pose proof (B (S n + S a)%nat ltac:(lia)). lra. }
  assert (Flat : forall m, (m < cn g k)%nat -> m <> n -> F (S m) - F m = 0).
  { intros m Hmn Hne. destruct (Nat.lt_ge_cases m n) as [Hl1|Hl1]; [rewrite !Low by lia; ring|].
    pose proof (High (m - S n)%nat ltac:(lia)) as A1. pose proof (High (S m - S n)%nat ltac:(lia)) as A2.
    replace (S n + (m - S n))%nat with m in A1 by lia. replace (S n + (S m - S n))%nat with (S m) in A2 by lia. lra. }
  assert (T : forall j, Ltrap g P k C j i = (e n * legendre j (2 * 0 - 1) + e (S n) * legendre j (2 * 1 - 1)) / 2 * (1 - 0)).
  { intros j. unfold Ltrap, trap. cbv zeta. fold F e.
    etransitivity; [apply (Sum_single (cn g k) _ n Hn)|].
    - intros m Hmn Hne. rewrite (Flat m Hmn Hne). ring.
    - cbv beta. rewrite N0, N1. reflexivity. }
  pose proof (widk g Hg k Hk n Hn) as W0. unfold wid in W0. fold e in W0.
  assert (LD : Ldisp g P k C i = (e (S n) - e n) / 2).
  { rewrite <- (Ltrap_disp g P k C Hk HD i Hm), T. rewrite !(legendre_weight 2) by lia. cbn [lweight]. field. }
  destruct (Hs i Hi) as [S1 _]. destruct (Hv i Hi) as [V1 _].
  split; [rewrite (S1 Hm), LD, T, !(legendre_weight 3) by lia; cbn [lweight]; f_equal; unfold mid, wid; fold e; field; lra|].
  split; [rewrite (V1 Hm), LD, T, !(legendre_weight 4) by lia; cbn [lweight]; f_equal; field; lra|].
  assert (O2 : forall m, (m < cn g k)%nat -> m <> n -> bin_prob g P k C i m = 0).
  { intros m Hmn Hne. pose proof (Flat m Hmn Hne) as FF. unfold F in FF. rewrite cdf_bin in FF. lra. }
  split.
  - destruct (Ltrap3 g P HP k C i Hi Hm) as (M & IM & E). replace 0 with M; [exact IM|].
    rewrite T, !(legendre_weight 3) in E by lia. cbn [lweight] in E. unfold over3 in E.
    rewrite (Sum_single (cn g k) _ n Hn) in E by (intros m Hmn Hne; rewrite (O2 m Hmn Hne); ring).
    rewrite Hp in E. fold F in E. rewrite N0, N1 in E. unfold mid, wid in E. fold e in E. lra.
  - destruct (Ltrap4 g P HP k C i Hi Hm) as (M & IM & E). replace 0 with M; [exact IM|].
    rewrite T, !(legendre_weight 4) in E by lia. cbn [lweight] in E. unfold over4 in E.
    rewrite (Sum_single (cn g k) _ n Hn) in E by (intros m Hmn Hne; cbv zeta; rewrite (O2 m Hmn Hne); ring).
    cbv zeta in E. rewrite Hp in E. fold F in E. rewrite N0, N1 in E. unfold mid, wid in E. fold e in E. nra.
Qed.
