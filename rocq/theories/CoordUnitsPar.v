(** * CoordUnitsPar: parametric components and mixtures in other units. *)
From Coq Require Import Reals Lra Lia List Bool Arith ZArith String Ascii FunctionalExtensionality.
From Verif Require Import Num NumLemmas Arr ArrLemmas PyStr Cube Base Spec SpecLemmas Repr DistLemmas Moments MomSpec MomArr MomLemmas MomClaims
  Parametric ParSpec ParRepr ParLemmas ParDist ParClaims ParMoments GaussSpec GaussLemmas ParMomSpec ParMomMath ParMomLemmas ParMomMeans ParMomClaims ParMomOther
  Mixture MixSpec MixGen MixLemmas MixCond MixMom MixExample MixParSpec MixParLemmas MixParClaims MixParExample MixRegroup
  Fft Ssps ParYbarSpec ParEval FourierSpec DatacubeSpec Datacube DatacubeClaims ParYbar ParEvalLemmas CoordUnitsSpec CoordUnits.
Import ListNotations.
Local Open Scope R_scope.

Section Units.
Context (u : units) (Hu : positive_units u).

(** ** parametric components *)
Lemma pgrid_units g b : pgrid (rescaled u g) b = rescaled u (pgrid g b).
Proof. destruct b; reflexivity. Qed.
Lemma txz_mass_units g m : txz_mass (rescaled u g) (par_in_units u m) = txz_mass g m.
Proof.
  do 4 (apply functional_extensionality; intros ?). unfold txz_mass. cbn [tE xE yE zE rescaled pm_t pm_x pm_z par_in_units].
  rewrite !wid_units. field. repeat split; apply us0; exact Hu.
Qed.
Lemma vbin_units g m : vbin (rescaled u g) (par_in_units u m) = vbin g m.
Proof.
  do 4 (apply functional_extensionality; intros ?). unfold vbin. cbn [vE rescaled pm_F pm_mu pm_sig par_in_units].
  assert (A : forall r t x y, (in_units u Cv r - in_units u Cv (pm_mu m t x y)) / (us u Cv * pm_sig m t x y) = (r - pm_mu m t x y) / pm_sig m t x y).
  { intros r a b e. unfold in_units, Rdiv. rewrite Rinv_mult.
    transitivity ((r - pm_mu m a b e) * / pm_sig m a b e * (us u Cv * / us u Cv)); [ring|]. rewrite Rinv_r by (apply us0; exact Hu). ring. }
  rewrite !A. reflexivity.
Qed.
Lemma pjoint_units g m b : pjoint (rescaled u g) (par_in_units u m) b = pjoint g m b.
Proof. unfold pjoint. rewrite txz_mass_units, vbin_units. reflexivity. Qed.
Lemma pprob_units g m lw b : pprob (rescaled u g) (par_in_units u m) lw b = pprob g m lw b.
Proof. unfold pprob. rewrite pjoint_units, pgrid_units. reflexivity. Qed.
Lemma par_prob_units g m lw S i : par_prob (rescaled u g) (par_in_units u m) lw S i = par_prob g m lw S i.
Proof. unfold par_prob. rewrite pprob_units, pgrid_units. reflexivity. Qed.
Lemma par_joint_units g m lw b : par_joint (rescaled u g) (par_in_units u m) lw b = par_joint g m lw b.
Proof. unfold par_joint. rewrite !pprob_units. reflexivity. Qed.
Lemma par_lw_ok_units g m lw b : par_lw_ok g m lw b -> par_lw_ok (rescaled u g) (par_in_units u m) lw b.
Proof. intros H E. rewrite pgrid_units, pjoint_units. exact (H E). Qed.
Lemma good_par_units g m : good_par g m -> good_par (rescaled u g) (par_in_units u m).
Proof.
  pose proof (Hu Ct) as U1. pose proof (Hu Cx1) as U2. pose proof (Hu Cx2) as U3. pose proof (Hu Cz) as U4. pose proof (Hu Cv) as U5.
  assert (U23 : 0 < us u Cx1 * us u Cx2) by (apply Rmult_lt_0_compat; assumption).
  intros [H1 H2 H3 H4 H5 H6 H7 H8]. constructor; cbn [pm_t pm_x pm_z pm_mu pm_sig pm_F par_in_units nt nx ny nz rescaled].
  - intros. apply Rmult_le_pos; [auto|left; apply Rinv_0_lt_compat; assumption].
  - intros. apply Rmult_le_pos; [auto|left; apply Rinv_0_lt_compat; assumption].
  - intros. apply Rmult_le_pos; [auto|left; apply Rinv_0_lt_compat; assumption].
  - intros t Ht. rewrite <- (H4 t Ht). apply Sum_ext. intros x Hx. apply Sum_ext. intros y Hy. cbn [xE yE rescaled]. rewrite !wid_units.
    field. split; apply us0; exact Hu.
  - intros t x y Ht Hx Hy. rewrite <- (H5 t x y Ht Hx Hy). apply Sum_ext. intros z Hz. cbn [zE rescaled]. rewrite wid_units.
    field. apply us0; exact Hu.
  - intros. apply Rmult_lt_0_compat; auto.
  - exact H7.
  - exact H8.
Qed.
Lemma over_rest_units g m lw C i G : over_rest (rescaled u g) (par_in_units u m) lw C i G = over_rest g m lw C i G.
Proof.
  unfold over_rest, weight.
  change (sum_over g (rest C) i (fun b => par_prob (rescaled u g) (par_in_units u m) lw (union (rest C) C) b / par_prob (rescaled u g) (par_in_units u m) lw C i *
      G (bt b) (bx b) (by_ b)) =
    sum_over g (rest C) i (fun b => par_prob g m lw (union (rest C) C) b / par_prob g m lw C i * G (bt b) (bx b) (by_ b))).
  f_equal. apply functional_extensionality. intros b. rewrite !par_prob_units. reflexivity.
Qed.
Lemma gmom_scal k d s j : gmom (k * d) (k * s) j = k ^ j * gmom d s j.
Proof.
  assert (H : gmom (k * d) (k * s) j = k ^ j * gmom d s j /\ gmom (k * d) (k * s) (S j) = k ^ S j * gmom d s (S j)); [|apply H].
  induction j as [|j [I1 I2]].
  - rewrite !gmom_0, !gmom_1. cbn. split; ring.
  - split; [exact I2|]. rewrite !(gmom_SS _ _ j), I1, I2. cbn [pow]. ring.
Qed.
Lemma gauss_units mu s c j M : 0 < s -> gauss_moment mu s c j M ->
  gauss_moment (in_units u Cv mu) (us u Cv * s) (in_units u Cv c) j (us u Cv ^ j * M).
Proof.
  intros Hs HM. rewrite (gauss_moment_unique mu s c j M (gmom (mu - c) s j) HM (gmom_ok mu s c Hs j)), <- gmom_scal.
  replace (us u Cv * (mu - c)) with (in_units u Cv mu - in_units u Cv c) by (unfold in_units; ring).
  apply gmom_ok. apply Rmult_lt_0_compat; [apply Hu|exact Hs].
Qed.
Lemma mixture_mean_units g m lw C i : good_grid g -> has_v C = false -> in_grid g i -> 0 < par_prob g m lw C i ->
  mixture_mean (rescaled u g) (par_in_units u m) lw C i = in_units u Cv (mixture_mean g m lw C i).
Proof.
  intros Hg Hv Hi Hp. unfold mixture_mean. rewrite over_rest_units. cbn [pm_mu par_in_units].
  rewrite (over_rest_ext g m lw C i _ (fun t x y => uo u Cv * 1 + us u Cv * pm_mu m t x y) Hi) by (intros; unfold in_units; ring).
  rewrite (over_rest_lin g m lw C i (uo u Cv) (us u Cv) (fun _ _ _ => 1) (pm_mu m)), over_rest_one by assumption. unfold in_units. ring.
Qed.
Lemma mixture_moment_units g m lw C i c j M : good_par g m -> in_grid g i -> mixture_moment g m lw C i c j M ->
  mixture_moment (rescaled u g) (par_in_units u m) lw C i (in_units u Cv c) j (us u Cv ^ j * M).
Proof.
  intros Hm Hi (G & HG & ->). exists (fun t x y => us u Cv ^ j * G t x y). split.
  - intros t x y Ht Hx Hy. cbn [pm_mu pm_sig par_in_units]. apply gauss_units; [apply (gp_sig _ _ Hm); assumption|]. apply HG; assumption.
  - rewrite over_rest_units.
    rewrite (over_rest_ext g m lw C i (fun t x y => us u Cv ^ j * G t x y) (fun t x y => us u Cv ^ j * G t x y + 0 * G t x y) Hi) by (intros; ring).
    rewrite over_rest_lin. ring.
Qed.
Section Par.
Context (L : stats_lib) (s s' : par) (g : grid) (m : par_model) (Hon : par_on L s g m) (Hon' : par_on L s' (rescaled u g) (par_in_units u m)).
Context (Hg : good_grid g) (Hm : good_par g m).
Let Hg' := units_good u Hu g Hg.
Let Hm' := good_par_units g m Hm.
Lemma units_par_marg S density lw : nonempty S = true -> par_lw_ok g m lw (has_v S) ->
  exists a b, par_get_p L s (name S) density lw = Ok a /\ par_get_p L s' (name S) density lw = Ok b /\ shp a = dims S g /\ shp b = dims S g /\
    forall i, in_grid g i -> ent b (coords S i) = per_volume u S density (ent a (coords S i)).
Proof.
  intros HS Hl. destruct (par_p_marg L s g m Hon Hg Hm S density lw HS Hl) as (a & Ea & Hs & He).
  destruct (par_p_marg L s' (rescaled u g) _ Hon' Hg' Hm' S density lw HS (par_lw_ok_units g m lw _ Hl)) as (b & Eb & Hs' & He').
  exists a, b. do 4 (split; [assumption|]). intros i Hi. rewrite (He i Hi). unfold pent. rewrite (per_volume_ok u Hu).
  etransitivity; [exact (He' i Hi)|]. unfold pent. rewrite par_prob_units. reflexivity.
Qed.
Lemma units_par_cond A C density lw : nonempty A = true -> nonempty C = true -> disjoint A C = true ->
  par_lw_ok g m lw (has_v (union A C)) -> par_lw_ok g m lw (has_v C) -> (lw = true -> cname A C <> "v_tx"%string) ->
  exists a b, par_get_p L s (cname A C) density lw = Ok a /\ par_get_p L s' (cname A C) density lw = Ok b /\
    shp a = (dims A g ++ dims C g)%list /\ shp b = (dims A g ++ dims C g)%list /\
    forall i, in_grid g i -> 0 < par_prob g m lw C i \/ lw = true ->
      ent b (coords A i ++ coords C i) = per_volume u A density (ent a (coords A i ++ coords C i)).
Proof.
  intros HA HC HD Hl Hl2 Hv. destruct (par_cond_claim L s g m Hon Hg Hm A C density lw HA HC HD Hl Hv) as (a & Ea & Hs & He).
  destruct (par_cond_claim L s' (rescaled u g) _ Hon' Hg' Hm' A C density lw HA HC HD (par_lw_ok_units g m lw _ Hl) Hv) as (b & Eb & Hs' & He').
  exists a, b. do 4 (split; [assumption|]). intros i Hi Hq. destruct (He i Hi) as [A1 A2]. destruct (He' i Hi) as [B1 B2].
  rewrite (par_prob_units g m lw C i) in B1, B2. rewrite (par_prob_units g m lw (union A C) i) in B1.
  destruct (par_prob_ge0 g m Hg Hm lw C i Hl2 Hi) as [Hp|Hz].
  - rewrite (A1 Hp), (per_volume_ok u Hu). exact (B1 Hp).
  - symmetry in Hz. destruct Hq as [Hp|El]; [rewrite Hz in Hp; exfalso; lra|]. rewrite (A2 Hz (or_introl El)). exact (B2 Hz (or_introl El)).
Qed.
Section Vel.
Context (lw : bool) (C : vset) (Hv : has_v C = false) (Hl : par_lw_ok g m lw false).
Let norm (i : bin) := nonempty C = false -> lw = false -> par_prob g m false no_vars i = 1.
Lemma units_par_mean : exists a b, get_mean (par_obj L (Fin 1) s) (dname V_v C) lw = Ok a /\ get_mean (par_obj L (Fin 1) s') (dname V_v C) lw = Ok b /\
    shp a = dims C g /\ shp b = dims C g /\
    forall i, in_grid g i -> 0 < par_prob g m lw C i -> norm i -> ent b (coords C i) = num_in_units u Cv (ent a (coords C i)).
Proof.
  destruct (par_mean_claim L s g m lw Hon Hg Hm Hl (Fin 1) C Hv) as (a & Ea & Hs & He).
  destruct (par_mean_claim L s' (rescaled u g) _ lw Hon' Hg' Hm' (par_lw_ok_units g m lw _ Hl) (Fin 1) C Hv) as (b & Eb & Hs' & He').
  exists a, b. do 4 (split; [assumption|]). intros i Hi Hp Hn. destruct (He i Hi) as [A1 _]. destruct (He' i Hi) as [B1 _].
  rewrite !par_prob_units in B1. rewrite (A1 Hp Hn). etransitivity; [exact (B1 Hp Hn)|]. rewrite mixture_mean_units by assumption. reflexivity.
Qed.
Lemma units_par_central j : exists a b, get_central_moment (par_obj L (Fin 1) s) (dname V_v C) j lw = Ok a /\
    get_central_moment (par_obj L (Fin 1) s') (dname V_v C) j lw = Ok b /\ shp a = dims C g /\ shp b = dims C g /\
    forall i, in_grid g i -> 0 < par_prob g m lw C i -> norm i -> ent b (coords C i) = nmul (Fin (us u Cv ^ j)) (ent a (coords C i)).
Proof.
  destruct (par_central_claim L s g m lw Hon Hg Hm Hl C j Hv) as (a & Ea & Hs & He).
  destruct (par_central_claim L s' (rescaled u g) _ lw Hon' Hg' Hm' (par_lw_ok_units g m lw _ Hl) C j Hv) as (b & Eb & Hs' & He').
  exists a, b. do 4 (split; [assumption|]). intros i Hi Hp Hn. destruct (He i Hi Hp Hn) as (M & EM & HM).
  destruct (He' i Hi) as (M' & EM' & HM'); rewrite ?par_prob_units; [exact Hp|exact Hn|].
  rewrite mixture_mean_units in HM' by assumption. etransitivity; [exact EM'|]. rewrite EM, nmul_Fin. f_equal.
  refine (mixture_moment_unique (rescaled u g) (par_in_units u m) lw C i _ j _ _ Hi HM' _). apply mixture_moment_units; assumption.
Qed.
End Vel.
End Par.

(** ** mixtures *)
Lemma kl_len l : List.length (kinds_in_units u l) = List.length l. Proof. apply map_length. Qed.
Lemma kk_units l q : (q < List.length l)%nat -> kk (kinds_in_units u l) q = kind_in_units u (kk l q).
Proof.
  intros Hq. unfold kk, kinds_in_units. set (F := fun p : kind * R => (kind_in_units u (fst p), snd p)). set (d := (KBase (fun _ _ _ _ _ => 0), 0)).
  rewrite (nth_indep (map F l) d (F d)) by (rewrite map_length; exact Hq). rewrite map_nth. reflexivity.
Qed.
Lemma kw_units l q : kw (kinds_in_units u l) q = kw l q.
Proof.
  unfold kw, kinds_in_units. revert q. induction l as [|a l IH]; intros [|q]; try reflexivity. cbn [map nth]. apply IH.
Qed.
Lemma kmass_units g a b : kmass (rescaled u g) (kind_in_units u a) b = kmass g a b.
Proof. destruct a as [f|m]; cbn [kmass kind_in_units]; [apply mass_units; exact Hu|apply par_joint_units]. Qed.
Lemma kmix_units g l b : kmix (rescaled u g) (kinds_in_units u l) b = kmix g l b.
Proof.
  unfold kmix. do 5 (apply functional_extensionality; intros ?). rewrite kl_len. apply Sum_ext. intros q Hq.
  rewrite kk_units, kw_units, kmass_units by exact Hq. reflexivity.
Qed.
Lemma weighted_units g lw P : weighted (rescaled u g) lw P = weighted g lw P.
Proof. reflexivity. Qed.
Lemma k_normal_units g l : k_normal g l -> k_normal (rescaled u g) (kinds_in_units u l).
Proof.
  intros [H1 H2]. split.
  - unfold kinds_in_units. rewrite map_map. exact H1.
  - rewrite kl_len. intros q Hq. rewrite kk_units, kmass_units by exact Hq. exact (H2 q Hq).
Qed.
Lemma there_units g l lw C i : all_there (rescaled u g) (kinds_in_units u l) lw C i <-> all_there g l lw C i.
Proof.
  unfold all_there. rewrite kl_len. split; intros T q Hq; specialize (T q Hq); rewrite kk_units, kmass_units in * by exact Hq; exact T.
Qed.
Lemma missing_units g l lw C i : some_missing (rescaled u g) (kinds_in_units u l) lw C i <-> some_missing g l lw C i.
Proof.
  unfold some_missing. rewrite kl_len. split; intros (q & Hq & T); exists q; (split; [exact Hq|]); rewrite kk_units, kmass_units in * by exact Hq; exact T.
Qed.
Section Mix.
Context (s s' : mixture) (g : grid) (l : kinds) (Hon : mixed_on s g l) (Hon' : mixed_on s' (rescaled u g) (kinds_in_units u l)) (Hg : good_grid g).
Let Hg' := units_good u Hu g Hg.
Lemma units_mix_marg S density lw : nonempty S = true -> lit_ok g (kmix g l (has_v S)) lw ->
  exists a b, mix_get_p s (name S) true density lw = Ok a /\ mix_get_p s' (name S) true density lw = Ok b /\
    shp a = dims S g /\ shp b = dims S g /\ forall i, in_grid g i -> ent b (coords S i) = per_volume u S density (ent a (coords S i)).
Proof.
  intros HS Hl. destruct (mixed_marg_claim s g l Hon Hg S density lw HS Hl) as (a & a' & Ea & _ & Hs & _ & He).
  assert (Hl' : lit_ok (rescaled u g) (kmix (rescaled u g) (kinds_in_units u l) (has_v S)) lw) by (rewrite kmix_units; exact Hl).
  destruct (mixed_marg_claim s' (rescaled u g) _ Hon' Hg' S density lw HS Hl') as (b & b' & Eb & _ & Hs' & _ & He').
  exists a, b. do 4 (split; [assumption|]). intros i Hi. rewrite (proj1 (He i Hi)), (per_volume_ok u Hu). etransitivity; [exact (proj1 (He' i Hi))|].
  rewrite kmix_units. reflexivity.
Qed.
Lemma units_mix_cond A C density lw : nonempty A = true -> nonempty C = true -> disjoint A C = true ->
  lit_ok g (kmix g l (has_v (union A C))) lw -> lit_ok g (kmix g l (has_v C)) lw ->
  exists a b, mix_get_p s (cname A C) true density lw = Ok a /\ mix_get_p s' (cname A C) true density lw = Ok b /\
    shp a = (dims A g ++ dims C g)%list /\ shp b = (dims A g ++ dims C g)%list /\
    forall i, in_grid g i -> ent b (coords A i ++ coords C i) = per_volume u A density (ent a (coords A i ++ coords C i)).
Proof.
  intros HA HC HD Hl Hl2. destruct (mixed_cond_claim s g l Hon Hg A C density lw HA HC HD Hl) as (a & a' & Ea & _ & Hs & _ & He).
  assert (Hl' : lit_ok (rescaled u g) (kmix (rescaled u g) (kinds_in_units u l) (has_v (union A C))) lw) by (rewrite kmix_units; exact Hl).
  destruct (mixed_cond_claim s' (rescaled u g) _ Hon' Hg' A C density lw HA HC HD Hl') as (b & b' & Eb & _ & Hs' & _ & He').
  exists a, b. do 4 (split; [assumption|]). intros i Hi. destruct (He i Hi) as (P1 & _ & Z1 & _). destruct (He' i Hi) as (P2 & _ & Z2 & _).
  rewrite (kmix_units g l (has_v (union A C))), (kmix_units g l (has_v C)) in P2. rewrite (kmix_units g l (has_v C)) in Z2.
  destruct (kmix_marg_nonneg s g l Hon Hg _ _ C i Hl2 Hi) as [Hp|Hz].
  - rewrite (P1 Hp), (per_volume_ok u Hu). exact (P2 Hp).
  - symmetry in Hz. rewrite (Z1 Hz). exact (Z2 Hz).
Qed.
Section One.
Context (lw : bool) (C : vset).
Context (Hm : forall q, (q < List.length l)%nat -> lit_ok g (kmass g (kk l q) (has_v C)) lw).
Context (Hlv : lw = true -> has_v C = false).
Context (HN : nonempty C = false -> lw = false -> k_normal g l).
Let Hm' : forall q, (q < List.length (kinds_in_units u l))%nat -> lit_ok (rescaled u g) (kmass (rescaled u g) (kk (kinds_in_units u l) q) (has_v C)) lw.
Proof. rewrite kl_len. intros q Hq. rewrite kk_units, kmass_units by exact Hq. exact (Hm q Hq). Qed.
Let HN' : nonempty C = false -> lw = false -> k_normal (rescaled u g) (kinds_in_units u l).
Proof. intros E1 E2. apply k_normal_units. auto. Qed.
Lemma mix_lit : lit_ok g (kmix g l (has_v C)) lw.
Proof.
  intros El. pose proof (lights_lw_ok s g (kl g l) (mixed_gen s g l Hon Hg) (has_v C) lw (mixed_lights g l Hg lw C Hm) El) as TT.
  rewrite (total_ext g _ _ (lit_ext g _ _ (mass_mix g Hg l (has_v C)))) in TT. exact TT.
Qed.
Section Other.
Context (q : coord) (HD : disjoint (cvar q) C = true) (Hq : q <> Cv).
Context (Hh : forall p m, (p < List.length l)%nat -> kk l p = KPar m -> no_holes g m lw (cvar q) C).
Let Hh' : forall p m, (p < List.length (kinds_in_units u l))%nat -> kk (kinds_in_units u l) p = KPar m -> no_holes (rescaled u g) m lw (cvar q) C.
Proof.
  rewrite kl_len. intros p m Hp. rewrite kk_units by exact Hp. destruct (kk l p) as [f|m0] eqn:E; intros E'; [discriminate E'|]. injection E' as <-.
  intros El Hin i Hi. rewrite par_prob_units. exact (Hh p m0 Hp E El Hin i Hi).
Qed.
Lemma units_mix_mean : exists a b, mix_mean s (dname (cvar q) C) lw = Ok a /\ mix_mean s' (dname (cvar q) C) lw = Ok b /\
  shp a = mdims q C g /\ shp b = mdims q C g /\ forall i, in_grid g i -> ent b (mcoords q C i) = num_in_units u q (ent a (mcoords q C i)).
Proof.
  destruct (mixed_mean_claim s g l Hon Hg lw q C Hm HD Hlv HN Hq Hh) as (a & Ea & Hs & He).
  destruct (mixed_mean_claim s' (rescaled u g) _ Hon' Hg' lw q C Hm' HD Hlv HN' Hq Hh') as (b & Eb & Hs' & He').
  exists a, b. do 4 (split; [assumption|]). intros i Hi. destruct (He i Hi) as [A1 M1]. destruct (He' i Hi) as [A2 M2].
  rewrite there_units, kmix_units in A2. rewrite missing_units in M2.
  destruct (there_or_not s g l Hon Hg lw C Hm i Hi) as [T|T].
  - rewrite (A1 T). etransitivity; [exact (A2 T)|].
    rewrite (Mean_units u) by (try assumption; exact (P_pos s g l Hon Hg lw C Hm i Hi T)). reflexivity.
  - rewrite (M1 T). exact (M2 T).
Qed.
Lemma units_mix_central j : exists a b, mix_central_moment s (dname (cvar q) C) j lw = Ok a /\ mix_central_moment s' (dname (cvar q) C) j lw = Ok b /\
  shp a = mdims q C g /\ shp b = mdims q C g /\ forall i, in_grid g i -> ent b (mcoords q C i) = nmul (Fin (us u q ^ j)) (ent a (mcoords q C i)).
Proof.
  destruct (mixed_central_claim s g l Hon Hg lw q C Hm HD Hlv HN Hq Hh j) as (a & Ea & Hs & He).
  destruct (mixed_central_claim s' (rescaled u g) _ Hon' Hg' lw q C Hm' HD Hlv HN' Hq Hh' j) as (b & Eb & Hs' & He').
  exists a, b. do 4 (split; [assumption|]). intros i Hi. destruct (He i Hi) as [A1 M1]. destruct (He' i Hi) as [A2 M2].
  rewrite there_units, kmix_units in A2. rewrite missing_units in M2.
  destruct (there_or_not s g l Hon Hg lw C Hm i Hi) as [T|T].
  - rewrite (A1 T). etransitivity; [exact (A2 T)|].
    rewrite (Mean_units u), (Moment_units u) by (try assumption; exact (P_pos s g l Hon Hg lw C Hm i Hi T)). reflexivity.
  - rewrite (M1 T). exact (M2 T).
Qed.
End Other.
Section Velocity.
Context (Hv : has_v C = false).
Lemma k_given_units i q : (q < List.length l)%nat -> k_given (rescaled u g) (kinds_in_units u l) lw C i q = k_given g l lw C i q.
Proof.
  intros Hq. unfold k_given. rewrite kmix_units, weighted_units.
  change (marg g (kshare (rescaled u g) (kinds_in_units u l) lw (has_v C) q) C i / marg g (weighted g lw (kmix g l (has_v C))) C i =
    marg g (kshare g l lw (has_v C) q) C i / marg g (weighted g lw (kmix g l (has_v C))) C i).
  do 2 f_equal. unfold kshare. rewrite kk_units, kw_units, kmass_units, kmix_units by exact Hq. reflexivity.
Qed.
Lemma given_one i : in_grid g i -> all_there g l lw C i -> Sum (List.length l) (fun q => k_given g l lw C i q) = 1.
Proof.
  intros Hi T. pose proof (given_Ex s g l Hon Hg lw C Hm no_vars (fun _ => 1) i Hi) as E.
  assert (D : disjoint no_vars C = true) by (destruct C as [[] [] [] []]; reflexivity).
  specialize (E D T).
  assert (One : forall P, 0 < marg g P C i -> Ex g P no_vars C (fun _ => 1) i = 1).
  { intros P HP. rewrite MomLemmas3.Ex_E. apply Stat.E_const. apply MomLemmas3.cw_sum; assumption. }
  rewrite One in E by exact (P_pos s g l Hon Hg lw C Hm i Hi T). rewrite <- E. apply Sum_ext. intros q Hq.
  rewrite One by exact (T q Hq). ring.
Qed.
Lemma k_v_mean_units q i : (q < List.length l)%nat -> in_grid g i -> all_there g l lw C i ->
  k_v_mean (rescaled u g) (kk (kinds_in_units u l) q) lw C i = in_units u Cv (k_v_mean g (kk l q) lw C i).
Proof.
  intros Hq Hi T. rewrite kk_units by exact Hq. specialize (T q Hq). destruct (kk l q) as [f|m] eqn:E; cbn [k_v_mean kind_in_units].
  - rewrite prob_units by exact Hu. apply Mean_units; [destruct C as [[] [] [] []]; try discriminate Hv; reflexivity|exact Hi|exact T].
  - apply mixture_mean_units; try assumption. cbn [kmass] in T. rewrite Hv in T. rewrite <- (par_marg g m lw C i Hg Hi). rewrite Hv. exact T.
Qed.
Lemma k_mean_v_units i : in_grid g i -> all_there g l lw C i ->
  k_mean_v (rescaled u g) (kinds_in_units u l) lw C i = in_units u Cv (k_mean_v g l lw C i).
Proof.
  intros Hi T. unfold k_mean_v. rewrite kl_len.
  rewrite (Sum_ext _ _ (fun q => uo u Cv * k_given g l lw C i q + us u Cv * (k_given g l lw C i q * k_v_mean g (kk l q) lw C i))).
  - rewrite Sum_plus, !Sum_scal, given_one by assumption. unfold in_units. ring.
  - intros q Hq. rewrite k_given_units, k_v_mean_units by assumption. unfold in_units. ring.
Qed.
Lemma member_good q m : (q < List.length l)%nat -> kk l q = KPar m -> good_par g m.
Proof.
  intros Hq E. destruct (nth_error (mx_members s) q) as [mb|] eqn:En.
  - pose proof (mp_member _ _ _ Hon q mb En) as K. rewrite E in K. destruct K as (L & self & _ & _ & K). exact K.
  - apply nth_error_None in En. rewrite (mp_len _ _ _ Hon) in En. lia.
Qed.
Lemma k_moment_v_units i c c' j M : in_grid g i -> (forall q, (q < List.length l)%nat -> c' q = in_units u Cv (c q)) ->
  k_moment_v g l lw C i c j M -> k_moment_v (rescaled u g) (kinds_in_units u l) lw C i c' j (us u Cv ^ j * M).
Proof.
  intros Hi Hc (Ms & HM & ->). exists (fun q => us u Cv ^ j * Ms q). rewrite kl_len. split.
  - intros q Hq. specialize (HM q Hq). rewrite kk_units, Hc by exact Hq. pose proof (member_good q) as MG.
    destruct (kk l q) as [f|m]; cbn [k_v_moment kind_in_units] in *.
    + rewrite prob_units by exact Hu. rewrite HM. symmetry. apply Moment_units. exact Hi.
    + apply mixture_moment_units; auto.
  - rewrite <- Sum_scal. apply Sum_ext. intros q Hq. rewrite k_given_units by exact Hq. ring.
Qed.
Lemma units_mix_v_mean : exists a b, mix_mean s (dname V_v C) lw = Ok a /\ mix_mean s' (dname V_v C) lw = Ok b /\
  shp a = dims C g /\ shp b = dims C g /\ forall i, in_grid g i -> all_there g l lw C i -> ent b (coords C i) = num_in_units u Cv (ent a (coords C i)).
Proof.
  destruct (mixed_v_mean_claim s g l Hon Hg lw C Hv Hm HN) as (a & Ea & Hs & He).
  destruct (mixed_v_mean_claim s' (rescaled u g) _ Hon' Hg' lw C Hv Hm' HN') as (b & Eb & Hs' & He').
  exists a, b. do 4 (split; [assumption|]). intros i Hi T. rewrite He by assumption.
  etransitivity; [apply (He' i Hi); apply there_units; exact T|]. rewrite k_mean_v_units by assumption. reflexivity.
Qed.
Lemma units_mix_v_central j : exists a b, mix_central_moment s (dname V_v C) j lw = Ok a /\ mix_central_moment s' (dname V_v C) j lw = Ok b /\
  shp a = dims C g /\ shp b = dims C g /\ forall i, in_grid g i -> all_there g l lw C i ->
    (forall q, (q < List.length l)%nat -> all_there g l lw C (centre_at (kk l q) C i)) ->
    ent b (coords C i) = nmul (Fin (us u Cv ^ j)) (ent a (coords C i)).
Proof.
  destruct (mixed_v_central_claim s g l Hon Hg lw C Hv Hm HN j) as (a & Ea & Hs & He).
  destruct (mixed_v_central_claim s' (rescaled u g) _ Hon' Hg' lw C Hv Hm' HN' j) as (b & Eb & Hs' & He').
  exists a, b. do 4 (split; [assumption|]). intros i Hi T TC. destruct (He i Hi T TC) as (M & EM & KM).
  assert (CA : forall k, centre_at (kind_in_units u k) C i = centre_at k C i) by (intros [f|m]; reflexivity).
  destruct (He' i Hi) as (M' & EM' & KM').
  { apply there_units; exact T. }
  { rewrite kl_len. intros q Hq. rewrite kk_units, CA by exact Hq. apply there_units. exact (TC q Hq). }
  etransitivity; [exact EM'|]. rewrite EM, nmul_Fin. f_equal.
  assert (CG : forall q, in_grid g (centre_at (kk l q) C i)).
  { intros q. destruct (kk l q); cbn [centre_at]; [exact Hi|]. destruct (_ && _ && _)%bool; [|exact Hi].
    destruct Hi as (It & Iv & Ix & Iy & Iz). repeat split; try assumption. cbn. pose proof (gg_z _ Hg). lia. }
  apply (k_moment_v_unique (rescaled u g) lw C (kinds_in_units u l) i _ j M' _ Hi KM').
  eapply k_moment_v_units; [exact Hi| |exact KM]. intros q Hq. cbv beta.
  rewrite kk_units, CA by exact Hq. apply k_mean_v_units; [apply CG|exact (TC q Hq)].
Qed.
End Velocity.
End One.
End Mix.

(** ** datacubes *)
Lemma bin_prob_units g f dv : same_velocities u -> bin_prob (rescaled u g) (per_unit u f) dv = bin_prob g f dv.
Proof.
  intros [U1 U2]. do 5 (apply functional_extensionality; intros ?). unfold bin_prob, per_unit. cbn [tE xE yE zE rescaled]. rewrite !wid_units.
  unfold unit_vol, ifw. cbn. rewrite U1. field. repeat split; apply us0; exact Hu.
Qed.
Lemma units_ybar W c c' g f n dv S v0 batch batch' : same_velocities u -> evaluable c g f n dv S v0 ->
  comp_on c' (rescaled u g) (per_unit u f) -> templates (c_ssps (comp_cube c')) (rescaled u g) n dv S -> is_batch batch -> is_batch batch' ->
  exists y y', evaluate_ybar W c batch = Ok y /\ evaluate_ybar W c' batch' = Ok y' /\ shp y = [n; nx g; ny g] /\ shp y' = shp y /\
    forall idx, inb idx (shp y) -> ent y' idx = ent y idx.
Proof.
  intros HV H Hon' HT' Hb Hb'. destruct HV as [V1 V2].
  assert (EV : vE (rescaled u g) = vE g).
  { apply functional_extensionality. intros k. cbn. unfold in_units. rewrite V1, V2. ring. }
  assert (H' : evaluable c' (rescaled u g) (per_unit u f) n dv S v0).
  { destruct H as [E1 E2 E3 E4 E5 E6]. constructor; try assumption; [apply units_good; assumption|apply nonneg_units; assumption|].
    rewrite EV. exact E5. }
  destruct (evaluate_claim W c g f n dv S v0 batch H Hb) as (y & Ey & Sy & Hy).
  destruct (evaluate_claim W c' _ _ n dv S v0 batch' H' Hb') as (y' & Ey' & Sy' & Hy').
  exists y, y'. do 3 (split; [assumption|]). split; [rewrite Sy, Sy'; reflexivity|]. intros idx Hi. rewrite Sy in Hi. inb_inv.
  rewrite Hy by assumption. etransitivity; [apply Hy'; assumption|]. f_equal. unfold datacube. rewrite bin_prob_units by (split; assumption). reflexivity.
Qed.
Lemma units_par_ybar L s s' g m n dv S batch batch' : same_velocities u -> par_on L s g m -> par_on L s' (rescaled u g) (par_in_units u m) ->
  good_grid g -> good_par g m -> templates (c_ssps (pa_cube s)) g n dv S -> templates (c_ssps (pa_cube s')) (rescaled u g) n dv S ->
  dv <> 0 -> is_batch batch -> is_batch batch' ->
  exists y y', par_evaluate_ybar L s batch = Ok y /\ par_evaluate_ybar L s' batch' = Ok y' /\ shp y = [n; nx g; ny g] /\ shp y' = shp y /\
    forall idx, inb idx (shp y) -> ent y' idx = ent y idx.
Proof.
  intros [V1 V2] H H' Hg Hm HT HT' Hdv Hb Hb'.
  destruct (component_datacube L s g m H Hg Hm n dv S HT batch Hdv Hb) as (y & Ey & Sy & Hy).
  destruct (component_datacube L s' (rescaled u g) _ H' (units_good u Hu g Hg) (good_par_units g m Hm) n dv S HT' batch' Hdv Hb') as (y' & Ey' & Sy' & Hy').
  exists y, y'. do 3 (split; [assumption|]). split; [rewrite Sy, Sy'; reflexivity|]. intros idx Hi. rewrite Sy in Hi. inb_inv.
  rewrite Hy by assumption. etransitivity; [apply Hy'; assumption|]. f_equal. unfold par_datacube. rewrite txz_mass_units.
  cbn [nt nz rescaled]. apply Sum_ext. intros t _. apply Sum_ext. intros z _. f_equal. cbn [pm_mu pm_sig par_in_units]. unfold in_units.
  rewrite V1, V2, Rplus_0_l, !Rmult_1_l. reflexivity.
Qed.
End Units.
