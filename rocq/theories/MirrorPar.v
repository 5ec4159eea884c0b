(** * MirrorPar: mirror images of parametric components. *)
From Coq Require Import Reals Lra Lia List Bool Arith ZArith String Ascii.
From Verif Require Import Num NumLemmas Arr ArrLemmas PyStr Cube Base Spec SpecLemmas Repr DistLemmas Moments MomSpec MomArr MomLemmas MomClaims
  Parametric ParSpec ParRepr ParLemmas ParDist ParClaims ParMoments GaussSpec GaussLemmas ParMomSpec ParMomMath ParMomLemmas ParMomMeans ParMomClaims ParMomOther
  MirrorSpec Mirror MirrorClaims.
Import ListNotations.
Local Open Scope R_scope.

Lemma gmom_neg d s j : gmom (- d) s j = (-1) ^ j * gmom d s j.
Proof.
  assert (H : gmom (- d) s j = (-1) ^ j * gmom d s j /\ gmom (- d) s (S j) = (-1) ^ S j * gmom d s (S j)); [|apply H].
  induction j as [|j [I1 I2]].
  - rewrite !gmom_0, !gmom_1. cbn. split; ring.
  - split; [exact I2|]. rewrite !(gmom_SS _ _ j), I1, I2. cbn [pow]. ring.
Qed.

Section Par.
Context (g : grid) (fl : flips) (ctr : coord -> R) (Hc : centred g fl ctr).
Context (m m' : par_model) (HI : par_image g fl ctr m m').
Notation ex := (other_end (fl_x1 fl) (nx g)).
Notation ey := (other_end (fl_x2 fl) (ny g)).
Lemma wid_x x : (x < nx g)%nat -> wid (xE g) (ex x) = wid (xE g) x. Proof. exact (wid_end g fl ctr Hc Cx1 x). Qed.
Lemma wid_y y : (y < ny g)%nat -> wid (yE g) (ey y) = wid (yE g) y. Proof. exact (wid_end g fl ctr Hc Cx2 y). Qed.
Lemma txz_mass_image t x y z : (t < nt g)%nat -> (x < nx g)%nat -> (y < ny g)%nat -> (z < nz g)%nat ->
  txz_mass g m' t x y z = txz_mass g m t (ex x) (ey y) z.
Proof.
  intros Ht Hx Hy Hz. unfold txz_mass. rewrite wid_x, wid_y by assumption.
  rewrite (pi_t _ _ _ _ _ HI t), (pi_x _ _ _ _ _ HI t x y), (pi_z _ _ _ _ _ HI t x y z) by assumption. reflexivity.
Qed.
Lemma vbin_image t v x y : (t < nt g)%nat -> (v < nv g)%nat -> (x < nx g)%nat -> (y < ny g)%nat ->
  vbin g m' t v x y = vbin g m t (other_end (fl_v fl) (nv g) v) (ex x) (ey y).
Proof.
  intros Ht Hv Hx Hy. unfold vbin. rewrite !(pi_F _ _ _ _ _ HI), (pi_mu _ _ _ _ _ HI), (pi_sig _ _ _ _ _ HI) by assumption.
  unfold mirrored. cbn [flipped]. destruct (fl_v fl) eqn:E; cbn [other_end]; [|reflexivity].
  set (u := pm_mu m t (ex x) (ey y)). set (s := pm_sig m t (ex x) (ey y)).
  pose proof (Hc Cv E (S v) ltac:(cbn; lia)) as E1. pose proof (Hc Cv E v ltac:(cbn; lia)) as E2. cbn [cn cedge] in E1, E2.
  replace (S (nv g - 1 - v)) with (nv g - v)%nat by lia. replace (nv g - 1 - v)%nat with (nv g - S v)%nat by lia. rewrite E1, E2.
  replace ((2 * ctr Cv - vE g v - u) / s) with (- ((vE g v - (2 * ctr Cv - u)) / s)) by (unfold Rdiv; ring).
  replace ((2 * ctr Cv - vE g (S v) - u) / s) with (- ((vE g (S v) - (2 * ctr Cv - u)) / s)) by (unfold Rdiv; ring).
  rewrite !(pi_even _ _ _ _ _ HI E). ring.
Qed.
Lemma pjoint_image b : image (pgrid g b) fl (pjoint g m b) (pjoint g m' b).
Proof.
  intros i Hi. cbv zeta. unfold pjoint. destruct b; cbn [pgrid] in *; destruct Hi as (H1 & H2 & H3 & H4 & H5);
  unfold mirror; cbn [bt bv bx by_ bz nv nx ny nt nz flat] in *; rewrite txz_mass_image by assumption; [rewrite vbin_image by assumption|]; reflexivity.
Qed.
Lemma pprob_image lw b : image (pgrid g b) fl (pprob g m lw b) (pprob g m' lw b).
Proof. unfold pprob. destruct lw; [apply light_image|]; apply pjoint_image. Qed.
Lemma par_lw_image lw b : par_lw_ok g m lw b -> par_lw_ok g m' lw b.
Proof. intros H E. rewrite (total_mirror _ fl _ _ (lit_image _ fl _ _ (pjoint_image b))). exact (H E). Qed.
Lemma marg_flat_v G P S i v : has_v S = false -> marg G P S (set_v v i) = marg G P S i.
Proof. intros H. unfold marg. rewrite H. reflexivity. Qed.
Lemma par_prob_mirror lw S i : in_grid g i -> par_prob g m' lw S i = par_prob g m lw S (mirror g fl i).
Proof.
  intros Hi. unfold par_prob. pose proof (pprob_image lw (has_v S)) as H. destruct (has_v S) eqn:E; cbn [pgrid] in *.
  - apply (marg_mirror g fl _ _ H). exact Hi.
  - rewrite <- (marg_flat_v (flat g) _ S i 0 E), <- (marg_flat_v (flat g) _ S (mirror g fl i) 0 E).
    rewrite (marg_mirror (flat g) fl _ _ H) by (destruct Hi as (H1 & H2 & H3 & H4 & H5); repeat split; cbn; auto). f_equal.
    unfold mirror, set_v. cbn [bt bv bx by_ bz nx ny nv flat]. f_equal. destruct (fl_v fl); reflexivity.
Qed.
Lemma good_par_image : good_par g m -> good_par g m'.
Proof.
  intros [H1 H2 H3 H4 H5 H6 H7 H8].
  constructor; intros.
  - rewrite (pi_t _ _ _ _ _ HI) by assumption. auto.
  - rewrite (pi_x _ _ _ _ _ HI) by assumption. auto using end_lt.
  - rewrite (pi_z _ _ _ _ _ HI) by assumption. auto using end_lt.
  - rewrite <- (H4 t H). rewrite <- (Sum_end (fl_x1 fl) (nx g)). apply Sum_ext. intros x Hx. rewrite <- (Sum_end (fl_x2 fl) (ny g)).
    apply Sum_ext. intros y Hy. rewrite (pi_x _ _ _ _ _ HI), !end_end by (auto using end_lt). rewrite wid_x, wid_y by assumption. reflexivity.
  - rewrite <- (H5 t (ex x) (ey y)) by (auto using end_lt). apply Sum_ext. intros z Hz. rewrite (pi_z _ _ _ _ _ HI) by assumption. reflexivity.
  - rewrite (pi_sig _ _ _ _ _ HI) by assumption. auto using end_lt.
  - rewrite (pi_F _ _ _ _ _ HI). auto.
  - rewrite !(pi_F _ _ _ _ _ HI). auto.
Qed.
Lemma over_rest_mirror lw C i G G' : in_grid g i ->
  (forall t x y, (t < nt g)%nat -> (x < nx g)%nat -> (y < ny g)%nat -> G' t x y = G t (ex x) (ey y)) ->
  over_rest g m' lw C i G' = over_rest g m lw C (mirror g fl i) G.
Proof.
  intros Hi HG. unfold over_rest. rewrite sum_over_mirror. apply sum_over_ext; [exact Hi|]. intros b Hb. unfold weight.
  rewrite (par_prob_mirror lw _ b Hb), (par_prob_mirror lw C i Hi). f_equal. destruct Hb as (B1 & B2 & B3 & B4 & B5). apply HG; assumption.
Qed.
Lemma mixture_mean_mirror lw C i : has_v C = false -> in_grid g i -> good_grid g -> 0 < par_prob g m' lw C i ->
  mixture_mean g m' lw C i = mirrored fl ctr Cv (mixture_mean g m lw C (mirror g fl i)).
Proof.
  intros Hv Hi Hg Hp. rewrite par_prob_mirror in Hp by exact Hi. pose proof (mirror_in g fl i Hi) as Hj. unfold mixture_mean.
  rewrite (over_rest_mirror lw C i (fun t x y => mirrored fl ctr Cv (pm_mu m t x y)) _ Hi) by (intros; apply (pi_mu _ _ _ _ _ HI); assumption).
  unfold mirrored. cbn [flipped]. destruct (fl_v fl); [|reflexivity].
  rewrite (over_rest_ext g m lw C _ _ (fun t x y => 2 * ctr Cv * 1 + -1 * pm_mu m t x y) Hj) by (intros; ring).
  rewrite (over_rest_lin g m lw C _ (2 * ctr Cv) (-1) (fun _ _ _ => 1) (pm_mu m)), over_rest_one by assumption. ring.
Qed.
Lemma gauss_mirror mu s c j M : 0 < s -> gauss_moment mu s c j M ->
  gauss_moment (mirrored fl ctr Cv mu) s (mirrored fl ctr Cv c) j (sign fl Cv ^ j * M).
Proof.
  intros Hs HM. rewrite (gauss_moment_unique mu s c j M (gmom (mu - c) s j) HM (gmom_ok mu s c Hs j)).
  replace (sign fl Cv ^ j * gmom (mu - c) s j) with (gmom (mirrored fl ctr Cv mu - mirrored fl ctr Cv c) s j); [apply gmom_ok; exact Hs|].
  unfold mirrored, sign. destruct (flipped fl Cv).
  - rewrite <- gmom_neg. f_equal. ring.
  - rewrite pow1. ring.
Qed.
Lemma mixture_moment_mirror lw C i c j M : good_par g m -> in_grid g i -> mixture_moment g m lw C (mirror g fl i) c j M ->
  mixture_moment g m' lw C i (mirrored fl ctr Cv c) j (sign fl Cv ^ j * M).
Proof.
  intros Hm Hi (G & HG & ->). pose proof (mirror_in g fl i Hi) as Hj. exists (fun t x y => sign fl Cv ^ j * G t (ex x) (ey y)). split.
  - intros t x y Ht Hx Hy. rewrite (pi_mu _ _ _ _ _ HI), (pi_sig _ _ _ _ _ HI) by assumption.
    apply gauss_mirror; [apply (gp_sig _ _ Hm)|apply HG]; auto using end_lt.
  - rewrite (over_rest_mirror lw C i (fun t x y => sign fl Cv ^ j * G t x y + 0 * G t x y) _ Hi) by (intros; ring).
    rewrite over_rest_lin. ring.
Qed.

Context (L : stats_lib) (s s' : par) (Hon : par_on L s g m) (Hon' : par_on L s' g m').
Context (Hg : good_grid g) (Hm : good_par g m).
Let Hm' := good_par_image Hm.
Lemma mirror_par_marg S (density lw : bool) : nonempty S = true -> par_lw_ok g m lw (has_v S) ->
  exists a b, par_get_p L s (name S) density lw = Ok a /\ par_get_p L s' (name S) density lw = Ok b /\ shp a = dims S g /\ shp b = dims S g /\
    forall i, in_grid g i -> ent b (coords S i) = ent a (coords S (mirror g fl i)).
Proof.
  intros HS Hl. destruct (par_p_marg L s g m Hon Hg Hm S density lw HS Hl) as (a & Ea & Hs & He).
  destruct (par_p_marg L s' g m' Hon' Hg Hm' S density lw HS (par_lw_image lw _ Hl)) as (b & Eb & Hs' & He').
  exists a, b. do 4 (split; [assumption|]). intros i Hi. rewrite (He _ (mirror_in g fl i Hi)), (He' i Hi). unfold pent.
  rewrite par_prob_mirror by exact Hi. destruct density; [|reflexivity]. rewrite (vol_mirror g fl ctr Hc) by exact Hi. reflexivity.
Qed.
Lemma mirror_par_cond A C (density lw : bool) : nonempty A = true -> nonempty C = true -> disjoint A C = true ->
  par_lw_ok g m lw (has_v (union A C)) -> par_lw_ok g m lw (has_v C) -> (lw = true -> cname A C <> "v_tx"%string) ->
  exists a b, par_get_p L s (cname A C) density lw = Ok a /\ par_get_p L s' (cname A C) density lw = Ok b /\
    shp a = (dims A g ++ dims C g)%list /\ shp b = (dims A g ++ dims C g)%list /\
    forall i, in_grid g i -> 0 < par_prob g m' lw C i \/ lw = true ->
      ent b (coords A i ++ coords C i) = ent a (coords A (mirror g fl i) ++ coords C (mirror g fl i)).
Proof.
  intros HA HC HD Hl Hl2 Hv. destruct (par_cond_claim L s g m Hon Hg Hm A C density lw HA HC HD Hl Hv) as (a & Ea & Hs & He).
  destruct (par_cond_claim L s' g m' Hon' Hg Hm' A C density lw HA HC HD (par_lw_image lw _ Hl) Hv) as (b & Eb & Hs' & He').
  exists a, b. do 4 (split; [assumption|]). intros i Hi Hq. pose proof (mirror_in g fl i Hi) as Hj.
  destruct (He _ Hj) as [A1 A2]. destruct (He' i Hi) as [B1 B2].
  rewrite (par_prob_mirror lw C i Hi) in Hq, B1, B2. rewrite (par_prob_mirror lw (union A C) i Hi) in B1.
  destruct (par_prob_ge0 g m Hg Hm lw C _ Hl2 Hj) as [Hp|Hz].
  - rewrite (A1 Hp), (B1 Hp). destruct density; [|reflexivity]. rewrite (vol_mirror g fl ctr Hc) by exact Hi. reflexivity.
  - symmetry in Hz. destruct Hq as [Hp|El]; [rewrite Hz in Hp; exfalso; lra|]. rewrite (A2 Hz (or_introl El)). exact (B2 Hz (or_introl El)).
Qed.
Section Vel.
Context (lw : bool) (C : vset) (Hv : has_v C = false) (Hl : par_lw_ok g m lw false).
Let norm (i : bin) := nonempty C = false -> lw = false -> par_prob g m' false no_vars i = 1.
Let norm_mirror i : in_grid g i -> norm i -> nonempty C = false -> lw = false -> par_prob g m false no_vars (mirror g fl i) = 1.
Proof. intros Hi H E1 E2. rewrite <- par_prob_mirror by exact Hi. auto. Qed.
Lemma mirror_par_mean : exists a b, get_mean (par_obj L (Fin 1) s) (dname V_v C) lw = Ok a /\ get_mean (par_obj L (Fin 1) s') (dname V_v C) lw = Ok b /\
    shp a = dims C g /\ shp b = dims C g /\
    forall i, in_grid g i -> 0 < par_prob g m' lw C i -> norm i -> ent b (coords C i) = num_mirrored fl ctr Cv (ent a (coords C (mirror g fl i))).
Proof.
  destruct (par_mean_claim L s g m lw Hon Hg Hm Hl (Fin 1) C Hv) as (a & Ea & Hs & He).
  destruct (par_mean_claim L s' g m' lw Hon' Hg Hm' (par_lw_image lw _ Hl) (Fin 1) C Hv) as (b & Eb & Hs' & He').
  exists a, b. do 4 (split; [assumption|]). intros i Hi Hp Hn. pose proof (mirror_in g fl i Hi) as Hj.
  destruct (He _ Hj) as [A1 _]. destruct (He' i Hi) as [B1 _]. rewrite (B1 Hp Hn), (mixture_mean_mirror lw C i Hv Hi Hg Hp).
  rewrite (par_prob_mirror lw C i Hi) in Hp. rewrite (A1 Hp (norm_mirror i Hi Hn)), num_mirrored_Fin. reflexivity.
Qed.
Lemma mirror_par_central j : exists a b, get_central_moment (par_obj L (Fin 1) s) (dname V_v C) j lw = Ok a /\
    get_central_moment (par_obj L (Fin 1) s') (dname V_v C) j lw = Ok b /\ shp a = dims C g /\ shp b = dims C g /\
    forall i, in_grid g i -> 0 < par_prob g m' lw C i -> norm i ->
      ent b (coords C i) = nmul (Fin (sign fl Cv ^ j)) (ent a (coords C (mirror g fl i))).
Proof.
  destruct (par_central_claim L s g m lw Hon Hg Hm Hl C j Hv) as (a & Ea & Hs & He).
  destruct (par_central_claim L s' g m' lw Hon' Hg Hm' (par_lw_image lw _ Hl) C j Hv) as (b & Eb & Hs' & He').
  exists a, b. do 4 (split; [assumption|]). intros i Hi Hp Hn. pose proof (mirror_in g fl i Hi) as Hj. pose proof Hp as Hq.
  rewrite (par_prob_mirror lw C i Hi) in Hq.
  destruct (He _ Hj Hq (norm_mirror i Hi Hn)) as (M & EM & HM). destruct (He' i Hi Hp Hn) as (M' & EM' & HM').
  rewrite EM, EM', nmul_Fin. f_equal. rewrite (mixture_mean_mirror lw C i Hv Hi Hg Hp) in HM'.
  refine (mixture_moment_unique g m' lw C i _ j _ _ Hi HM' _). apply mixture_moment_mirror; assumption.
Qed.
End Vel.
End Par.

(** ** components which are their own mirror image *)
Section Symmetric.
Context (g : grid) (fl : flips) (ctr : coord -> R) (Hc : centred g fl ctr) (m : par_model) (HI : par_image g fl ctr m m).
Context (L : stats_lib) (s : par) (Hon : par_on L s g m) (Hg : good_grid g) (Hm : good_par g m).
Context (lw : bool) (C : vset) (Hv : has_v C = false) (Hl : par_lw_ok g m lw false) (HU : untouched fl C) (Hf : fl_v fl = true).
Lemma symmetric_par j : Nat.odd j = true ->
  exists a b, get_mean (par_obj L (Fin 1) s) (dname V_v C) lw = Ok a /\ get_central_moment (par_obj L (Fin 1) s) (dname V_v C) j lw = Ok b /\
    forall i, in_grid g i -> 0 < par_prob g m lw C i -> (nonempty C = false -> lw = false -> par_prob g m false no_vars i = 1) ->
      ent a (coords C i) = Fin (ctr Cv) /\ ent b (coords C i) = Fin 0.
Proof.
  intros Hj.
  destruct (mirror_par_mean g fl ctr Hc m m HI L s s Hon Hon Hg Hm lw C Hv Hl) as (a & a' & Ea & Ea' & _ & _ & Ha).
  rewrite Ea in Ea'. injection Ea' as <-.
  destruct (mirror_par_central g fl ctr Hc m m HI L s s Hon Hon Hg Hm lw C Hv Hl j) as (b & b' & Eb & Eb' & _ & _ & Hb).
  rewrite Eb in Eb'. injection Eb' as <-.
  exists a, b. split; [exact Ea|]. split; [exact Eb|]. intros i Hi Hp Hn.
  destruct (par_mean_claim L s g m lw Hon Hg Hm Hl (Fin 1) C Hv) as (a0 & Ea0 & _ & He). rewrite Ea in Ea0. injection Ea0 as <-.
  destruct (par_central_claim L s g m lw Hon Hg Hm Hl C j Hv) as (b0 & Eb0 & _ & He'). rewrite Eb in Eb0. injection Eb0 as <-.
  specialize (Ha i Hi Hp Hn). specialize (Hb i Hi Hp Hn). rewrite untouched_coords in Ha, Hb by exact HU. split.
  - unfold num_mirrored in Ha. cbn [flipped] in Ha. rewrite Hf in Ha. rewrite (proj1 (He i Hi) Hp Hn) in *. rewrite nsub_Fin in Ha.
    injection Ha as Ha. f_equal. lra.
  - rewrite (sign_odd fl Cv j Hf Hj) in Hb. destruct (He' i Hi Hp Hn) as (M & EM & _). exact (nmul_neg_self _ _ EM Hb).
Qed.
End Symmetric.
