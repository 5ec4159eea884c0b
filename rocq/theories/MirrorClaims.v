(** * MirrorClaims: queries of mirror images, and of symmetric components. *)
From Coq Require Import Reals Lra Lia List Bool Arith ZArith String Ascii.
From Verif Require Import Num NumLemmas Arr ArrLemmas PyStr Cube Base Spec SpecLemmas Repr DistLemmas Moments MomSpec MomArr MomLemmas MomLemmas2 MomLemmas3
  MomLemmas4 MomLemmas5 MomLemmas6 Stat MomClaims MirrorSpec Mirror.
Import ListNotations.
Local Open Scope R_scope.

Section Base.
Context (g : grid) (fl : flips) (ctr : coord -> R) (Hc : centred g fl ctr).
Context (c c' : component) (f f' : joint) (Hon : comp_on c g f) (Hon' : comp_on c' g f') (Hg : good_grid g) (Hf : nonneg g f).
Context (HI : image g fl f f').
Let Hf' : nonneg g f' := nonneg_image g fl f f' HI Hf.
Let P lw := prob g f lw.
Let P' lw := prob g f' lw.
Let HP lw : image g fl (P lw) (P' lw) := prob_image g fl ctr Hc f f' lw HI.

Lemma mirror_marg S (density lw : bool) : nonempty S = true -> lw_ok g f lw ->
  exists a b, get_p c (name S) density lw = Ok a /\ get_p c' (name S) density lw = Ok b /\ shp a = dims S g /\ shp b = dims S g /\
    forall i, in_grid g i -> ent b (coords S i) = ent a (coords S (mirror g fl i)).
Proof.
  intros HS Hl. destruct (get_p_marg c g f Hon Hg Hf S density lw HS Hl) as (a & Ea & Hs & He).
  destruct (get_p_marg c' g _ Hon' Hg Hf' S density lw HS (lw_ok_image g fl ctr Hc f f' lw HI Hl)) as (b & Eb & Hs' & He').
  exists a, b. do 4 (split; [assumption|]). intros i Hi. rewrite (He _ (mirror_in g fl i Hi)), (He' i Hi).
  f_equal. f_equal; [|f_equal; destruct density; [|reflexivity]; symmetry; apply (vol_mirror g fl ctr Hc); exact Hi].
  apply (marg_mirror g fl _ _ (HP lw)). exact Hi.
Qed.
Lemma mirror_cond A C (density lw : bool) : nonempty A = true -> nonempty C = true -> disjoint A C = true -> lw_ok g f lw ->
  exists a b, get_p c (cname A C) density lw = Ok a /\ get_p c' (cname A C) density lw = Ok b /\
    shp a = (dims A g ++ dims C g)%list /\ shp b = (dims A g ++ dims C g)%list /\
    forall i, in_grid g i -> ent b (coords A i ++ coords C i) = ent a (coords A (mirror g fl i) ++ coords C (mirror g fl i)).
Proof.
  intros HA HC HD Hl. destruct (get_p_cond c g f Hon Hg Hf A C density lw HA HC HD Hl) as (a & Ea & Hs & He).
  destruct (get_p_cond c' g _ Hon' Hg Hf' A C density lw HA HC HD (lw_ok_image g fl ctr Hc f f' lw HI Hl)) as (b & Eb & Hs' & He').
  exists a, b. do 4 (split; [assumption|]). intros i Hi. pose proof (mirror_in g fl i Hi) as Hj.
  destruct (He _ Hj) as [A1 A2]. destruct (He' i Hi) as [B1 B2].
  fold (P' lw) in B1, B2. rewrite (marg_mirror g fl _ _ (HP lw) C i Hi), (marg_mirror g fl _ _ (HP lw) (union A C) i Hi) in B1.
  rewrite (marg_mirror g fl _ _ (HP lw) C i Hi) in B2.
  destruct (marg_nonneg g _ C _ Hj (prob_nonneg g f lw Hg Hf Hl)) as [Hp|Hz].
  - rewrite (A1 Hp), (B1 Hp). f_equal. f_equal. f_equal. destruct density; [|reflexivity]. symmetry. apply (vol_mirror g fl ctr Hc). exact Hi.
  - symmetry in Hz. rewrite (A2 Hz). exact (B2 Hz).
Qed.
Section Mom.
Context (C : vset) (lw : bool) (Hl : lw_ok g f lw).
Context (HT : nonempty C = false -> lw = false -> total g (mass g f) = 1).
Let HT1 : nonempty C = false -> total g (prob g f lw) = 1.
Proof. intros E. destruct lw eqn:El; [apply total_light; apply Rgt_not_eq, Hl; reflexivity|apply HT; auto]. Qed.
Let HT2 : nonempty C = false -> total g (prob g f' lw) = 1.
Proof. intros E. change (total g (P' lw) = 1). rewrite (total_mirror g fl _ _ (HP lw)). exact (HT1 E). Qed.
Let Hl' := lw_ok_image g fl ctr Hc f f' lw HI Hl.
Let margs i : in_grid g i -> marg g (P' lw) C i = marg g (P lw) C (mirror g fl i).
Proof. apply (marg_mirror g fl _ _ (HP lw)). Qed.
Section One.
Context (q : coord) (HD : disjoint (cvar q) C = true).
Lemma mirror_mean : exists a b, get_mean (base_obj c) (dname (cvar q) C) lw = Ok a /\ get_mean (base_obj c') (dname (cvar q) C) lw = Ok b /\
    shp a = mdims q C g /\ shp b = mdims q C g /\
    forall i, in_grid g i -> ent b (mcoords q C i) = num_mirrored fl ctr q (ent a (mcoords q C (mirror g fl i))).
Proof.
  destruct (mean_claim c g f lw Hon Hg Hf Hl q C HD HT1) as (a & Ea & Hs & He).
  destruct (mean_claim c' g _ lw Hon' Hg Hf' Hl' q C HD HT2) as (b & Eb & Hs' & He').
  exists a, b. do 4 (split; [assumption|]). intros i Hi. pose proof (mirror_in g fl i Hi) as Hj.
  destruct (He _ Hj) as [A1 A2]. destruct (He' i Hi) as [B1 B2]. fold (P' lw) in B1, B2. fold (P lw) in A1, A2.
  destruct (marg_nonneg g _ C _ Hj (prob_nonneg g f lw Hg Hf Hl)) as [Hp|Hz]; fold (P lw) in *.
  - rewrite (proj1 (A1 Hp)), num_mirrored_Fin. rewrite <- margs in Hp by exact Hi. rewrite (proj1 (B1 Hp)).
    f_equal. apply (Mean_mirror g fl ctr Hc _ _ (HP lw)); assumption.
  - symmetry in Hz. rewrite (A2 Hz), num_mirrored_NaN. apply B2. rewrite margs by exact Hi. exact Hz.
Qed.
Lemma mirror_central j : exists a b, get_central_moment (base_obj c) (dname (cvar q) C) j lw = Ok a /\
    get_central_moment (base_obj c') (dname (cvar q) C) j lw = Ok b /\ shp a = mdims q C g /\ shp b = mdims q C g /\
    forall i, in_grid g i -> ent b (mcoords q C i) = nmul (Fin (sign fl q ^ j)) (ent a (mcoords q C (mirror g fl i))).
Proof.
  destruct (MomClaims.central_claim c g f lw Hon Hg Hf Hl q C HD HT1 j) as (a & Ea & Hs & He).
  destruct (MomClaims.central_claim c' g _ lw Hon' Hg Hf' Hl' q C HD HT2 j) as (b & Eb & Hs' & He').
  exists a, b. do 4 (split; [assumption|]). intros i Hi. pose proof (mirror_in g fl i Hi) as Hj.
  destruct (He _ Hj) as [A1 A2]. destruct (He' i Hi) as [B1 B2]. fold (P' lw) in B1, B2. fold (P lw) in A1, A2.
  destruct (marg_nonneg g _ C _ Hj (prob_nonneg g f lw Hg Hf Hl)) as [Hp|Hz]; fold (P lw) in *.
  - rewrite (A1 Hp), nmul_Fin. rewrite <- margs in Hp by exact Hi. rewrite (B1 Hp).
    f_equal. rewrite (Mean_mirror g fl ctr Hc _ _ (HP lw)) by assumption. apply (Moment_mirror g fl ctr Hc _ _ (HP lw)). exact Hi.
  - symmetry in Hz. rewrite (A2 Hz). apply B2. rewrite margs by exact Hi. exact Hz.
Qed.
End One.
Lemma mirror_cov x y : before x y = true -> disjoint (union (cvar x) (cvar y)) C = true ->
  exists a b, get_covariance (base_obj c) (dname (union (cvar x) (cvar y)) C) lw = Ok a /\
    get_covariance (base_obj c') (dname (union (cvar x) (cvar y)) C) lw = Ok b /\ shp a = mdims (xkey x y) C g /\ shp b = mdims (xkey x y) C g /\
    forall i, in_grid g i -> ent b (mcoords (xkey x y) C i) = nmul (Fin (sign fl x * sign fl y)) (ent a (mcoords (xkey x y) C (mirror g fl i))).
Proof.
  intros Hab HD.
  assert (Dx : disjoint (cvar x) C = true) by (clear -HD; destruct x, y, C as [[] [] [] []]; try discriminate HD; reflexivity).
  assert (Dy : disjoint (cvar y) C = true) by (clear -HD; destruct x, y, C as [[] [] [] []]; try discriminate HD; reflexivity).
  destruct (cov_claim c g f lw Hon Hg Hf Hl x y C Hab HD HT1) as (a & Ea & Hs & He).
  destruct (cov_claim c' g _ lw Hon' Hg Hf' Hl' x y C Hab HD HT2) as (b & Eb & Hs' & He').
  exists a, b. do 4 (split; [assumption|]). intros i Hi. pose proof (mirror_in g fl i Hi) as Hj.
  destruct (He _ Hj) as [A1 A2]. destruct (He' i Hi) as [B1 B2]. fold (P' lw) in B1, B2. fold (P lw) in A1, A2.
  destruct (marg_nonneg g _ C _ Hj (prob_nonneg g f lw Hg Hf Hl)) as [Hp|Hz]; fold (P lw) in *.
  - rewrite (A1 Hp), nmul_Fin. pose proof Hp as Hp'. rewrite <- margs in Hp by exact Hi. rewrite (B1 Hp). f_equal.
    rewrite <- (Covar_eq g (P lw)) by assumption. rewrite <- (Covar_eq g (P' lw)) by assumption.
    apply (Covar_mirror g fl ctr Hc _ _ (HP lw)); assumption.
  - symmetry in Hz. rewrite (A2 Hz). apply B2. rewrite margs by exact Hi. exact Hz.
Qed.
End Mom.
End Base.

(** ** symmetric components *)
Lemma untouched_coords g fl C i : untouched fl C -> coords C (mirror g fl i) = coords C i.
Proof.
  intros [Hv Hx]. unfold coords, mirror, opt. cbn [bt bv bx by_ bz].
  destruct (has_v C); [rewrite (Hv eq_refl)|]; (destruct (has_x C); [destruct (Hx eq_refl) as [-> ->]|]); reflexivity.
Qed.
Lemma untouched_mcoords g fl C q i : untouched fl C -> mcoords q C (mirror g fl i) = mcoords q C i.
Proof. intros H. unfold mcoords. rewrite untouched_coords by exact H. reflexivity. Qed.
Lemma sign_odd fl q j : flipped fl q = true -> Nat.odd j = true -> sign fl q ^ j = -1.
Proof.
  intros H Hj. unfold sign. rewrite H. apply Nat.odd_spec in Hj as (k & ->). rewrite pow_add, pow_mult.
  replace ((-1) ^ 2) with 1 by ring. rewrite pow1. ring.
Qed.
Lemma nmul_neg_self a r : a = Fin r -> a = nmul (Fin (-1)) a -> a = Fin 0.
Proof. intros -> E. rewrite nmul_Fin in E. injection E as E. f_equal. lra. Qed.

Section Symmetric.
Context (g : grid) (fl : flips) (ctr : coord -> R) (Hc : centred g fl ctr).
Context (c : component) (f : joint) (Hon : comp_on c g f) (Hg : good_grid g) (Hf : nonneg g f) (HI : image g fl f f).
Context (C : vset) (lw : bool) (Hl : lw_ok g f lw) (HT : nonempty C = false -> lw = false -> total g (mass g f) = 1).
Context (HU : untouched fl C).
Let HT1 : nonempty C = false -> total g (prob g f lw) = 1.
Proof. intros E. destruct lw eqn:El; [apply total_light; apply Rgt_not_eq, Hl; reflexivity|apply HT; auto]. Qed.

Lemma symmetric_one q : disjoint (cvar q) C = true -> flipped fl q = true -> forall j, Nat.odd j = true ->
  exists a b, get_mean (base_obj c) (dname (cvar q) C) lw = Ok a /\ get_central_moment (base_obj c) (dname (cvar q) C) j lw = Ok b /\
    forall i, in_grid g i -> 0 < marg g (prob g f lw) C i -> ent a (mcoords q C i) = Fin (ctr q) /\ ent b (mcoords q C i) = Fin 0.
Proof.
  intros HD Hq j Hj.
  destruct (mirror_mean g fl ctr Hc c c f f Hon Hon Hg Hf HI C lw Hl HT q HD) as (a & a' & Ea & Ea' & _ & _ & Ha).
  rewrite Ea in Ea'. injection Ea' as <-.
  destruct (mirror_central g fl ctr Hc c c f f Hon Hon Hg Hf HI C lw Hl HT q HD j) as (b & b' & Eb & Eb' & _ & _ & Hb).
  rewrite Eb in Eb'. injection Eb' as <-.
  exists a, b. split; [exact Ea|]. split; [exact Eb|]. intros i Hi Hp.
  destruct (mean_claim c g f lw Hon Hg Hf Hl q C HD HT1) as (a0 & Ea0 & _ & He). rewrite Ea in Ea0. injection Ea0 as <-.
  destruct (MomClaims.central_claim c g f lw Hon Hg Hf Hl q C HD HT1 j) as (b0 & Eb0 & _ & He'). rewrite Eb in Eb0. injection Eb0 as <-.
  specialize (Ha i Hi). specialize (Hb i Hi). rewrite untouched_mcoords in Ha, Hb by exact HU. split.
  - unfold num_mirrored in Ha. rewrite Hq in Ha. rewrite (proj1 (proj1 (He i Hi) Hp)) in *. rewrite nsub_Fin in Ha. injection Ha as Ha. f_equal. lra.
  - rewrite (sign_odd fl q j Hq Hj) in Hb. exact (nmul_neg_self _ _ (proj1 (He' i Hi) Hp) Hb).
Qed.
Lemma symmetric_two x y : before x y = true -> disjoint (union (cvar x) (cvar y)) C = true -> flipped fl x <> flipped fl y ->
  exists a, get_covariance (base_obj c) (dname (union (cvar x) (cvar y)) C) lw = Ok a /\
    forall i, in_grid g i -> 0 < marg g (prob g f lw) C i -> ent a (mcoords (xkey x y) C i) = Fin 0.
Proof.
  intros Hab HD Hne.
  destruct (mirror_cov g fl ctr Hc c c f f Hon Hon Hg Hf HI C lw Hl HT x y Hab HD) as (a & a' & Ea & Ea' & _ & _ & Ha).
  rewrite Ea in Ea'. injection Ea' as <-. exists a. split; [exact Ea|]. intros i Hi Hp.
  destruct (cov_claim c g f lw Hon Hg Hf Hl x y C Hab HD HT1) as (a0 & Ea0 & _ & He). rewrite Ea in Ea0. injection Ea0 as <-.
  specialize (Ha i Hi). rewrite untouched_mcoords in Ha by exact HU.
  replace (sign fl x * sign fl y) with (-1) in Ha.
  - exact (nmul_neg_self _ _ (proj1 (He i Hi) Hp) Ha).
  - unfold sign. destruct (flipped fl x), (flipped fl y); try congruence; ring.
Qed.
End Symmetric.
