(** * DistLemmas: the public get_p / get_log_p of a base component. *)
From Coq Require Import Reals Lra Lia List Bool Arith ZArith String Ascii.
From Verif Require Import Num NumLemmas Arr ArrLemmas PyStr Cube Base Spec SpecLemmas Repr
  CubeLemmas BaseLemmas CondLemmas.
Import ListNotations.
Local Open Scope R_scope.

Lemma name_no_sep S : has_char "_" (name S) = false.
Proof. destruct S as [[] [] [] []]; reflexivity. Qed.
Lemma cname_sep A C : has_char "_" (cname A C) = true.
Proof. destruct A as [[] [] [] []], C as [[] [] [] []]; reflexivity. Qed.
Lemma base_table_cname self A C : base_table self (cname A C) = None.
Proof. destruct A as [[] [] [] []], C as [[] [] [] []]; reflexivity. Qed.

Lemma agree_proj S i : agree S (proj S i) i.
Proof. destruct i; unfold agree, proj; destruct S as [[] [] [] []]; cbn; repeat split; intros; congruence. Qed.

Lemma in_grid_proj g S i : good_grid g -> in_grid g i -> in_grid g (proj S i).
Proof.
  intros [] (Ht & Hv & Hx & Hy & Hz). unfold in_grid, proj; cbn.
  destruct S as [[] [] [] []]; cbn; auto 10.
Qed.

Lemma nonempty_union A C : nonempty A = true -> nonempty (union A C) = true.
Proof.
  destruct A as [[] [] [] []]; try discriminate; destruct C as [[] [] [] []]; reflexivity.
Qed.

Section Comp.
Context (self : component) (g : grid) (f : joint).
Context (H : comp_on self g f) (Hg : good_grid g) (Hf : nonneg g f).
Let Hc := cm_cube _ _ _ H.

Lemma get_log_p_marg S density lw : nonempty S = true -> lw_ok g f lw ->
  exists a, get_log_p self (name S) density lw = Ok a /\ shp a = dims S g /\
    forall i, in_grid g i ->
      ent a (coords S i) = lg (marg g (prob g f lw) S i / (if density then vol g S i else 1)).
Proof.
  intros HS Hl. destruct (marginal_ok self g f H Hg Hf S density lw HS Hl) as (a & E & Hs & He).
  exists a. unfold get_log_p, get_log_p_of. rewrite name_no_sep. split; [exact E|].
  split; [exact Hs|]. intros i Hi. rewrite He by (apply coords_inb; assumption).
  rewrite rd_coords0. unfold dens. f_equal.
  rewrite (marg_agree g _ S _ i (agree_proj S i)), (vol_agree g S _ i (agree_proj S i)). reflexivity.
Qed.

Lemma get_log_p_cond A C density lw :
  nonempty A = true -> nonempty C = true -> disjoint A C = true -> lw_ok g f lw ->
  exists a, get_log_p self (cname A C) density lw = Ok a /\ shp a = (dims A g ++ dims C g)%list /\
    forall i, in_grid g i ->
      ent a (coords A i ++ coords C i) =
      cond_entry (marg g (prob g f lw) (union A C) i / (if density then vol g A i else 1))
                 (marg g (prob g f lw) C i).
Proof.
  intros HA HC HD Hl.
  assert (Htab : forall S, nonempty S = true -> marg_table (base_table self) g (prob g f lw) lw S).
  { intros S HS. destruct (marginal_ok self g f H Hg Hf S false lw HS Hl) as (a & E & Ha).
    exists a; split; [exact E|]. eapply arr_is_ext; [exact Ha|]. intros; cbn. f_equal. field. }
  destruct (cond_ok (comp_cube self) (base_table self) g (prob g f lw) lw Hc Hg
             (prob_nonneg g f lw Hg Hf Hl) A C density HA HC HD) as (a & E & Hs & He).
  - apply Htab. apply nonempty_union, HA.
  - apply Htab, HC.
  - unfold no_method. rewrite base_table_cname. exact I.
  - exists a. unfold get_log_p, get_log_p_of. rewrite cname_sep. split; [exact E|].
    split; [exact Hs|]. intros i Hi. rewrite He by (apply inb_app; apply coords_inb; assumption).
    cbn. rewrite rd2_coords by assumption.
    rewrite (marg_agree g _ (union A C) _ i) by apply agree_proj.
    rewrite (marg_agree g _ C _ i), (vol_agree g A _ i); [reflexivity| |];
      eapply agree_subset; try apply agree_proj;
      destruct A as [[] [] [] []], C as [[] [] [] []]; reflexivity.
Qed.

Lemma div_pos_le j w : 0 <= j -> 0 < w -> 0 <= j / w.
Proof. intros. apply Rmult_le_pos; [assumption|left; apply Rinv_0_lt_compat; assumption]. Qed.

Lemma dens_pos' (density : bool) S i : in_grid g i -> 0 < (if density then vol g S i else 1).
Proof. destruct density; intros; [apply vol_pos; assumption|lra]. Qed.

Lemma get_p_marg S density lw : nonempty S = true -> lw_ok g f lw ->
  exists a, get_p self (name S) density lw = Ok a /\ shp a = dims S g /\
    forall i, in_grid g i ->
      ent a (coords S i) = Fin (marg g (prob g f lw) S i / (if density then vol g S i else 1)).
Proof.
  intros HS Hl. destruct (get_log_p_marg S density lw HS Hl) as (a & E & Hs & He).
  unfold get_p, get_p_of. unfold get_log_p in E. rewrite E. cbn [bind].
  eexists; split; [reflexivity|]. split; [exact Hs|]. intros i Hi. cbn. rewrite He by assumption.
  apply nexp_lg. apply div_pos_le.
  - apply marg_nonneg; [assumption|apply prob_nonneg; assumption].
  - apply dens_pos'; assumption.
Qed.

Lemma get_p_cond A C density lw :
  nonempty A = true -> nonempty C = true -> disjoint A C = true -> lw_ok g f lw ->
  exists a, get_p self (cname A C) density lw = Ok a /\ shp a = (dims A g ++ dims C g)%list /\
    forall i, in_grid g i ->
      (0 < marg g (prob g f lw) C i ->
       ent a (coords A i ++ coords C i) =
       Fin (marg g (prob g f lw) (union A C) i / marg g (prob g f lw) C i /
            (if density then vol g A i else 1))) /\
      (marg g (prob g f lw) C i = 0 -> ent a (coords A i ++ coords C i) = NaN).
Proof.
  intros HA HC HD Hl. destruct (get_log_p_cond A C density lw HA HC HD Hl) as (a & E & Hs & He).
  unfold get_p, get_p_of. unfold get_log_p in E. rewrite E. cbn [bind].
  eexists; split; [reflexivity|]. split; [exact Hs|]. intros i Hi. cbn. rewrite He by assumption.
  unfold cond_entry. pose proof (dens_pos' density A i Hi).
  split.
  - intros Hm. destruct (Rlt_dec 0 _) as [_|n]; [|contradiction].
    rewrite nexp_lg.
    + f_equal. field. lra.
    + apply div_pos_le; [|assumption]. apply div_pos_le; [|assumption].
      apply marg_nonneg; [assumption|apply prob_nonneg; assumption].
  - intros Hm. rewrite Hm. destruct (Rlt_dec 0 0) as [n|_]; [lra|reflexivity].
Qed.

(** the conditioner has positive mass or is empty *)
Lemma marg_cases C lw i : lw_ok g f lw -> in_grid g i ->
  0 < marg g (prob g f lw) C i \/ marg g (prob g f lw) C i = 0.
Proof.
  intros Hl Hi. pose proof (marg_nonneg g _ C i Hi (prob_nonneg g f lw Hg Hf Hl)). lra.
Qed.

Lemma cond_never_inf A C density lw i a :
  nonempty A = true -> nonempty C = true -> disjoint A C = true -> lw_ok g f lw -> in_grid g i ->
  get_p self (cname A C) density lw = Ok a ->
  ent a (coords A i ++ coords C i) <> PInf /\ ent a (coords A i ++ coords C i) <> NInf.
Proof.
  intros HA HC HD Hl Hi E. destruct (get_p_cond A C density lw HA HC HD Hl) as (a' & E' & _ & He).
  rewrite E in E'; injection E' as <-. specialize (He i Hi) as [He1 He2].
  destruct (marg_cases C lw i Hl Hi) as [h|h]; [rewrite He1|rewrite He2]; auto; split; discriminate.
Qed.

(** ** density and probability *)
Lemma density_marg S lw : nonempty S = true -> lw_ok g f lw ->
  exists p d, get_p self (name S) false lw = Ok p /\ get_p self (name S) true lw = Ok d /\
    forall i, in_grid g i -> ent d (coords S i) = ndiv (ent p (coords S i)) (Fin (vol g S i)).
Proof.
  intros HS Hl. destruct (get_p_marg S false lw HS Hl) as (p & Ep & _ & Hp).
  destruct (get_p_marg S true lw HS Hl) as (d & Ed & _ & Hd).
  exists p, d; split; [exact Ep|]; split; [exact Ed|]. intros i Hi. rewrite Hp, Hd by assumption.
  pose proof (vol_pos g S i Hg Hi). rewrite ndiv_Fin by lra. f_equal. field. lra.
Qed.

Lemma density_cond A C lw :
  nonempty A = true -> nonempty C = true -> disjoint A C = true -> lw_ok g f lw ->
  exists p d, get_p self (cname A C) false lw = Ok p /\ get_p self (cname A C) true lw = Ok d /\
    forall i, in_grid g i -> ent d (coords A i ++ coords C i) =
                             ndiv (ent p (coords A i ++ coords C i)) (Fin (vol g A i)).
Proof.
  intros HA HC HD Hl. destruct (get_p_cond A C false lw HA HC HD Hl) as (p & Ep & _ & Hp).
  destruct (get_p_cond A C true lw HA HC HD Hl) as (d & Ed & _ & Hd).
  exists p, d; split; [exact Ep|]; split; [exact Ed|]. intros i Hi.
  destruct (Hp i Hi) as [Hp1 Hp2], (Hd i Hi) as [Hd1 Hd2].
  pose proof (vol_pos g A i Hg Hi).
  destruct (marg_cases C lw i Hl Hi) as [h|h].
  - rewrite Hp1, Hd1 by assumption. rewrite ndiv_Fin by lra. f_equal. field. lra.
  - rewrite Hp2, Hd2 by assumption. reflexivity.
Qed.

(** ** normalisation *)
Lemma nsum_bins (F : bin -> num) (h : bin -> R) S i : in_grid g i ->
  (forall j, in_grid g j -> agree (VSet (negb (has_t S)) (negb (has_v S)) (negb (has_x S)) (negb (has_z S))) j i ->
     F j = Fin (h j)) ->
  nsum (map F (bins_over g S i)) = Fin (sum_over g S i h).
Proof.
  intros Hi HF. rewrite <- sum_bins_over. apply nsum_map_Fin. intros j Hj.
  apply bins_over_in in Hj as [Hj1 Hj2]; [|assumption]. apply HF; assumption.
Qed.

Lemma norm_marg S lw i : nonempty S = true -> lw_ok g f lw -> in_grid g i ->
  exists p, get_p self (name S) false lw = Ok p /\
    nsum (map (fun j => ent p (coords S j)) (bins_over g S i)) = Fin (total g (prob g f lw)).
Proof.
  intros HS Hl Hi. destruct (get_p_marg S false lw HS Hl) as (p & Ep & _ & Hp).
  exists p; split; [exact Ep|]. rewrite (nsum_bins _ (marg g (prob g f lw) S)).
  - rewrite marg_total_sum; reflexivity.
  - assumption.
  - intros j Hj _. rewrite Hp by assumption. f_equal. field.
Qed.

Lemma total_prob_lw : lw_ok g f true -> total g (prob g f true) = 1.
Proof. intros Hl. apply total_light. specialize (Hl eq_refl). lra. Qed.

Lemma sum_over_scal S i F k : sum_over g S i (fun j => k * F j) = k * sum_over g S i F.
Proof.
  unfold sum_over. repeat (rewrite <- sum_if_scal; apply sum_if_ext_all; intros). reflexivity.
Qed.

Lemma norm_cond A C lw i :
  nonempty A = true -> nonempty C = true -> disjoint A C = true -> lw_ok g f lw -> in_grid g i ->
  0 < marg g (prob g f lw) C i ->
  exists p, get_p self (cname A C) false lw = Ok p /\
    nsum (map (fun j => ent p (coords A j ++ coords C j)) (bins_over g A i)) = Fin 1.
Proof.
  intros HA HC HD Hl Hi Hm. destruct (get_p_cond A C false lw HA HC HD Hl) as (p & Ep & _ & Hp).
  exists p; split; [exact Ep|].
  set (m := marg g (prob g f lw) C i) in *.
  rewrite (nsum_bins _ (fun j => / m * marg g (prob g f lw) (union A C) j)).
  - rewrite sum_over_scal, sum_over_marg by assumption. fold m. f_equal. field. lra.
  - assumption.
  - intros j Hj Hag. destruct (Hp j Hj) as [Hp1 _].
    assert (E : marg g (prob g f lw) C j = m).
    { apply marg_agree. eapply agree_subset; [|exact Hag].
      destruct A as [[] [] [] []], C as [[] [] [] []]; try discriminate HD; reflexivity. }
    rewrite E in Hp1. rewrite Hp1 by assumption. f_equal. field. lra.
Qed.

(** ** product rule *)
Lemma product_rule A C density lw :
  nonempty A = true -> nonempty C = true -> disjoint A C = true -> lw_ok g f lw ->
  exists pac pc pj, get_p self (cname A C) density lw = Ok pac /\
    get_p self (name C) density lw = Ok pc /\ get_p self (name (union A C)) density lw = Ok pj /\
    forall i, in_grid g i -> ent pc (coords C i) <> Fin 0 ->
      nmul (ent pac (coords A i ++ coords C i)) (ent pc (coords C i)) = ent pj (coords (union A C) i).
Proof.
  intros HA HC HD Hl. destruct (get_p_cond A C density lw HA HC HD Hl) as (pac & E1 & _ & H1).
  destruct (get_p_marg C density lw HC Hl) as (pc & E2 & _ & H2).
  assert (HU : nonempty (union A C) = true) by (apply nonempty_union, HA).
  destruct (get_p_marg (union A C) density lw HU Hl) as (pj & E3 & _ & H3).
  exists pac, pc, pj. do 3 (split; [assumption|]). intros i Hi Hne.
  rewrite H2 in Hne |- * by assumption. rewrite H3 by assumption.
  pose proof (dens_pos' density A i Hi). pose proof (dens_pos' density C i Hi).
  destruct (H1 i Hi) as [H1a _]. destruct (marg_cases C lw i Hl Hi) as [h|h].
  - rewrite H1a by assumption. rewrite nmul_Fin. f_equal.
    destruct density; [rewrite vol_union by assumption|]; field; lra.
  - exfalso; apply Hne. rewrite h. f_equal. unfold Rdiv; ring.
Qed.

Lemma bayes_rule A C density lw :
  nonempty A = true -> nonempty C = true -> disjoint A C = true -> lw_ok g f lw ->
  exists pac pc pca pa, get_p self (cname A C) density lw = Ok pac /\
    get_p self (name C) density lw = Ok pc /\ get_p self (cname C A) density lw = Ok pca /\
    get_p self (name A) density lw = Ok pa /\
    forall i, in_grid g i -> ent pc (coords C i) <> Fin 0 -> ent pa (coords A i) <> Fin 0 ->
      nmul (ent pac (coords A i ++ coords C i)) (ent pc (coords C i)) =
      nmul (ent pca (coords C i ++ coords A i)) (ent pa (coords A i)).
Proof.
  intros HA HC HD Hl. destruct (product_rule A C density lw HA HC HD Hl) as (pac & pc & pj & E1 & E2 & E3 & H1).
  assert (HD' : disjoint C A = true).
  { destruct A as [[] [] [] []], C as [[] [] [] []]; try discriminate HD; reflexivity. }
  destruct (product_rule C A density lw HC HA HD' Hl) as (pca & pa & pj' & E4 & E5 & E6 & H2).
  assert (EU : union C A = union A C).
  { destruct A as [[] [] [] []], C as [[] [] [] []]; reflexivity. }
  rewrite EU in *. rewrite E3 in E6; injection E6 as <-.
  exists pac, pc, pca, pa. do 4 (split; [assumption|]). intros i Hi h1 h2. rewrite H1, H2 by assumption. reflexivity.
Qed.

(** ** marginal consistency *)
Lemma marginal_consistency A C lw : nonempty C = true -> disjoint A C = true -> lw_ok g f lw ->
  exists pj pc, get_p self (name (union A C)) false lw = Ok pj /\ get_p self (name C) false lw = Ok pc /\
    forall i, in_grid g i ->
      nsum (map (fun j => ent pj (coords (union A C) j)) (bins_over g A i)) = ent pc (coords C i).
Proof.
  intros HC HD Hl.
  assert (HU : nonempty (union A C) = true).
  { destruct A as [[] [] [] []], C as [[] [] [] []]; try discriminate HC; reflexivity. }
  destruct (get_p_marg (union A C) false lw HU Hl) as (pj & E3 & _ & H3).
  destruct (get_p_marg C false lw HC Hl) as (pc & E2 & _ & H2).
  exists pj, pc. do 2 (split; [assumption|]). intros i Hi. rewrite H2 by assumption.
  rewrite (nsum_bins _ (marg g (prob g f lw) (union A C))).
  - rewrite sum_over_marg by assumption. f_equal. field.
  - assumption.
  - intros j Hj _. rewrite H3 by assumption. f_equal. field.
Qed.

(** ** exp / log *)
Lemma log_zero_iff S density lw : nonempty S = true -> lw_ok g f lw ->
  exists l p, get_log_p self (name S) density lw = Ok l /\ get_p self (name S) density lw = Ok p /\
   forall i, in_grid g i -> (exists r, ent p (coords S i) = Fin r /\ 0 <= r) /\
      (ent l (coords S i) = NInf <-> ent p (coords S i) = Fin 0).
Proof.
  intros HS Hl. destruct (get_log_p_marg S density lw HS Hl) as (l & El & _ & HL).
  destruct (get_p_marg S density lw HS Hl) as (p & Ep & _ & Hp).
  exists l, p. do 2 (split; [assumption|]). intros i Hi. rewrite HL, Hp by assumption.
  set (x := _ / _). assert (Hx : 0 <= x).
  { apply div_pos_le; [apply marg_nonneg; [assumption|apply prob_nonneg; assumption]|apply dens_pos'; assumption]. }
  split; [eauto|]. destruct Hx as [Hx|<-].
  - rewrite lg_pos by assumption. split; [discriminate|]. intros E; injection E; lra.
  - rewrite lg_0. tauto.
Qed.

End Comp.

(** get_p = exp(get_log_p), for every string, by definition of get_p *)
Lemma get_p_exp self w density lw :
  match get_log_p self w density lw, get_p self w density lw with
  | Ok l, Ok p => shp p = shp l /\ forall idx, ent p idx = nexp (ent l idx)
  | Err e, Err e' => e = e'
  | _, _ => False
  end.
Proof.
  unfold get_p, get_p_of, get_log_p. destruct (get_log_p_of _ _ _ _ _); cbn; auto.
Qed.

(** ** forms used by the claims *)
Section Claims.
Context (self : component) (g : grid) (f : joint).

Lemma marg_mass_claim S :
  comp_on self g f -> good_grid g -> nonneg g f -> nonempty S = true ->
  exists a, get_p self (name S) false false = Ok a /\ shp a = dims S g /\
    forall i, in_grid g i -> ent a (coords S i) = Fin (marg g (mass g f) S i).
Proof.
  intros H Hg Hf HS. destruct (get_p_marg self g f H Hg Hf S false false HS ltac:(discriminate)) as (a & E & Hs & He).
  exists a. do 2 (split; [assumption|]). intros i Hi. rewrite He by assumption. f_equal. unfold prob. field.
Qed.

Lemma marg_light S i : in_grid g i -> 0 < total g (lit g (mass g f)) ->
  marg g (prob g f true) S i = marg g (lit g (mass g f)) S i / total g (lit g (mass g f)).
Proof.
  intros Hi Ht. unfold Rdiv. rewrite Rmult_comm, <- marg_scal. apply marg_ext; [assumption|].
  intros t v x y z _ _ _ _ _. unfold prob, light, Rdiv. ring.
Qed.

Lemma light_claim S :
  comp_on self g f -> good_grid g -> nonneg g f -> nonempty S = true ->
  0 < total g (lit g (mass g f)) ->
  exists a, get_p self (name S) false true = Ok a /\ shp a = dims S g /\
    (forall i, in_grid g i ->
       ent a (coords S i) = Fin (marg g (lit g (mass g f)) S i / total g (lit g (mass g f)))) /\
    (forall i, in_grid g i ->
       nsum (map (fun j => ent a (coords S j)) (bins_over g S i)) = Fin 1).
Proof.
  intros H Hg Hf HS Ht.
  assert (Hl : lw_ok g f true) by (intros _; exact Ht).
  destruct (get_p_marg self g f H Hg Hf S false true HS Hl) as (a & E & Hs & He).
  exists a. do 2 (split; [assumption|]). split.
  - intros i Hi. rewrite He, marg_light by assumption. f_equal. field. lra.
  - intros i Hi. destruct (norm_marg self g f H Hg Hf S true i HS Hl Hi) as (p & Ep & Hp).
    rewrite E in Ep; injection Ep as <-. rewrite Hp, total_prob_lw by assumption. reflexivity.
Qed.
End Claims.
