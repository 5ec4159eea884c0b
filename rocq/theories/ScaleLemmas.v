(** * ScaleLemmas: rescaling the mass or the light; the constructor. *)
From Coq Require Import Reals Lra Lia List Bool Arith ZArith String Ascii.
From Verif Require Import Num NumLemmas Arr ArrLemmas PyStr Cube Base Spec SpecLemmas Repr
  CubeLemmas BaseLemmas CondLemmas DistLemmas.
Import ListNotations.
Local Open Scope R_scope.

(** the component with [k] added to its stored log density *)
Definition shift_log (k : R) (self : component) : component :=
  Component (comp_cube self) (amap (fun x => nadd x (Fin k)) (log_p_tvxz self)).

(** the component on a cube whose SSP light weights are multiplied by [k] *)
Definition scale_ssps (k : R) (s : ssps) : ssps :=
  Ssps (par_edges_z s) (par_edges_t s) (par_cents_z s) (par_cents_t s) (delta_t s) (delta_z s) (par_dims s)
       (amap (nmul (Fin k)) (light_weights s)) (ssp_dv s) (Xw s) (FXw s) (n_fft s).
Definition scale_light (k : R) (self : component) : component :=
  let c := comp_cube self in
  Component (Cube (scale_ssps k (c_ssps c)) (c_nx c) (c_ny c) (c_x1rng c) (c_x2rng c) (c_dx c) (c_dy c)
                  (c_x c) (c_y c) (c_xx c) (c_yy c) (c_nv c) (c_v_edg c)) (log_p_tvxz self).

Definition scaled_grid (k : R) (g : grid) : grid :=
  Grid (nt g) (nv g) (nx g) (ny g) (nz g) (tE g) (vE g) (xE g) (yE g) (zE g) (fun t z => k * Lw g t z).

Definition jscal (k : R) (P : joint) : joint := fun t v x y z => k * P t v x y z.

Lemma shift_on self g f k : nonneg g f -> comp_on self g f -> comp_on (shift_log k self) g (jscal (exp k) f).
Proof.
  intros Hf H. constructor; [apply (cm_cube _ _ _ H)|apply (cm_shp _ _ _ H)|].
  intros t v x y z Ht Hv Hx Hy Hz. cbn. rewrite (cm_ent _ _ _ H) by assumption.
  rewrite !nlog_Fin, nadd_lg_Fin by (apply Hf; assumption). f_equal. unfold jscal. ring.
Qed.
Lemma jscal_nonneg g f k : 0 <= k -> nonneg g f -> nonneg g (jscal k f).
Proof. intros Hk Hf t v x y z Ht Hv Hx Hy Hz. apply Rmult_le_pos; [assumption|apply Hf; assumption]. Qed.

Lemma mass_jscal g f k t v x y z : mass g (jscal k f) t v x y z = k * mass g f t v x y z.
Proof. unfold mass, jscal; ring. Qed.
Lemma lit_jscal g f k : total g (lit g (mass g (jscal k f))) = k * total g (lit g (mass g f)).
Proof.
  rewrite <- total_scal. apply total_ext. intros t v x y z _ _ _ _ _. unfold lit. rewrite mass_jscal; ring.
Qed.

Lemma prob_jscal_mass g f k S i : in_grid g i ->
  marg g (prob g (jscal k f) false) S i = k * marg g (prob g f false) S i.
Proof.
  intros Hi. rewrite <- marg_scal. apply marg_ext; [assumption|].
  intros t v x y z _ _ _ _ _. apply mass_jscal.
Qed.
Lemma prob_jscal_light g f k S i : in_grid g i -> 0 < k -> 0 < total g (lit g (mass g f)) ->
  marg g (prob g (jscal k f) true) S i = marg g (prob g f true) S i.
Proof.
  intros Hi Hk Ht. apply marg_ext; [assumption|].
  intros t v x y z _ _ _ _ _. unfold prob, light. rewrite lit_jscal.
  set (T0 := total g (lit g (mass g f))) in *. unfold lit. rewrite mass_jscal. field. split; lra.
Qed.
Lemma lw_ok_jscal g f k lw : 0 < k -> lw_ok g f lw -> lw_ok g (jscal k f) lw.
Proof. intros Hk Hl E. rewrite lit_jscal. apply Rmult_lt_0_compat; auto. Qed.

Section Shift.
Context (self : component) (g : grid) (f : joint) (k : R).
Context (H : comp_on self g f) (Hg : good_grid g) (Hf : nonneg g f).
Let H' := shift_on self g f k Hf H.
Let Hf' := jscal_nonneg g f (exp k) (Rlt_le _ _ (exp_pos k)) Hf.

Lemma shift_marg_mass S density : nonempty S = true ->
  exists p p', get_p self (name S) density false = Ok p /\
    get_p (shift_log k self) (name S) density false = Ok p' /\
    forall i, in_grid g i -> ent p' (coords S i) = nmul (Fin (exp k)) (ent p (coords S i)).
Proof.
  intros HS. assert (Hl : lw_ok g f false) by discriminate.
  assert (Hl' : lw_ok g (jscal (exp k) f) false) by discriminate.
  destruct (get_p_marg self g f H Hg Hf S density false HS Hl) as (p & Ep & _ & Hp).
  destruct (get_p_marg _ g _ H' Hg Hf' S density false HS Hl') as (p' & Ep' & _ & Hp').
  exists p, p'. do 2 (split; [assumption|]). intros i Hi. rewrite Hp, Hp', nmul_Fin by assumption.
  rewrite prob_jscal_mass by assumption. f_equal. unfold Rdiv; ring.
Qed.

Lemma shift_marg_light S density : nonempty S = true -> lw_ok g f true ->
  exists p p', get_p self (name S) density true = Ok p /\
    get_p (shift_log k self) (name S) density true = Ok p' /\
    forall i, in_grid g i -> ent p' (coords S i) = ent p (coords S i).
Proof.
  intros HS Hl.
  pose proof (lw_ok_jscal g f (exp k) true (exp_pos k) Hl) as Hl'.
  destruct (get_p_marg self g f H Hg Hf S density true HS Hl) as (p & Ep & _ & Hp).
  destruct (get_p_marg _ g _ H' Hg Hf' S density true HS Hl') as (p' & Ep' & _ & Hp').
  exists p, p'. do 2 (split; [assumption|]). intros i Hi. rewrite Hp, Hp' by assumption.
  rewrite prob_jscal_light by (try assumption; try apply exp_pos; auto). reflexivity.
Qed.

Lemma shift_cond A C density lw :
  nonempty A = true -> nonempty C = true -> disjoint A C = true -> lw_ok g f lw ->
  exists p p', get_p self (cname A C) density lw = Ok p /\
    get_p (shift_log k self) (cname A C) density lw = Ok p' /\
    forall i, in_grid g i -> ent p' (coords A i ++ coords C i) = ent p (coords A i ++ coords C i).
Proof.
  intros HA HC HD Hl.
  pose proof (lw_ok_jscal g f (exp k) lw (exp_pos k) Hl) as Hl'.
  destruct (get_p_cond self g f H Hg Hf A C density lw HA HC HD Hl) as (p & Ep & _ & Hp).
  destruct (get_p_cond _ g _ H' Hg Hf' A C density lw HA HC HD Hl') as (p' & Ep' & _ & Hp').
  exists p, p'. do 2 (split; [assumption|]). intros i Hi.
  destruct (Hp i Hi) as [Hp1 Hp2], (Hp' i Hi) as [Hp1' Hp2'].
  pose proof (exp_pos k) as Hk. pose proof (dens_pos' g Hg density A i Hi) as Hdp.
  destruct lw.
  - rewrite !prob_jscal_light in * by auto.
    destruct (marg_cases g f Hg Hf C true i Hl Hi) as [h|h].
    + rewrite Hp1, Hp1' by assumption. reflexivity.
    + rewrite Hp2, Hp2' by assumption. reflexivity.
  - rewrite !prob_jscal_mass in * by auto.
    destruct (marg_cases g f Hg Hf C false i Hl Hi) as [h|h].
    + rewrite Hp1, Hp1' by (try assumption; apply Rmult_lt_0_compat; assumption).
      f_equal. field. lra.
    + rewrite Hp2, Hp2' by (try assumption; rewrite h; ring). reflexivity.
Qed.
End Shift.

Section ScaleLight.
Context (self : component) (g : grid) (f : joint) (k : R).
Context (H : comp_on self g f) (Hg : good_grid g) (Hf : nonneg g f) (Hk : 0 < k).

Lemma scale_light_on : comp_on (scale_light k self) (scaled_grid k g) f.
Proof.
  destruct H as [Hc Hs He]. constructor; [|exact Hs|exact He].
  destruct Hc. constructor; cbn; try assumption.
  destruct co_ssps. constructor; cbn; try assumption.
  intros t z Ht Hz. rewrite so_lw by assumption. reflexivity.
Qed.
Lemma scaled_good : good_grid (scaled_grid k g).
Proof.
  destruct Hg. constructor; cbn; auto. intros t z Ht Hz. apply Rmult_le_pos; [lra|auto].
Qed.
Lemma scaled_lit : total (scaled_grid k g) (lit (scaled_grid k g) (mass (scaled_grid k g) f))
  = k * total g (lit g (mass g f)).
Proof.
  rewrite <- total_scal. apply (total_ext g). intros t v x y z _ _ _ _ _. unfold lit, mass; cbn. ring.
Qed.
Lemma scaled_prob lw S i : in_grid g i -> lw_ok g f lw ->
  marg (scaled_grid k g) (prob (scaled_grid k g) f lw) S i = marg g (prob g f lw) S i.
Proof.
  intros Hi Hl. apply (marg_ext g _ _ S i Hi). intros t v x y z _ _ _ _ _.
  destruct lw; [|reflexivity]. specialize (Hl eq_refl).
  cbn [prob]. unfold light. rewrite scaled_lit.
  set (T0 := total g (lit g (mass g f))) in *. unfold lit, mass; cbn. field. split; lra.
Qed.
Lemma scaled_lw_ok lw : lw_ok g f lw -> lw_ok (scaled_grid k g) f lw.
Proof. intros Hl E. rewrite scaled_lit. apply Rmult_lt_0_compat; auto. Qed.

Lemma scale_light_marg S density lw : nonempty S = true -> lw_ok g f lw ->
  exists p p', get_p self (name S) density lw = Ok p /\
    get_p (scale_light k self) (name S) density lw = Ok p' /\
    forall i, in_grid g i -> ent p' (coords S i) = ent p (coords S i).
Proof.
  intros HS Hl.
  destruct (get_p_marg self g f H Hg Hf S density lw HS Hl) as (p & Ep & _ & Hp).
  destruct (get_p_marg _ (scaled_grid k g) f scale_light_on scaled_good Hf S density lw HS (scaled_lw_ok lw Hl))
    as (p' & Ep' & _ & Hp').
  exists p, p'. do 2 (split; [assumption|]). intros i Hi. rewrite Hp, Hp' by assumption.
  rewrite scaled_prob by assumption. reflexivity.
Qed.
Lemma scale_light_cond A C density lw :
  nonempty A = true -> nonempty C = true -> disjoint A C = true -> lw_ok g f lw ->
  exists p p', get_p self (cname A C) density lw = Ok p /\
    get_p (scale_light k self) (cname A C) density lw = Ok p' /\
    forall i, in_grid g i -> ent p' (coords A i ++ coords C i) = ent p (coords A i ++ coords C i).
Proof.
  intros HA HC HD Hl.
  destruct (get_p_cond self g f H Hg Hf A C density lw HA HC HD Hl) as (p & Ep & _ & Hp).
  destruct (get_p_cond _ (scaled_grid k g) f scale_light_on scaled_good Hf A C density lw HA HC HD (scaled_lw_ok lw Hl))
    as (p' & Ep' & _ & Hp').
  exists p, p'. do 2 (split; [assumption|]). intros i Hi.
  destruct (Hp i Hi) as [Hp1 Hp2], (Hp' i Hi) as [Hp1' Hp2']. rewrite !scaled_prob in * by assumption.
  destruct (marg_cases g f Hg Hf C lw i Hl Hi) as [h|h].
  - rewrite Hp1, Hp1' by assumption. reflexivity.
  - rewrite Hp2, Hp2' by assumption. reflexivity.
Qed.
End ScaleLight.

(** ** constructor *)
Lemma shape_tvxz c g : cube_on c g ->
  get_distribution_shape c "tvxz" = Ok [nt g; nv g; nx g; ny g; nz g].
Proof.
  intros Hc. unfold get_distribution_shape.
  change (chars (replace_char "_" [] "tvxz")) with ["t"; "v"; "x"; "z"]%char.
  unfold shape_loop. cbn [Ascii.eqb Bool.eqb]. unfold get_variable_size, get_variable_values.
  pose proof (co_ssps _ _ Hc) as Hs.
  pose proof (vec_is _ _ _ (co_v _ _ Hc)) as Hv.
  pose proof (tail0_is _ _ _ _ Hv ltac:(lia)) as H1. pose proof (init0_is _ _ _ _ Hv) as H2.
  cbn [str1 String.eqb Ascii.eqb Bool.eqb bind].
  s_bop. unfold len0, halve, amap. cbn [shp].
  rewrite (proj1 Hr), (proj1 (so_tc _ _ Hs)), (proj1 (so_zc _ _ Hs)), (proj1 (co_x _ _ Hc)), (proj1 (co_y _ _ Hc)).
  cbn. repeat f_equal. lia.
Qed.

Lemma constructor_shape c g a : cube_on c g ->
  component_init c a = if list_eq_dec Nat.eq_dec (shp a) [nt g; nv g; nx g; ny g; nz g]
                       then Ok (Component c a) else Err ValueError.
Proof.
  intros Hc. unfold component_init. rewrite (shape_tvxz c g Hc). cbn [bind].
  destruct (natlist_eqb (shp a) _) eqn:E; destruct (list_eq_dec _ _ _) as [e|n]; try reflexivity.
  - apply natlist_eqb_eq in E. contradiction.
  - rewrite e, natlist_eqb_refl in E. discriminate.
Qed.
