(** * DatacubeExample: concrete components, templates and SSP objects for the
    datacube claims. *)
From Coq Require Import Reals Lra Lia List Bool Arith ZArith String Ascii Sorted.
From Verif Require Import Num NumLemmas Arr ArrLemmas Cube Base Spec SpecLemmas Repr Build Fft ReadMiles Ssps SspLemmas SspFlow CubeGeom Datacube FourierSpec FourierLemmas DatacubeSpec
  DatacubeLemmas VelocityLemmas DatacubeMain DatacubeClaims ParYbar ParYbarSpec ParYbarLemmas DatacubeShift Sharing SharingLemmas SharingClaims.
Import ListNotations.
Local Open Scope R_scope.

(** SSP attributes holding given templates *)
Definition ssps_for (g : grid) (n : nat) (dv : R) (S : spectra) : ssps :=
  let s := ssps_of g in
  let X := Arr [n; (nz g * nt g)%nat] (fun idx => match idx with
    | [w; c] => Fin (S (c mod nt g)%nat (c / nt g)%nat w) | _ => NaN end) in
  Ssps (par_edges_z s) (par_edges_t s) (par_cents_z s) (par_cents_t s) (delta_t s) (delta_z s) (par_dims s) (light_weights s)
    (Fin dv) X (Arr [(n / 2 + 1)%nat; (nz g * nt g)%nat] (fun idx => match idx with
    | [k; c] => dft n n (fun w => ent X [w; c]) k | _ => (NaN, NaN) end)) n.
Definition comp_for (g : grid) (f : joint) (n : nat) (dv : R) (S : spectra) : component :=
  Component (see (Build.cube_of g) (ssps_for g n dv S)) (log_p_tvxz (comp_of g f)).

Lemma templates_for g n dv S : (0 < n)%nat -> (0 < nt g)%nat -> templates (ssps_for g n dv S) g n dv S.
Proof.
  intros Hn Ht. constructor; try reflexivity; [exact Hn|].
  intros t z w Ht' Hz Hw. cbn [ssps_for Xw ent]. rewrite Nat.add_comm, Nat.mod_add, Nat.div_add by lia.
  rewrite Nat.mod_small, Nat.div_small by assumption. reflexivity.
Qed.
Lemma comp_for_on g f n dv S : uniform (nx g) (xE g) -> uniform (ny g) (yE g) -> comp_on (comp_for g f n dv S) g f.
Proof.
  intros Hx Hy. pose proof (comp_of_on g f Hx Hy) as [C1 C2 C3]. constructor; [|exact C2|exact C3].
  destruct C1 as [D1 D2 D3 D4 D5 D6 D7 D8 D9 D10 D11]. constructor; try assumption.
  destruct D1 as [E1 E2 E3 E4 E5 E6 E7 E8 E9]. constructor; assumption.
Qed.

(** grids with nv velocity bins of width 1, bin 3 at zero *)
Definition exv (a b c : nat) : grid :=
  Grid a b 2 1 c (fun i => INR i * (INR i + 1) / 2) (fun i => INR i - INR 3 - / 2) (fun i => INR i) (fun i => INR i)
       (fun i => INR i * (INR i + 1)) (fun t z => 1 + INR t + 2 * INR z).
Definition exS : spectra := fun t z w => INR (t + 2 * z + w).
Definition exunit : spectra := fun _ _ w => if Nat.eqb w 0 then 1 else 0.
(** a density that is not constant in any variable *)
Definition exD : joint := fun t v x y z => 1 + INR t + INR v * INR x + INR z.
Definition exP (v0 : nat) : joint := fun t v x y z => if Nat.eqb v v0 then 1 else 0.
Definition idW : weights := fun _ _ k j => if Nat.eqb k j then 1 else 0.

Lemma exv_good a b c : (0 < a)%nat -> (0 < b)%nat -> (0 < c)%nat -> good_grid (exv a b c).
Proof.
  intros Ha Hb Hc. constructor; cbn [exv nt nv nx ny nz]; try lia;
  try (intros i Hi; cbn [tE vE xE yE zE exv]; rewrite ?S_INR; pose proof (pos_INR i); nra).
  intros t z _ _. cbn [Lw exv]. pose proof (pos_INR t). pose proof (pos_INR z). lra.
Qed.
Lemma exv_x a b c : uniform (nx (exv a b c)) (xE (exv a b c)).
Proof. intros i Hi. unfold wid; cbn [xE exv]. rewrite !S_INR. lra. Qed.
Lemma exv_y a b c : uniform (ny (exv a b c)) (yE (exv a b c)).
Proof. intros i Hi. unfold wid; cbn [yE exv]. rewrite !S_INR. lra. Qed.
Lemma exD_nonneg a b c : nonneg (exv a b c) exD.
Proof. intros t v x y z _ _ _ _ _. unfold exD. pose proof (pos_INR t). pose proof (pos_INR v). pose proof (pos_INR x). pose proof (pos_INR z). nra. Qed.
Lemma exP_nonneg v0 a b c : nonneg (exv a b c) (exP v0).
Proof. intros t v x y z _ _ _ _ _. unfold exP. destruct (Nat.eqb v v0); lra. Qed.
Lemma exv_mid a b c v : mid (vE (exv a b c)) v = INR v - INR 3.
Proof. unfold mid; cbn [vE exv]. rewrite (S_INR v). field. Qed.
Lemma exv_velocity a b c : b = 6%nat \/ b = 7%nat -> velocity_ok (nv (exv a b c)) (vE (exv a b c)) 1 3.
Proof.
  intros Hb. constructor.
  - intros v _. unfold close, wid; cbn [vE exv]. rewrite (S_INR v). replace (INR v + 1 - INR 3 - / 2 - (INR v - INR 3 - / 2) - 1) with 0 by ring.
    rewrite Rabs_R0, Rabs_R1. lra.
  - intros v _. rewrite !exv_mid, (S_INR v). lra.
  - cbn [exv nv]. lia.
  - rewrite exv_mid. unfold close. replace (INR 3 - INR 3 - 0) with 0 by ring. rewrite Rabs_R0. lra.
  - intros v Hv. rewrite exv_mid. unfold close. assert (INR v + 1 <= INR 3) by (rewrite <- (S_INR v); apply le_INR; lia).
    rewrite Rminus_0_r, Rabs_left, Rabs_R0 by lra. lra.
  - destruct Hb as [-> | ->]; reflexivity.
Qed.
Lemma exv_evaluable a b c f n S : (0 < a)%nat -> (0 < c)%nat -> (0 < n)%nat -> b = 6%nat \/ b = 7%nat -> nonneg (exv a b c) f ->
  evaluable (comp_for (exv a b c) f n 1 S) (exv a b c) f n 1 S 3.
Proof.
  intros Ha Hc Hn Hb Hf. constructor.
  - apply comp_for_on; [apply exv_x|apply exv_y].
  - apply exv_good; lia.
  - exact Hf.
  - apply templates_for; [exact Hn|exact Ha].
  - apply exv_velocity. exact Hb.
  - cbn [exv nv]. lia.
Qed.
Lemma idW_identity m : identity_on_knots idW m.
Proof. intros k j _ _. reflexivity. Qed.
Lemma idW_exact m al : (0 < m)%nat -> exact_at idW m m al.
Proof.
  intros Hm k Hk. unfold idW. split; rewrite (Sum_delta m k _ Hk); reflexivity.
Qed.
Lemma exP_only v0 a b c : only_bin (exv a b c) (exP v0) v0.
Proof. intros t v' x y z _ Hne. unfold exP. destruct (Nat.eqb_spec v' v0); [contradiction|reflexivity]. Qed.
Lemma exP_prob t i j z v0 a b c : (t < 5)%nat -> 0 < bin_prob (exv a b c) (exP v0) 1 t i j z v0.
Proof.
  intros Ht. unfold bin_prob, exP, wid. rewrite Nat.eqb_refl. cbn [tE xE yE zE exv]. rewrite !S_INR.
  pose proof (pos_INR t). pose proof (pos_INR z).
  apply Rmult_lt_0_compat; [lra|]. apply Rmult_lt_0_compat; [|nra]. apply Rmult_lt_0_compat; [|lra]. apply Rmult_lt_0_compat; [|lra]. nra.
Qed.

(** a symmetric grid with an even number of bins *)
Definition exsym : grid :=
  Grid 1 4 1 1 1 INR (fun i => (INR i - INR 2) * 10) INR INR INR (fun t z => 1).
Definition exsymc : component := comp_for exsym (fun _ _ _ _ _ => 1) 4 10 (fun _ _ _ => 1).
Lemma exsym_on : comp_on exsymc exsym (fun _ _ _ _ _ => 1).
Proof. apply comp_for_on; intros i _; unfold wid; cbn [exsym xE yE]; rewrite !S_INR; lra. Qed.
(** bins off centre: zero in bin 0 *)
Definition exoff : grid :=
  Grid 1 4 1 1 1 INR (fun i => INR i - / 2) INR INR INR (fun t z => 1).
Definition exoffc : component := comp_for exoff (fun _ _ _ _ _ => 1) 4 1 (fun _ _ _ => 1).
Lemma exoff_on : comp_on exoffc exoff (fun _ _ _ _ _ => 1).
Proof. apply comp_for_on; intros i _; unfold wid; cbn [exoff xE yE]; rewrite !S_INR; lra. Qed.

(** maps of a parametric component on the grid *)
Definition exPa (a c : nat) : arr num := Arr [a; 2; 1; c]%nat (fun idx => match idx with [t; x; y; z] => Fin (1 + INR t + INR x) | _ => NaN end).
Definition exma (a : nat) (m : R) : arr num := Arr [a; 2; 1]%nat (fun idx => match idx with [t; x; y] => Fin m | _ => NaN end).

(** an SSP object with one template on four wavelengths *)
Definition exl : list R := [1; 2; 3; 4].
Definition ex_ssp : mgrid :=
  MGrid 1 exl (arr1 [Fin 0; Fin 1] NaN) (arr1 [Fin 0; Fin 1] NaN) (arr1 [Fin 0.5] NaN) (arr1 [Fin 0.5] NaN) (1, 1)%nat (index_table 1 1) 1
    (arr1 [Fin 1] NaN) (arr1 [Fin 1] NaN)
    (Arr [4; 1]%nat (fun idx => match idx with [l; _] => Fin (INR l + 1) | _ => NaN end)) [] [] [] [].
Definition exg1 : grid := Grid 1 1 1 1 1 INR INR INR INR INR (fun _ _ => 10).
Lemma ex_ssp_object : ssp_object ex_ssp exg1 4 (fun l z t => INR l + 1).
Proof.
  constructor.
  - split; try reflexivity.
    all: split; [reflexivity|]; intros i Hi; destruct i as [|[|i]]; try (cbn in Hi; lia); cbn; unfold mid, wid; cbn; f_equal; lra.
  - cbn. lia.
  - cbn [ex_ssp g_lmd exl]. repeat constructor; lra.
  - intros w Hw. cbn in Hw. destruct Hw as [<-|[<-|[<-|[<-|[]]]]]; lra.
  - intros t z _ _. cbn. lra.
Qed.
Lemma exg1_good : good_grid exg1.
Proof. constructor; cbn [exg1 nt nv nx ny nz]; try lia; try (intros i Hi; cbn [tE vE xE yE zE exg1]; rewrite S_INR; lra). intros; cbn; lra. Qed.
(** the spline through the first value *)
Definition ex_spline (knots : list R) (vals : list num) (w : R) : num := match vals with [] => Fin 0 | x :: _ => x end.
Lemma ex_spline_finite : finite_spline ex_spline.
Proof. intros knots [|x vals] w H; [exists 0; reflexivity|]. apply (H x). left. reflexivity. Qed.
Definition exb : cube_args := Args 2 1 7 (-1, 1) (-1, 1) (-7000, 7000).
Definition exa : cube_args := Args 2 1 7 (-1, 1) (-1, 1) (-3500, 3500).
Lemma exb_good : good_args exb.
Proof. unfold good_args, exb; cbn [a_nx1 a_nx2 a_nv a_x1 a_x2 a_v fst snd]. repeat split; try lia; lra. Qed.
Lemma exa_good : good_args exa.
Proof. unfold good_args, exa; cbn [a_nx1 a_nx2 a_nv a_x1 a_x2 a_v fst snd]. repeat split; try lia; lra. Qed.
Lemma exb_width : width exb = 2000. Proof. unfold width; cbn. lra. Qed.
Lemma exa_width : width exa = 1000. Proof. unfold width; cbn. lra. Qed.
Lemma exab_far : ~ close (width exb) (width exa).
Proof. rewrite exb_width, exa_width. unfold close. rewrite !Rabs_pos_eq by lra. lra. Qed.
Lemma ex_span : width exb / speed_of_light <= span (g_lmd ex_ssp).
Proof.
  rewrite exb_width. unfold speed_of_light, span, np_min, np_max. cbn [g_lmd ex_ssp exl map fold_left].
  assert (H1 : 2000 / 299792 <= ln 2 - ln 1).
  { rewrite ln_1, Rminus_0_r. assert (H : / 2 < ln 2); [|lra]. pose proof exp_le_3 as H3.
    apply (exp_lt_inv). rewrite exp_ln by lra.
    destruct (Rlt_or_le (exp (/ 2)) 2) as [|Q]; [assumption|exfalso].
    assert (exp 1 = exp (/ 2) * exp (/ 2)) by (rewrite <- exp_plus; f_equal; lra). nra. }
  pose proof (Rmin_l (Rmin (Rmin (ln 1) (ln 2)) (ln 3)) (ln 4)). pose proof (Rmin_l (Rmin (ln 1) (ln 2)) (ln 3)). pose proof (Rmin_l (ln 1) (ln 2)).
  pose proof (Rmax_l (Rmax (Rmax (ln 1) (ln 2)) (ln 3)) (ln 4)). pose proof (Rmax_l (Rmax (ln 1) (ln 2)) (ln 3)). pose proof (Rmax_r (ln 1) (ln 2)).
  lra.
Qed.
