(** * Claims C60-C65 and C73: the datacube. *)
From Coq Require Import Reals Lra Lia List Bool Arith ZArith String Ascii.
From Verif Require Import Num NumLemmas Arr ArrLemmas Cube Base Spec SpecLemmas Repr Build Fft ReadMiles Ssps SspLemmas SspFlow CubeGeom Datacube FourierSpec DatacubeSpec
  DatacubeLemmas DatacubeMain DatacubeClaims ParYbar ParYbarSpec ParYbarLemmas DatacubeShift Sharing SharingLemmas SharingClaims DatacubeExample.
Import ListNotations.
Local Open Scope R_scope.

(** ** C60 *)
(** every mode gives the datacube of the specification *)
Theorem C60_base : forall W self g f n dv S v0 batch, evaluable self g f n dv S v0 -> is_batch batch ->
  exists y, evaluate_ybar W self batch = Ok y /\ is_cube y n (nx g) (ny g) (datacube W g f n dv v0 S).
Proof. exact evaluate_claim. Qed.
Print Assumptions C60_base.
Example C60_base_case : exists y, evaluate_ybar idW (comp_for (exv 2 6 2) exD 8 1 exS) "column" = Ok y /\
  is_cube y 8 2 1 (datacube idW (exv 2 6 2) exD 8 1 3 exS).
Proof. apply (C60_base idW _ (exv 2 6 2) exD 8 1 exS 3 "column"); [apply exv_evaluable; try lia; apply exD_nonneg|right; left; reflexivity]. Qed.
Theorem C60_base_other_modes : forall W self g f n dv S v0 batch, evaluable self g f n dv S v0 -> ~ is_batch batch ->
  evaluate_ybar W self batch = Err ValueError.
Proof. exact batch_claim. Qed.
Print Assumptions C60_base_other_modes.
Example C60_base_other_modes_case : evaluate_ybar idW (comp_for (exv 2 6 2) exD 8 1 exS) "row" = Err ValueError.
Proof.
  apply (C60_base_other_modes idW _ (exv 2 6 2) exD 8 1 exS 3); [apply exv_evaluable; try lia; apply exD_nonneg|].
  intros [H|[H|H]]; discriminate H.
Qed.
(** the specification is the weighted sum of templates circularly convolved with
    the velocity distribution, when as many velocity bins as pixels and the
    interpolation keeps the values at its knots *)
Theorem C60_base_convolution : forall W g f n dv S v0 w i j, (0 < n)%nat -> (v0 < nv g)%nat -> nv g = n ->
  identity_on_knots W (n / 2 + 1) -> (w < n)%nat ->
  datacube W g f n dv v0 S w i j =
  Sum (nt g) (fun t => Sum (nz g) (fun z => Sum (nv g) (fun v =>
    bin_prob g f dv t i j z v * shifted n (S t z) (Z.of_nat v - Z.of_nat v0) w))).
Proof. exact convolution_claim. Qed.
Print Assumptions C60_base_convolution.
Example C60_base_convolution_case : datacube idW (exv 2 6 2) exD 6 1 3 exS 4 1 0 =
  Sum 2 (fun t => Sum 2 (fun z => Sum 6 (fun v =>
    bin_prob (exv 2 6 2) exD 1 t 1 0 z v * shifted 6 (exS t z) (Z.of_nat v - 3) 4))).
Proof. apply (C60_base_convolution idW (exv 2 6 2) exD 6 1 exS 3 4 1 0); cbn [exv nv]; try lia. apply idW_identity. Qed.
(** and for stars in one velocity bin, even numbers of bins and pixels, and an
    interpolation exact for that harmonic *)
Theorem C60_base_one_bin : forall W g f n dv v0 S v w i j, (0 < n)%nat -> (exists h, n = (2 * h)%nat) -> (exists h, nv g = (2 * h)%nat) ->
  (v < nv g)%nat -> (w < n)%nat -> only_bin g f v -> exact_at W (nv g / 2 + 1) (n / 2 + 1) (PI * (INR v - INR v0)) ->
  datacube W g f n dv v0 S w i j =
  Sum (nt g) (fun t => Sum (nz g) (fun z => bin_prob g f dv t i j z v * shifted n (S t z) (Z.of_nat v - Z.of_nat v0) w)).
Proof. exact even_bins_claim. Qed.
Print Assumptions C60_base_one_bin.
Example C60_base_one_bin_case : datacube idW (exv 1 6 1) (exP 4) 6 1 3 exunit 1 1 0 =
  Sum 1 (fun t => Sum 1 (fun z => bin_prob (exv 1 6 1) (exP 4) 1 t 1 0 z 4 * shifted 6 (exunit t z) 1 1)).
Proof.
  apply (C60_base_one_bin idW (exv 1 6 1) (exP 4) 6 1 3 exunit 4 1 1 0); cbn [exv nv]; try lia; [exists 3%nat; lia|exists 3%nat; lia|apply exP_only|].
  apply idW_exact. cbn. lia.
Qed.
(** parametric components, from p(t,x,z) and the velocity maps *)
Theorem C60_parametric : forall c g n dv S P mu sig P_txz mu_v sig_v,
  templates (c_ssps c) g n dv S -> dv <> 0 -> par_dims (c_ssps c) = (nz g, nt g) -> (0 < nz g * nt g)%nat -> c_nx c = nx g -> c_ny c = ny g ->
  arr_is P_txz [nt g; nx g; ny g; nz g] (fun idx => match idx with [t; x; y; z] => Fin (P t x y z) | _ => NaN end) ->
  arr_is mu_v [nt g; nx g; ny g] (fun idx => match idx with [t; x; y] => Fin (mu t x y) | _ => NaN end) ->
  arr_is sig_v [nt g; nx g; ny g] (fun idx => match idx with [t; x; y] => Fin (sig t x y) | _ => NaN end) ->
  forall batch, is_batch batch ->
  exists y, par_evaluate c P_txz mu_v sig_v batch = Ok y /\ is_cube y n (nx g) (ny g) (par_datacube g P mu sig n dv S).
Proof. exact par_evaluate_claim. Qed.
Print Assumptions C60_parametric.
Example C60_parametric_case : exists y, par_evaluate (comp_cube (comp_for (exv 2 6 2) exD 8 1 exS)) (exPa 2 2) (exma 2 3) (exma 2 5) "spaxel" = Ok y /\
  is_cube y 8 2 1 (par_datacube (exv 2 6 2) (fun t x y z => 1 + INR t + INR x) (fun _ _ _ => 3) (fun _ _ _ => 5) 8 1 exS).
Proof.
  apply (C60_parametric _ (exv 2 6 2)); try reflexivity; try (cbn; lia); try lra.
  - apply templates_for; cbn [exv nt]; lia.
  - split; [reflexivity|]. intros idx _. destruct idx as [|t [|x [|y [|z [|]]]]]; reflexivity.
  - split; [reflexivity|]. intros idx _. destruct idx as [|t [|x [|y [|]]]]; reflexivity.
  - split; [reflexivity|]. intros idx _. destruct idx as [|t [|x [|y [|]]]]; reflexivity.
  - right. right. reflexivity.
Qed.
Theorem C60_parametric_other_modes : forall c g n dv S P_txz mu_v sig_v,
  templates (c_ssps c) g n dv S -> par_dims (c_ssps c) = (nz g, nt g) -> (0 < nz g * nt g)%nat ->
  c_nx c = nx g -> c_ny c = ny g ->
  forall batch, ~ is_batch batch -> par_evaluate c P_txz mu_v sig_v batch = Err ValueError.
Proof. exact par_batch_claim. Qed.
Print Assumptions C60_parametric_other_modes.

(** ** C61 *)
Theorem C61_weighted_sum : forall n nx ny (K : list (arr num * R * (nat -> nat -> nat -> R))), K <> [] ->
  Forall (fun m => is_cube (fst (fst m)) n nx ny (snd m)) K ->
  exists y, mixture_ybar (map (fun m => Some (fst (fst m))) K) (map (fun m => Fin (snd (fst m))) K) = Ok y /\
    is_cube y n nx ny (fun w i j => sumR (map (fun m => snd (fst m) * snd m w i j) K)).
Proof. exact mixture_ybar_claim. Qed.
Print Assumptions C61_weighted_sum.
Theorem C61_combined_density : forall W (K : list (component * R * joint)) g n dv S v0 whole batch wbatch, K <> [] ->
  Forall (fun m => evaluable (fst (fst m)) g (snd m) n dv S v0) K -> is_batch batch -> is_batch wbatch ->
  evaluable whole g (combined (map (fun m => (snd (fst m), snd m)) K)) n dv S v0 ->
  exists ys y y',
    map_res (fun m => evaluate_ybar W (fst (fst m)) batch) K = Ok ys /\
    mixture_ybar (map Some ys) (map (fun m => Fin (snd (fst m))) K) = Ok y /\
    evaluate_ybar W whole wbatch = Ok y' /\
    shp y = [n; nx g; ny g] /\ shp y' = [n; nx g; ny g] /\
    forall w i j, (w < n)%nat -> (i < nx g)%nat -> (j < ny g)%nat -> ent y [w; i; j] = ent y' [w; i; j] /\
      ent y [w; i; j] = Fin (sumR (map (fun m => snd (fst m) * datacube W g (snd m) n dv v0 S w i j) K)).
Proof. exact mixture_density_claim. Qed.
Print Assumptions C61_combined_density.
Definition exK : list (component * R * joint) :=
  [(comp_for (exv 2 6 2) exD 8 1 exS, 0.25, exD); (comp_for (exv 2 6 2) (exP 4) 8 1 exS, 0.75, exP 4)].
Example C61_combined_density_case : exists ys y y',
    map_res (fun m => evaluate_ybar idW (fst (fst m)) "none") exK = Ok ys /\
    mixture_ybar (map Some ys) [Fin 0.25; Fin 0.75] = Ok y /\
    evaluate_ybar idW (comp_for (exv 2 6 2) (combined [(0.25, exD); (0.75, exP 4)]) 8 1 exS) "spaxel" = Ok y' /\
    ent y [5; 1; 0]%nat = ent y' [5; 1; 0]%nat.
Proof.
  destruct (C61_combined_density idW exK (exv 2 6 2) 8 1 exS 3 (comp_for (exv 2 6 2) (combined [(0.25, exD); (0.75, exP 4)]) 8 1 exS) "none" "spaxel")
    as (ys & y & y' & E1 & E2 & E3 & _ & _ & H).
  - discriminate.
  - constructor; [apply exv_evaluable; try lia; apply exD_nonneg|].
    constructor; [apply exv_evaluable; try lia; apply exP_nonneg|constructor].
  - left; reflexivity.
  - right; right; reflexivity.
  - apply exv_evaluable; try lia. intros t v x y z Ht Hv Hx Hy Hz. unfold combined, exK. cbn [map fst snd]; unfold sumR; cbn [fold_right].
    pose proof (exD_nonneg 2 6 2 t v x y z Ht Hv Hx Hy Hz). pose proof (exP_nonneg 4 2 6 2 t v x y z Ht Hv Hx Hy Hz). lra.
  - exists ys, y, y'. split; [exact E1|]. split; [exact E2|]. split; [exact E3|]. apply H; cbn [exv nx ny]; lia.
Qed.

(** ** C62 *)
(** base: the interpolation has to keep the value at frequency 0 *)
Theorem C62_base : forall W g f n dv v0 S i j, (0 < n)%nat ->
  (forall q, (q < nv g / 2 + 1)%nat -> W (nv g / 2 + 1)%nat (n / 2 + 1)%nat 0%nat q = if Nat.eqb 0 q then 1 else 0) ->
  Sum n (fun w => datacube W g f n dv v0 S w i j) =
  Sum (nt g) (fun t => Sum (nz g) (fun z => Sum (nv g) (bin_prob g f dv t i j z) * Sum n (S t z))).
Proof. exact flux_claim. Qed.
Print Assumptions C62_base.
(** the weights above are the probabilities of (t, pixel, z) *)
Theorem C62_pixel_probability : forall g f dv t i j z, (forall v, (v < nv g)%nat -> wid (vE g) v = dv) ->
  Sum (nv g) (bin_prob g f dv t i j z) = marg g (prob g f false) txz (Bin t 0 i j z).
Proof. exact pixel_prob. Qed.
Print Assumptions C62_pixel_probability.
Example C62_base_case : Sum 8 (fun w => datacube idW (exv 2 6 2) exD 8 1 3 exS w 1 0) =
  Sum 2 (fun t => Sum 2 (fun z => marg (exv 2 6 2) (prob (exv 2 6 2) exD false) txz (Bin t 0 1 0 z) * Sum 8 (exS t z))).
Proof.
  rewrite C62_base by (try lia; intros; reflexivity). apply Sum_ext. intros t _. apply Sum_ext. intros z _. f_equal.
  apply C62_pixel_probability. intros v _. unfold wid. cbn [exv vE]. rewrite (S_INR v). ring.
Qed.
Theorem C62_parametric : forall g P mu sig n dv S i j, (0 < n)%nat ->
  Sum n (fun w => par_datacube g P mu sig n dv S w i j) = Sum (nt g) (fun t => Sum (nz g) (fun z => P t i j z * Sum n (S t z))).
Proof. exact par_flux_claim. Qed.
Print Assumptions C62_parametric.
Example C62_parametric_case : Sum 3 (fun w => par_datacube (exv 1 6 1) (fun _ _ _ _ => 2) (fun _ _ _ => 3) (fun _ _ _ => 5) 3 1 exS w 0 0) = 6.
Proof. rewrite C62_parametric by lia. cbn. lra. Qed.

(** ** C63 *)
Theorem C63_shift : forall g P mu sig n dv S (k : Z) w i j, (exists h, n = (2 * h)%nat) -> (0 < n)%nat -> dv <> 0 -> (w < n)%nat ->
  (forall t, (t < nt g)%nat -> mu t i j = IZR k * dv /\ sig t i j = 0) ->
  par_datacube g P mu sig n dv S w i j = Sum (nt g) (fun t => Sum (nz g) (fun z => P t i j z * shifted n (S t z) k w)).
Proof. exact par_shift_claim. Qed.
Print Assumptions C63_shift.
Example C63_shift_case : par_datacube (exv 1 6 1) (fun _ _ _ _ => 2) (fun _ _ _ => -60) (fun _ _ _ => 0) 8 20 exS 6 0 0 = 2 * 1.
Proof.
  rewrite (C63_shift _ _ _ _ 8 20 exS (-3) 6 0 0); try lia; try lra; [|exists 4%nat; lia|intros t _; split; lra].
  cbn [exv nt nz Sum]. unfold shifted, exS. replace (Z.to_nat ((Z.of_nat 6 - -3) mod Z.of_nat 8)) with 1%nat by reflexivity. simpl. lra.
Qed.
(** odd numbers of pixels: displaced by k n/(n-1) pixels *)
Theorem C63_odd_displacement : forall g P mu sig n dv S (k : Z) w i j, (exists h, n = (2 * h + 1)%nat) -> (3 <= n)%nat -> dv <> 0 ->
  (forall t, (t < nt g)%nat -> mu t i j = IZR k * dv /\ sig t i j = 0) ->
  par_datacube g P mu sig n dv S w i j =
  Sum (nt g) (fun t => Sum (nz g) (fun z => P t i j z * conv n (S t z) (point n (IZR k * (INR n / (INR n - 1)))) w)).
Proof. exact par_odd_claim. Qed.
Print Assumptions C63_odd_displacement.
(** so for every odd n a unit of flux in pixel 0 moved by one pixel does not all arrive in pixel 1 *)
Theorem C63_odd_refuted : forall g P mu sig n dv S i j, (exists h, n = (2 * h + 1)%nat) -> (3 <= n)%nat -> dv <> 0 ->
  nt g = 1%nat -> nz g = 1%nat -> mu 0%nat i j = dv -> sig 0%nat i j = 0 -> unit_template S -> 0 < P 0%nat i j 0%nat ->
  par_datacube g P mu sig n dv S 1 i j <
  Sum (nt g) (fun t => Sum (nz g) (fun z => P t i j z * shifted n (S t z) 1 1)).
Proof. exact par_odd_refuted_claim. Qed.
Print Assumptions C63_odd_refuted.
Example C63_odd_refuted_case : par_datacube (exv 1 6 1) (fun _ _ _ _ => 2) (fun _ _ _ => 20) (fun _ _ _ => 0) 5 20 exunit 1 0 0 <
  Sum 1 (fun t => Sum 1 (fun z => 2 * shifted 5 (exunit t z) 1 1)).
Proof.
  apply (C63_odd_refuted (exv 1 6 1) (fun _ _ _ _ => 2) (fun _ _ _ => 20) (fun _ _ _ => 0) 5 20 exunit 0 0); try lia; try lra; try reflexivity;
  [exists 2%nat; lia|intros w; reflexivity].
Qed.

(** ** C64 *)
(** what is accepted is a velocity grid of the right form *)
Theorem C64_accepted : forall W self g f batch dv y, comp_on self g f -> ssp_dv (c_ssps (comp_cube self)) = Fin dv ->
  evaluate_ybar W self batch = Ok y -> exists v0, velocity_ok (nv g) (vE g) dv v0.
Proof. exact accepted_claim. Qed.
Print Assumptions C64_accepted.
(** other grids with a bin centred on zero are refused *)
Theorem C64_rejected : forall W self g f batch dv, comp_on self g f -> ssp_dv (c_ssps (comp_cube self)) = Fin dv ->
  (exists v, (v < nv g)%nat /\ close (mid (vE g) v) 0) -> (forall v0, ~ velocity_ok (nv g) (vE g) dv v0) ->
  evaluate_ybar W self batch = Err ValueError.
Proof. exact rejected_claim. Qed.
Print Assumptions C64_rejected.
Example C64_rejected_case : evaluate_ybar idW exoffc "none" = Err ValueError.
Proof.
  apply (C64_rejected idW exoffc exoff (fun _ _ _ _ _ => 1) "none" 1 exoff_on eq_refl).
  - exists 0%nat. split; [cbn; lia|]. unfold close, mid. cbn [exoff vE]. simpl (INR 0). simpl (INR 1). replace (((0 - / 2) + (1 - / 2)) / 2 - 0) with 0 by field.
    rewrite Rabs_R0. lra.
  - intros v0 H. pose proof (vo_centre _ _ _ _ H) as Hc. cbn in Hc. assert (v0 = 2%nat) by lia. subst v0.
    pose proof (vo_zero _ _ _ _ H) as Hz. unfold close, mid in Hz. cbn [exoff vE] in Hz. simpl (INR 2) in Hz. simpl (INR 3) in Hz.
    rewrite Rabs_R0 in Hz. rewrite Rabs_pos_eq in Hz by lra. lra.
Qed.
(** grids without such a bin raise IndexError, not ValueError *)
Theorem C64_no_zero_refuted : forall W self g f batch dv, comp_on self g f -> ssp_dv (c_ssps (comp_cube self)) = Fin dv ->
  (forall v, (v < nv g)%nat -> ~ close (mid (vE g) v) 0) ->
  evaluate_ybar W self batch = Err IndexError.
Proof. exact no_zero_claim. Qed.
Print Assumptions C64_no_zero_refuted.
Theorem C64_symmetric_refuted : forall W self g f batch dv, comp_on self g f -> ssp_dv (c_ssps (comp_cube self)) = Fin dv ->
  dv > 1 / 50000000 -> (exists h, nv g = (2 * h)%nat /\ forall v, (v <= nv g)%nat -> vE g v = (INR v - INR h) * dv) ->
  evaluate_ybar W self batch = Err IndexError.
Proof. exact symmetric_claim. Qed.
Print Assumptions C64_symmetric_refuted.
Example C64_symmetric_case : evaluate_ybar idW exsymc "none" = Err IndexError.
Proof.
  apply (C64_symmetric_refuted idW exsymc exsym (fun _ _ _ _ _ => 1) "none" 10 exsym_on eq_refl); [lra|].
  exists 2%nat. split; [reflexivity|]. intros v _. reflexivity.
Qed.

(** ** C65 *)
(** every cube on an SSP object reads what the last one left *)
Theorem C65_last_wins : forall spline mg g nL F l a, finite_spline spline -> ssp_object mg g nL F -> Forall good_args (l ++ [a]) ->
  exists w s S, builds spline (World mg None []) (l ++ [a]) = Ok w /\ resample spline (width a) mg = Ok s /\
    templates s g (n_fft s) (width a) S /\
    forall k b, nth_error (l ++ [a]) k = Some b -> exists c, the_cube w k = Some c /\ c_ssps c = s /\ cube_on c (args_grid g b).
Proof. exact last_wins_claim. Qed.
Print Assumptions C65_last_wins.
(** after any constructions ending with other bins, evaluation raises ValueError *)
Theorem C65_base_refuted : forall spline mg g nL F l a k b, finite_spline spline -> ssp_object mg g nL F -> Forall good_args (l ++ [a]) ->
  nth_error (l ++ [a]) k = Some b -> ~ close (width b) (width a) ->
  (exists v, (v < a_nv b)%nat /\ close (mid (lin (fst (a_v b)) (snd (a_v b)) (a_nv b)) v) 0) ->
  exists w c, builds spline (World mg None []) (l ++ [a]) = Ok w /\ the_cube w k = Some c /\
    forall W logp batch f, comp_on (Component c logp) (args_grid g b) f -> evaluate_ybar W (Component c logp) batch = Err ValueError.
Proof. exact shared_base_claim. Qed.
Print Assumptions C65_base_refuted.
(** though it worked before *)
Theorem C65_before_and_after_refuted : forall spline mg g nL F a b h, finite_spline spline -> ssp_object mg g nL F -> good_grid g -> good_args a -> good_args b ->
  a_nv b = (2 * h + 1)%nat -> (3 <= h)%nat -> fst (a_v b) = - snd (a_v b) -> 1 / 100000000 < width b -> ~ close (width b) (width a) ->
  exists w1 w2 c1 c2, builds spline (World mg None []) [b] = Ok w1 /\ builds spline (World mg None []) [b; a] = Ok w2 /\
    the_cube w1 0 = Some c1 /\ the_cube w2 0 = Some c2 /\
    forall W logp batch f, comp_on (Component c1 logp) (args_grid g b) f -> nonneg (args_grid g b) f -> is_batch batch ->
      (exists y, evaluate_ybar W (Component c1 logp) batch = Ok y) /\ evaluate_ybar W (Component c2 logp) batch = Err ValueError.
Proof. exact before_after_claim. Qed.
Print Assumptions C65_before_and_after_refuted.
Example C65_before_and_after_case : exists w1 w2 c1 c2,
    builds ex_spline (World ex_ssp None []) [exb] = Ok w1 /\ builds ex_spline (World ex_ssp None []) [exb; exa] = Ok w2 /\
    the_cube w1 0 = Some c1 /\ the_cube w2 0 = Some c2 /\
    forall W logp batch f, comp_on (Component c1 logp) (args_grid exg1 exb) f -> nonneg (args_grid exg1 exb) f -> is_batch batch ->
      (exists y, evaluate_ybar W (Component c1 logp) batch = Ok y) /\ evaluate_ybar W (Component c2 logp) batch = Err ValueError.
Proof.
  apply (C65_before_and_after_refuted ex_spline ex_ssp exg1 4 (fun l z t => INR l + 1) exa exb 3 ex_spline_finite ex_ssp_object exg1_good exa_good exb_good);
  try reflexivity; [rewrite exb_width; lra|exact exab_far].
Qed.
(** with bins of the same width nothing changes *)
Theorem C65_same_width : forall spline mg g nL F l l' a a' k b, finite_spline spline -> ssp_object mg g nL F ->
  Forall good_args (l ++ [a]) -> Forall good_args (l' ++ [a']) -> width a = width a' ->
  nth_error (l ++ [a]) k = Some b -> nth_error (l' ++ [a']) k = Some b ->
  exists w w' c, builds spline (World mg None []) (l ++ [a]) = Ok w /\ builds spline (World mg None []) (l' ++ [a']) = Ok w' /\
    the_cube w k = Some c /\ the_cube w' k = Some c.
Proof. exact same_width_claim. Qed.
Print Assumptions C65_same_width.
(** parametric: the datacube is that for pixels of the last cube's width *)
Theorem C65_parametric_refuted : forall spline mg g nL F l a k b P mu sig P_txz mu_v sig_v batch,
  finite_spline spline -> ssp_object mg g nL F -> good_grid g ->
  Forall good_args (l ++ [a]) -> nth_error (l ++ [a]) k = Some b -> is_batch batch ->
  arr_is P_txz [nt g; a_nx1 b; a_nx2 b; nz g] (fun idx => match idx with [t; x; y; z] => Fin (P t x y z) | _ => NaN end) ->
  arr_is mu_v [nt g; a_nx1 b; a_nx2 b] (fun idx => match idx with [t; x; y] => Fin (mu t x y) | _ => NaN end) ->
  arr_is sig_v [nt g; a_nx1 b; a_nx2 b] (fun idx => match idx with [t; x; y] => Fin (sig t x y) | _ => NaN end) ->
  exists w c s S y, builds spline (World mg None []) (l ++ [a]) = Ok w /\ the_cube w k = Some c /\
    resample spline (width a) mg = Ok s /\ templates s g (n_fft s) (width a) S /\
    par_evaluate c P_txz mu_v sig_v batch = Ok y /\
    is_cube y (n_fft s) (a_nx1 b) (a_nx2 b) (par_datacube (args_grid g b) P mu sig (n_fft s) (width a) S).
Proof. exact shared_par_claim. Qed.
Print Assumptions C65_parametric_refuted.
(** so even its size changes when another cube is built *)
Theorem C65_parametric_size_refuted : forall spline mg g nL F a b P mu sig P_txz mu_v sig_v batch,
  finite_spline spline -> ssp_object mg g nL F -> good_grid g ->
  good_args a -> good_args b -> is_batch batch -> width a <= width b / 2 -> width b / speed_of_light <= span (g_lmd mg) ->
  arr_is P_txz [nt g; a_nx1 b; a_nx2 b; nz g] (fun idx => match idx with [t; x; y; z] => Fin (P t x y z) | _ => NaN end) ->
  arr_is mu_v [nt g; a_nx1 b; a_nx2 b] (fun idx => match idx with [t; x; y] => Fin (mu t x y) | _ => NaN end) ->
  arr_is sig_v [nt g; a_nx1 b; a_nx2 b] (fun idx => match idx with [t; x; y] => Fin (sig t x y) | _ => NaN end) ->
  exists w1 w2 c1 c2 y1 y2 n1 n2, builds spline (World mg None []) [b] = Ok w1 /\ builds spline (World mg None []) [b; a] = Ok w2 /\
    the_cube w1 0 = Some c1 /\ the_cube w2 0 = Some c2 /\
    par_evaluate c1 P_txz mu_v sig_v batch = Ok y1 /\ par_evaluate c2 P_txz mu_v sig_v batch = Ok y2 /\
    shp y1 = [n1; a_nx1 b; a_nx2 b] /\ shp y2 = [n2; a_nx1 b; a_nx2 b] /\ (n1 < n2)%nat.
Proof. exact parametric_claim. Qed.
Print Assumptions C65_parametric_size_refuted.
Example C65_parametric_size_case : exists w1 w2 c1 c2 y1 y2 n1 n2,
    builds ex_spline (World ex_ssp None []) [exb] = Ok w1 /\ builds ex_spline (World ex_ssp None []) [exb; exa] = Ok w2 /\
    the_cube w1 0 = Some c1 /\ the_cube w2 0 = Some c2 /\
    par_evaluate c1 (exPa 1 1) (exma 1 3) (exma 1 5) "none" = Ok y1 /\ par_evaluate c2 (exPa 1 1) (exma 1 3) (exma 1 5) "none" = Ok y2 /\
    shp y1 = [n1; 2; 1]%nat /\ shp y2 = [n2; 2; 1]%nat /\ (n1 < n2)%nat.
Proof.
  apply (C65_parametric_size_refuted ex_spline ex_ssp exg1 4 (fun l z t => INR l + 1) exa exb (fun t x y z => 1 + INR t + INR x) (fun _ _ _ => 3) (fun _ _ _ => 5)
    _ _ _ _ ex_spline_finite ex_ssp_object exg1_good exa_good exb_good).
  - left; reflexivity.
  - rewrite exa_width, exb_width. lra.
  - exact ex_span.
  - split; [reflexivity|]. intros idx _. destruct idx as [|t [|x [|y [|z [|]]]]]; reflexivity.
  - split; [reflexivity|]. intros idx _. destruct idx as [|t [|x [|y [|]]]]; reflexivity.
  - split; [reflexivity|]. intros idx _. destruct idx as [|t [|x [|y [|]]]]; reflexivity.
Qed.

(** ** C73 *)
(** an odd number of velocity bins with an even number of pixels: stars in bin v
    are displaced by (v - v0)(1 - 1/nv) pixels *)
Theorem C73_odd_bins_displacement : forall W g f n dv v0 S v w i j, (0 < n)%nat -> (exists h, n = (2 * h)%nat) ->
  (exists h, nv g = (2 * h + 1)%nat) -> (3 <= nv g)%nat ->
  (v < nv g)%nat -> only_bin g f v -> exact_at W (nv g / 2 + 1) (n / 2 + 1) (PI * ((INR v - INR v0) * (1 - / INR (nv g)))) ->
  datacube W g f n dv v0 S w i j =
  Sum (nt g) (fun t => Sum (nz g) (fun z => bin_prob g f dv t i j z v *
    conv n (S t z) (point n ((INR v - INR v0) * (1 - / INR (nv g)))) w)).
Proof. exact odd_bins_claim. Qed.
Print Assumptions C73_odd_bins_displacement.
Theorem C73_odd_bins_refuted : forall W g f n dv v0 S i j, (2 <= n)%nat -> (exists h, n = (2 * h)%nat) ->
  (exists h, nv g = (2 * h + 1)%nat) -> (3 <= nv g)%nat ->
  nt g = 1%nat -> nz g = 1%nat -> (v0 + 1 < nv g)%nat -> only_bin g f (v0 + 1) ->
  exact_at W (nv g / 2 + 1) (n / 2 + 1) (PI * (1 - / INR (nv g))) -> unit_template S -> 0 < bin_prob g f dv 0 i j 0 (v0 + 1) ->
  datacube W g f n dv v0 S 1 i j <
  Sum (nt g) (fun t => Sum (nz g) (fun z => bin_prob g f dv t i j z (v0 + 1) * shifted n (S t z) 1 1)).
Proof. exact odd_bins_refuted_claim. Qed.
Print Assumptions C73_odd_bins_refuted.
(** a component that evaluates without error and shows it *)
Example C73_odd_bins_case : exists y r, evaluate_ybar idW (comp_for (exv 1 7 1) (exP 4) 6 1 exunit) "none" = Ok y /\
  ent y [1; 0; 0]%nat = Fin r /\
  r < Sum 1 (fun t => Sum 1 (fun z => bin_prob (exv 1 7 1) (exP 4) 1 t 0 0 z 4 * shifted 6 (exunit t z) 1 1)).
Proof.
  destruct (C60_base idW (comp_for (exv 1 7 1) (exP 4) 6 1 exunit) (exv 1 7 1) (exP 4) 6 1 exunit 3 "none") as (y & Ey & _ & Hy).
  - apply exv_evaluable; try lia; apply exP_nonneg.
  - left; reflexivity.
  - exists y. eexists. split; [exact Ey|]. split; [apply Hy; cbn [exv nx ny]; lia|].
    apply (C73_odd_bins_refuted idW (exv 1 7 1) (exP 4) 6 1 3 exunit 0 0); cbn [exv nv nt nz]; try lia; try reflexivity;
    [exists 3%nat; lia|exists 3%nat; lia|apply exP_only|apply idW_exact; cbn; lia|intros w; reflexivity|apply exP_prob; lia].
Qed.
