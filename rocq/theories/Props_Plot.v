(** * Props_Plot: claim C81 about ticks of images and about line plots. *)
From Coq Require Import Reals Lra Lia List Bool Arith ZArith String Ascii.
From Verif Require Import Num NumLemmas Arr PyStr Cube Base Spec SpecLemmas Repr CubeLemmas Build DistLemmas MomSpec CubeGeom Plot PlotLemmas
  ReadMiles Ssps SspClaims PlotAxes PlotClaims.
From Verif Require Props_Cube.
Import ListNotations.
Local Open Scope R_scope.

(** C81: an image's axes carry the names of the view variables and, for ages and
    metallicities, the ticks of the SSP object; with label_ax=False neither. *)
Theorem C81_image_axes : forall p h mg g k0 k1 img n m label_ax,
  cube_on (p_cube p) g -> good_grid g -> tuple_ranges p h g -> shp img = [n; m] ->
  exists ai, imshow p h img [vname k0; vname k1] = (h, Ok ai) /\
    imshow_axes p mg h img [vname k0; vname k1] label_ax =
      (h, Ok (ai, if label_ax then (Axis (own_ticks mg k0) (Some (label k0)), Axis (own_ticks mg k1) (Some (label k1)))
                  else (Axis (Some ([], [])) None, Axis (Some ([], [])) None))).
Proof. exact image_axes_claim. Qed.
Print Assumptions C81_image_axes.
(** A tick labelled with a value stands below (beside) the pixels of that
    value's bin, provided ticks are in place for the bins (claim C31). *)
Theorem C81_image_ticks : forall p h mg g k0 k1 img m,
  cube_on (p_cube p) g -> good_grid g -> tuple_ranges p h g -> ticks_on mg g -> shp img = [cn g k0; m] ->
  forall pos lab, own_ticks mg k0 = Some (pos, lab) ->
  exists data l r b t ax1, imshow_axes p mg h img [vname k0; vname k1] true =
      (h, Ok (AxesImage data [Fin l; Fin r; Fin b; Fin t], (Axis (Some (pos, lab)) (Some (label k0)), ax1))) /\
    forall i j, (i < cn g k0)%nat -> (j < m)%nat ->
      exists row col, ent data [row; col] = ent img [i; j] /\
        forall s, (s < List.length lab)%nat ->
          (cedge g k0 i <= nth s lab 0 < cedge g k0 (S i) <->
           fst (fst (pixel_box m (cn g k0) l r b t row col)) <= nth s pos 0 < snd (fst (pixel_box m (cn g k0) l r b t row col))).
Proof. exact image_ticks_claim. Qed.
Print Assumptions C81_image_ticks.
Theorem C81_image_ticks_vertical : forall p h mg g k0 k1 img n,
  cube_on (p_cube p) g -> good_grid g -> tuple_ranges p h g -> ticks_on mg g -> shp img = [n; cn g k1] ->
  forall pos lab, own_ticks mg k1 = Some (pos, lab) ->
  exists data l r b t ax0, imshow_axes p mg h img [vname k0; vname k1] true =
      (h, Ok (AxesImage data [Fin l; Fin r; Fin b; Fin t], (ax0, Axis (Some (pos, lab)) (Some (label k1))))) /\
    forall i j, (i < n)%nat -> (j < cn g k1)%nat ->
      exists row col, ent data [row; col] = ent img [i; j] /\
        forall s, (s < List.length lab)%nat ->
          (cedge g k1 j <= nth s lab 0 < cedge g k1 (S j) <->
           fst (snd (pixel_box (cn g k1) n l r b t row col)) <= nth s pos 0 < snd (snd (pixel_box (cn g k1) n l r b t row col))).
Proof. exact image_ticks_vertical_claim. Qed.
Print Assumptions C81_image_ticks_vertical.

(** Lines against the bin centres: the first axis must have the length of the
    variable; a second axis gives several lines. *)
Theorem C81_plot_physical : forall c mg g k y n s, cube_on c g -> shp y = n :: s -> (List.length s <= 1)%nat ->
  (n = cn g k -> exists x, plot c mg (vname k) y "physical" = Ok (LinePlot x y (Axis None (Some (label k)))) /\
      shp x = [n] /\ forall i, (i < n)%nat -> ent x [i] = Fin (mid (cedge g k) i)) /\
  (n <> cn g k -> plot c mg (vname k) y "physical" = Err ValueError).
Proof. exact plot_physical_claim. Qed.
Print Assumptions C81_plot_physical.
(** Discrete spacing takes arrays of every length; n points from 0 to 1. *)
Theorem C81_plot_discrete : forall c mg g k y n, cube_on c g -> shp y = [n] ->
  exists x, plot c mg (vname k) y "discrete" = Ok (LinePlot x y (Axis (own_ticks mg k) (Some (label k)))) /\
    shp x = [n] /\ forall i, (i < n)%nat -> ent x [i] = Fin (if Nat.eqb n 1 then 0 else INR i / INR (n - 1)).
Proof. exact plot_discrete_claim. Qed.
Print Assumptions C81_plot_discrete.
(** Refuted: points should stand where the ticks put their values.  They are in
    the right bin, up to half a bin away, and only the middle one is right. *)
Theorem C81_plot_discrete_refuted : forall c mg g k y, cube_on c g -> good_grid g -> shp y = [cn g k] -> (2 <= cn g k)%nat ->
  exists x, plot c mg (vname k) y "discrete" = Ok (LinePlot x y (Axis (own_ticks mg k) (Some (label k)))) /\
    forall i, (i < cn g k)%nat -> exists r, ent x [i] = Fin r /\
      INR i / INR (cn g k) <= r <= INR (S i) / INR (cn g k) /\
      forall p, image_pos (cn g k) (cedge g k) (mid (cedge g k) i) p ->
        Rabs (r - p) <= 1 / (2 * INR (cn g k)) /\ (r = p <-> (2 * i = cn g k - 1)%nat).
Proof. exact points_claim. Qed.
Print Assumptions C81_plot_discrete_refuted.
(** Refuted: both spacings should draw several lines; discrete spacing raises. *)
Theorem C81_plot_columns_refuted : forall c mg g k y m, cube_on c g -> good_grid g -> shp y = [cn g k; m] -> m <> 1%nat ->
  (exists r, plot c mg (vname k) y "physical" = Ok r) /\ plot c mg (vname k) y "discrete" = Err ValueError.
Proof. exact plot_columns. Qed.
Print Assumptions C81_plot_columns_refuted.
Theorem C81_plot_errors : forall c mg y,
  (forall w sp, (forall k, w <> vname k) -> sp = "physical"%string \/ sp = "discrete"%string -> plot c mg w y sp = Err ValueError) /\
  (forall w sp, sp <> "physical"%string -> sp <> "discrete"%string -> plot c mg w y sp = Err UnboundLocalError).
Proof. exact plot_errors. Qed.
Print Assumptions C81_plot_errors.

(** Spectra: the length decides; neither length leaves a name unbound. *)
Theorem C81_spectrum : forall lmd w y L W n s, shp lmd = [L] -> shp w = [W] -> shp y = n :: s -> (List.length s <= 1)%nat ->
  (n = L -> plot_spectrum lmd w y = Ok (LinePlot lmd y (Axis None (Some "Wavelength [$\AA$]"%string)))) /\
  (n <> L -> n = W -> exists x, plot_spectrum lmd w y = Ok (LinePlot x y (Axis None (Some "Wavelength [$\AA$]"%string))) /\
     shp x = [n] /\ forall i u, (i < n)%nat -> ent w [i] = Fin u -> ent x [i] = Fin (exp u)) /\
  (n <> L -> n <> W -> plot_spectrum lmd w y = Err UnboundLocalError).
Proof. exact spectrum_claim. Qed.
Print Assumptions C81_spectrum.
(** Refuted: spectra sampled in log wavelength should be drawn at exp(w).  For
    any wavelengths some step of the resampling gives as many log wavelengths, and
    then they are drawn at the original wavelengths. *)
Theorem C81_spectrum_refuted : forall lo hi n lmd y, lo < hi -> (0 < n)%nat -> shp lmd = [n] -> ent lmd [(n - 1)%nat] = Fin (exp hi) -> shp y = [n] ->
  exists dw, 0 < dw /\ List.length (arange lo hi dw) = n /\
    plot_spectrum lmd (arr1 (map Fin (arange lo hi dw)) NaN) y = Ok (LinePlot lmd y (Axis None (Some "Wavelength [$\AA$]"%string))) /\
    exp (nth (n - 1) (arange lo hi dw) 0) < exp hi.
Proof. exact spectrum_ambiguous. Qed.
Print Assumptions C81_spectrum_refuted.

(** ages with edges 0, 1, 3 and metallicities with edges 0, 2, 6; ticks at age 2
    and metallicity 1 *)
Definition tick_mg : mgrid :=
  let a := arr1 [] NaN in MGrid 0 [] a a a a (2, 2)%nat [] 0 a a a [2] [1] [3 / 4] [1 / 4].
Example C81_case_image : ticks_on tick_mg exg /\
  exists data l r b t ax1, imshow_axes Props_Cube.exp tick_mg Props_Cube.exh (Arr [2; 2]%nat (fun _ => Fin 7)) ["t"; "z"]%string true =
      (Props_Cube.exh, Ok (AxesImage data [Fin l; Fin r; Fin b; Fin t], (Axis (Some ([3 / 4], [2])) (Some "$t$ [Gyr]"%string), ax1))).
Proof.
  assert (HT : ticks_on tick_mg exg).
  { split; (split; [reflexivity|]); intros i Hi; cbn in Hi; destruct i; [|lia| |lia]; cbn [nth tick_mg g_t_ticks g_z_ticks g_img_t_ticks g_img_z_ticks].
    - split; [exists 1%nat; repeat split; cbn; try lia; lra|]. split; [cbn; lra|]. split; [lra|]. intros j Hj. cbn in Hj. destruct j; [|lia]. cbn. lra.
    - split; [exists 0%nat; repeat split; cbn; try lia; lra|]. split; [cbn; lra|]. split; [lra|]. intros j Hj. cbn in Hj. destruct j; [|lia]. cbn. lra. }
  split; [exact HT|]. destruct Props_Cube.C24_example as (H1 & H2 & H3).
  destruct (C81_image_ticks Props_Cube.exp Props_Cube.exh tick_mg exg Ct Cz (Arr [2; 2]%nat (fun _ => Fin 7)) 2 H1 H2 H3 HT eq_refl [3 / 4] [2] eq_refl)
    as (data & l & r & b & t & ax1 & E & _). exists data, l, r, b, t, ax1. exact E.
Qed.
(** the first of two ages: drawn at 0, the ticks put it at 1/4 *)
Example C81_case_discrete : exists x, plot (comp_cube exc) tick_mg "t" (arr1 [Fin 5; Fin 6] NaN) "discrete" =
    Ok (LinePlot x (arr1 [Fin 5; Fin 6] NaN) (Axis (Some ([3 / 4], [2])) (Some "$t$ [Gyr]"%string))) /\
  ent x [0]%nat = Fin 0 /\ image_pos 2 (tE exg) (mid (tE exg) 0) (1 / 4).
Proof.
  destruct (C81_plot_discrete (comp_cube exc) tick_mg exg Ct (arr1 [Fin 5; Fin 6] NaN) 2 (cm_cube _ _ _ exc_on) eq_refl) as (x & E & _ & H).
  exists x. split; [exact E|]. split; [rewrite H by lia; cbn; f_equal; lra|].
  exists 0%nat. unfold mid. cbn. split; [lia|]. split; lra.
Qed.
Example C81_case_spectrum : exists dw, 0 < dw /\
  plot_spectrum (arr1 [Fin (exp 1); Fin (exp 2)] NaN) (arr1 (map Fin (arange 1 2 dw)) NaN) (arr1 [Fin 5; Fin 6] NaN) =
    Ok (LinePlot (arr1 [Fin (exp 1); Fin (exp 2)] NaN) (arr1 [Fin 5; Fin 6] NaN) (Axis None (Some "Wavelength [$\AA$]"%string))).
Proof.
  destruct (C81_spectrum_refuted 1 2 2 (arr1 [Fin (exp 1); Fin (exp 2)] NaN) (arr1 [Fin 5; Fin 6] NaN) ltac:(lra) ltac:(lia) eq_refl eq_refl eq_refl)
    as (dw & D & _ & E & _). exists dw. split; assumption.
Qed.
