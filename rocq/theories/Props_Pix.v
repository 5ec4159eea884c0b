(** * Claim C115: pixels of the resampled templates. *)
From Coq Require Import Reals Lra Lia List Bool Arith ZArith.
From Verif Require Import Num NumLemmas Arr PyStr Cube ReadMiles Ssps SspFlow Spec Repr SharingLemmas DatacubeSpec DatacubeExample SharingClaims FluxUnits
  PixSpec PixClaims PixExample.
Import ListNotations.
Local Open Scope R_scope.

(** neighbouring pixels are dv km/s apart, starting at the least wavelength and
    ending with the last one below the greatest; each template is the interpolant
    through its fluxes at the logarithms of these wavelengths *)
Theorem C115_pixels : forall spline dv mg s nw nS, 0 < dv -> (forall w, In w (g_lmd mg) -> 0 < w) -> shp (g_X mg) = [nw; nS] ->
  resample spline dv mg = Ok s ->
  exists lo hi, least (g_lmd mg) lo /\ greatest (g_lmd mg) hi /\ ssp_dv s = Fin dv /\ shp (Xw s) = [n_fft s; nS] /\
    (forall i, 299792 * ln (pixel lo dv (S i) / pixel lo dv i) = dv) /\ pixel lo dv 0 = lo /\
    (forall i, (i < n_fft s)%nat -> pixel lo dv i < hi) /\ hi <= pixel lo dv (n_fft s) /\
    (forall i j, (i < n_fft s)%nat -> (j < nS)%nat ->
       ent (Xw s) [i; j] = spline (map ln (g_lmd mg)) (map (fun q => ent (g_X mg) [q; j]) (seq 0 nw)) (ln (pixel lo dv i))).
Proof. exact pixels_claim. Qed.
Print Assumptions C115_pixels.
(** four wavelengths 1, 2, 3, 4 in steps of a factor of 2: pixels at 1 and 2 *)
Example C115_pixels_case : exists s, resample ex_spline (299792 * ln 2) ex_ssp = Ok s /\ n_fft s = 2%nat /\ shp (Xw s) = [2; 1]%nat /\
  pixel 1 (299792 * ln 2) 1 = 2.
Proof.
  assert (H2 : 0 < ln 2) by (rewrite <- ln_1; apply ln_increasing; lra).
  assert (P : forall i, pixel 1 (299792 * ln 2) i = 2 ^ i).
  { intros i. unfold pixel. replace (INR i * (299792 * ln 2) / 299792) with (INR i * ln 2) by field. rewrite Rmult_1_l.
    exact (Rpower_pow i 2 ltac:(lra)). }
  destruct (resample_templates ex_spline (299792 * ln 2) ex_ssp exg1 4 _ ex_spline_finite ex_ssp_object ltac:(lra)) as (s & S & E & _ & _).
  destruct (C115_pixels ex_spline (299792 * ln 2) ex_ssp s 4 1 ltac:(lra)) with (2 := eq_refl (A := list nat) (x := [4; 1]%nat)) (3 := E)
    as (lo & hi & [I1 L1] & [I2 L2] & _ & Sh & _ & _ & B1 & B2 & _).
  { intros w Hw. cbn in Hw. destruct Hw as [<-|[<-|[<-|[<-|[]]]]]; lra. }
  assert (lo = 1).
  { apply Rle_antisym; [apply L1; left; reflexivity|]. cbn in I1. destruct I1 as [<-|[<-|[<-|[<-|[]]]]]; lra. }
  assert (hi = 4).
  { apply Rle_antisym; [|apply L2; do 3 right; left; reflexivity]. cbn in I2. destruct I2 as [<-|[<-|[<-|[<-|[]]]]]; lra. }
  subst lo hi. assert (N : n_fft s = 2%nat).
  { destruct (n_fft s) as [|[|[|n]]] eqn:En; [| |reflexivity|].
    - rewrite P in B2. cbn in B2. lra.
    - rewrite P in B2. cbn in B2. lra.
    - specialize (B1 2%nat ltac:(lia)). rewrite P in B1. cbn in B1. lra. }
  exists s. split; [exact E|]. split; [exact N|]. rewrite N in Sh. split; [exact Sh|]. rewrite P. cbn. lra.
Qed.

(** the 4300 wavelengths of the template files, in Angstrom *)
Theorem C115_wavelengths : Z.of_nat (List.length default_lmd) = 4300%Z /\
  (forall i, (i < List.length default_lmd)%nat -> nth i default_lmd 0 = 3540.5 + INR i * 0.9) /\
  least default_lmd 3540.5 /\ greatest default_lmd 7409.6.
Proof. exact wavelengths_claim. Qed.
Print Assumptions C115_wavelengths.
Example C115_wavelengths_case : nth 10 default_lmd 0 = 3549.5.
Proof.
  destruct C115_wavelengths as (L & H & _). rewrite H by lia. replace (INR 10) with 10 by (rewrite INR_IZR_INZ; reflexivity). lra.
Qed.

(** templates neither truncated nor binned *)
Theorem C115_all_wavelengths : forall spline dv mg s nw nS, 0 < dv -> g_lmd mg = default_lmd -> shp (g_X mg) = [nw; nS] ->
  resample spline dv mg = Ok s ->
  (forall i, (i < n_fft s)%nat -> 3540.5 <= 3540.5 * exp (INR i * dv / 299792) < 7409.6) /\
  7409.6 <= 3540.5 * exp (INR (n_fft s) * dv / 299792).
Proof. exact miles_pixels_claim. Qed.
Print Assumptions C115_all_wavelengths.
(** one template with flux 1 at all wavelengths, 300 km/s a pixel *)
Example C115_all_wavelengths_case : exists s, resample ex_spline 300 ex_full = Ok s /\ (1 < n_fft s)%nat /\
  7409.6 <= 3540.5 * exp (INR (n_fft s) * 300 / 299792).
Proof.
  destruct (resample_templates ex_spline 300 ex_full ex_fullg _ _ ex_spline_finite ex_full_object ltac:(lra)) as (s & S & E & _ & _).
  destruct (C115_all_wavelengths ex_spline 300 ex_full s _ 1%nat ltac:(lra) eq_refl eq_refl E) as [_ H].
  exists s. split; [exact E|]. split; [|exact H]. destruct (n_fft s) as [|[|n]]; [| |lia].
  - exfalso. cbn [INR] in H. replace (0 * 300 / 299792) with 0 in H by lra. rewrite exp_0 in H. lra.
  - exfalso. cbn [INR] in H. assert (exp (1 * 300 / 299792) < 2); [|lra].
    rewrite <- (exp_ln 2) by lra. apply exp_increasing. pose proof ln_lt_2. lra.
Qed.
