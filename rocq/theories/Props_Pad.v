(** * Props_Pad: transforms of the templates on padded numbers of pixels (claim C89). *)
From Coq Require Import Reals Lra Lia List Bool Arith ZArith String Ascii.
From Verif Require Import Num NumLemmas Arr ArrLemmas PyStr Cube Base Parametric Spec SpecLemmas Repr Build CubeLemmas ParSpec ParRepr ParClaims ParExample ParMomExample
  Fft ReadMiles Ssps SspLemmas Datacube FourierSpec DatacubeSpec DatacubeMain DatacubeClaims ParYbar ParYbarSpec Sharing SharingLemmas DatacubeExample ParEval EvalSpec
  FluxResample Pad PadSpec PadLemmas.
Import ListNotations.
Local Open Scope R_scope.

(** a cube's own call, with pad=False, computes what the resampling section of the model already holds *)
Theorem C89_default : forall spline dv mg s, resample spline dv mg = Ok s -> calculate_fourier_transform PadFalse s = Ok s.
Proof. exact default_claim. Qed.
Print Assumptions C89_default.

(** pad="ppxf": the transforms are on the least power of two; Xw and the light weights stay *)
Theorem C89_padded : forall s g nl dv S, templates s g nl dv S ->
  exists s', calculate_fourier_transform (PadStr "ppxf") s = Ok s' /\ Xw s' = Xw s /\ light_weights s' = light_weights s /\ least_power nl (n_fft s') /\
    shp (FXw s') = [(n_fft s' / 2 + 1)%nat; (nz g * nt g)%nat].
Proof. exact succeeds_claim. Qed.
Print Assumptions C89_padded.

(** any other string is rejected *)
Theorem C89_unknown : forall p s, p <> "ppxf"%string -> calculate_fourier_transform (PadStr p) s = Err ValueError.
Proof. exact unknown_claim. Qed.
Print Assumptions C89_unknown.

(** templates whose number of pixels is a power of two are the same templates *)
Theorem C89_power_of_two : forall s g nl dv S, templates s g nl dv S -> (exists k, nl = 2 ^ k)%nat ->
  exists s', calculate_fourier_transform (PadStr "ppxf") s = Ok s' /\ templates s' g nl dv S.
Proof. exact power_claim. Qed.
Print Assumptions C89_power_of_two.

(** batch "none": the datacube of the templates followed by zeros, on the padded number of pixels *)
Theorem C89_datacube : forall W self g f nl dv S v0 s' n, evaluable self g f nl dv S v0 ->
  calculate_fourier_transform (PadStr "ppxf") (c_ssps (comp_cube self)) = Ok s' -> least_power nl n ->
  exists y, evaluate_ybar W (base_see self s') "none" = Ok y /\ is_cube y n (nx g) (ny g) (datacube W g f n dv v0 (zero_padded nl S)).
Proof. exact datacube_claim. Qed.
Print Assumptions C89_datacube.
Theorem C89_parametric_datacube : forall L self g m nl dv S s' n,
  par_on L self g m -> good_grid g -> good_par g m -> templates (c_ssps (pa_cube self)) g nl dv S -> dv <> 0 ->
  calculate_fourier_transform (PadStr "ppxf") (c_ssps (pa_cube self)) = Ok s' -> least_power nl n ->
  exists y, par_evaluate_ybar L (par_see self s') "none" = Ok y /\
    is_cube y n (nx g) (ny g) (par_datacube g (txz_mass g m) (pm_mu m) (pm_sig m) n dv (zero_padded nl S)).
Proof. exact par_datacube_claim. Qed.
Print Assumptions C89_parametric_datacube.

(** the other batch modes raise unless the number of pixels is a power of two *)
Theorem C89_batches_refuted : forall W self g f nl dv S v0 s' batch, evaluable self g f nl dv S v0 ->
  calculate_fourier_transform (PadStr "ppxf") (c_ssps (comp_cube self)) = Ok s' -> ~ (exists k, nl = 2 ^ k)%nat ->
  batch = "column"%string \/ batch = "spaxel"%string -> evaluate_ybar W (base_see self s') batch = Err ValueError.
Proof. exact loops_claim. Qed.
Print Assumptions C89_batches_refuted.
Theorem C89_parametric_batches_refuted : forall L self g m nl dv S s' batch,
  par_on L self g m -> good_grid g -> good_par g m -> templates (c_ssps (pa_cube self)) g nl dv S -> dv <> 0 ->
  calculate_fourier_transform (PadStr "ppxf") (c_ssps (pa_cube self)) = Ok s' -> ~ (exists k, nl = 2 ^ k)%nat ->
  batch = "column"%string \/ batch = "spaxel"%string -> par_evaluate_ybar L (par_see self s') batch = Err ValueError.
Proof. exact par_loops_claim. Qed.
Print Assumptions C89_parametric_batches_refuted.

(** velocities up to the number of padding pixels: nothing enters from the other end of the spectrum *)
Theorem C89_no_wrap : forall c g nl n dv S s' P mu sig P_txz mu_v sig_v (k : Z),
  templates (c_ssps c) g nl dv S -> dv <> 0 -> par_dims (c_ssps c) = (nz g, nt g) -> (0 < nz g * nt g)%nat -> c_nx c = nx g -> c_ny c = ny g ->
  arr_is P_txz [nt g; nx g; ny g; nz g] (fun idx => match idx with [t; x; y; z] => Fin (P t x y z) | _ => NaN end) ->
  arr_is mu_v [nt g; nx g; ny g] (fun idx => match idx with [t; x; y] => Fin (mu t x y) | _ => NaN end) ->
  arr_is sig_v [nt g; nx g; ny g] (fun idx => match idx with [t; x; y] => Fin (sig t x y) | _ => NaN end) ->
  calculate_fourier_transform (PadStr "ppxf") (c_ssps c) = Ok s' -> least_power nl n ->
  (2 <= nl)%nat -> (Z.abs k <= Z.of_nat n - Z.of_nat nl)%Z ->
  (forall t i j, (t < nt g)%nat -> (i < nx g)%nat -> (j < ny g)%nat -> mu t i j = IZR k * dv /\ sig t i j = 0) ->
  exists y, par_evaluate (see c s') P_txz mu_v sig_v "none" = Ok y /\ shp y = [n; nx g; ny g] /\
    forall w i j, (w < nl)%nat -> (i < nx g)%nat -> (j < ny g)%nat ->
      ent y [w; i; j] = Fin (Sum (nt g) (fun t => Sum (nz g) (fun z => P t i j z * moved nl (S t z) k w))).
Proof. exact par_moved_claim. Qed.
Print Assumptions C89_no_wrap.

(** ** examples: templates of 5 pixels are padded to 8 *)
Lemma least_5 : least_power 5 8. Proof. split; [exists 3%nat; reflexivity|lia]. Qed.
Lemma five : ~ (exists k, 5 = 2 ^ k)%nat.
Proof.
  intros [k E]. destruct k as [|[|[|k]]]; [discriminate E..|]. cbn [Nat.pow] in E. lia.
Qed.
Definition excd (n : nat) : component := comp_for (exv 2 6 2) exD n 1 exS.
Lemma excd_ok n : (0 < n)%nat -> evaluable (excd n) (exv 2 6 2) exD n 1 exS 3.
Proof. intros Hn. apply exv_evaluable; try lia. apply exD_nonneg. Qed.

(** resampled templates of three pixels: unchanged by pad=False, on four pixels with pad="ppxf" *)
Example C89_default_case : exists s s', resample lookup_spline 10 (log4 10) = Ok s /\ calculate_fourier_transform PadFalse s = Ok s /\ n_fft s = 3%nat /\
  calculate_fourier_transform (PadStr "ppxf") s = Ok s' /\ n_fft s' = 4%nat.
Proof.
  assert (P : 0 < 10) by lra.
  destruct (resample_templates lookup_spline 10 (log4 10) log4_grid 4 log4_flux lookup_finite (log4_object 10 P) P) as (s & S & E & _ & HT).
  destruct (C89_padded _ _ _ _ _ HT) as (s' & E' & _ & _ & Hn & _).
  pose proof (proj1 (log4_not_proportional 10 P lookup_spline s S lookup_through E HT)) as E3. rewrite E3 in Hn.
  exists s, s'. split; [exact E|]. split; [exact (C89_default _ _ _ _ E)|]. split; [exact E3|]. split; [exact E'|].
  apply (least_power_unique 3); [exact Hn|]. split; [exists 2%nat; reflexivity|lia].
Qed.
Example C89_padded_case : exists s', calculate_fourier_transform (PadStr "ppxf") (ssps_for exg 5 1 exS) = Ok s' /\ n_fft s' = 8%nat /\ shp (FXw s') = [5; 4]%nat /\
  shp (Xw s') = [5; 4]%nat.
Proof.
  destruct (C89_padded (ssps_for exg 5 1 exS) exg 5 1 exS) as (s' & E & HX & _ & Hn & Hs); [apply templates_for; cbn; lia|].
  pose proof (least_power_unique _ _ _ Hn least_5) as E8. exists s'. split; [exact E|]. split; [exact E8|]. rewrite E8 in Hs. split; [exact Hs|rewrite HX; reflexivity].
Qed.
Example C89_unknown_case : calculate_fourier_transform (PadStr "pPXF") (ssps_for exg 5 1 exS) = Err ValueError.
Proof. apply C89_unknown. discriminate. Qed.
Example C89_power_case : exists s', calculate_fourier_transform (PadStr "ppxf") (ssps_for exg 4 1 exS) = Ok s' /\ n_fft s' = 4%nat.
Proof.
  destruct (C89_power_of_two (ssps_for exg 4 1 exS) exg 4 1 exS) as (s' & E & HT); [apply templates_for; cbn; lia|exists 2%nat; reflexivity|].
  exists s'. split; [exact E|exact (tp_fft _ _ _ _ _ HT)].
Qed.
Example C89_datacube_case : exists s' y, calculate_fourier_transform (PadStr "ppxf") (c_ssps (comp_cube (excd 5))) = Ok s' /\
  evaluate_ybar idW (base_see (excd 5) s') "none" = Ok y /\ shp y = [8; 2; 1]%nat /\
  ent y [7; 1; 0]%nat = Fin (datacube idW (exv 2 6 2) exD 8 1 3 (zero_padded 5 exS) 7 1 0) /\
  evaluate_ybar idW (base_see (excd 5) s') "column" = Err ValueError /\ evaluate_ybar idW (base_see (excd 5) s') "spaxel" = Err ValueError.
Proof.
  pose proof (excd_ok 5 ltac:(lia)) as H.
  destruct (C89_padded _ _ _ _ _ (ev_templates _ _ _ _ _ _ _ H)) as (s' & E & _).
  destruct (C89_datacube idW (excd 5) _ _ _ _ _ _ s' 8 H E least_5) as (y & Ey & Hs & Hy).
  exists s', y. split; [exact E|]. split; [exact Ey|]. split; [exact Hs|]. split; [apply Hy; cbn; lia|].
  split; apply (C89_batches_refuted idW (excd 5) _ _ _ _ _ _ s' _ H E five); auto.
Qed.
Definition pad_par (n : nat) : par :=
  Par (see (Build.cube_of exg) (ssps_for exg n 1 exS)) (scal NaN) (scal NaN) (ZGrid (scal NaN) (scal NaN)) None
    (pa_log_p_t exmp) (pa_log_p_x_t exmp) None (pa_log_p_z_tx exmp) (pa_mu_v exmp) (pa_sig_v exmp) None.
Lemma pad_par_on n : par_on exL (pad_par n) exg exmod.
Proof.
  constructor; [|reflexivity|..]; [|eexists; split; try reflexivity; split; reflexivity ..].
  destruct (Build.cube_of_on exg exg_uniform_x exg_uniform_y) as [D1 D2 D3 D4 D5 D6 D7 D8 D9 D10 D11]. constructor; try assumption.
  destruct D1 as [E1 E2 E3 E4 E5 E6 E7 E8 E9]. constructor; assumption.
Qed.
Example C89_parametric_case : exists s' y, calculate_fourier_transform (PadStr "ppxf") (c_ssps (pa_cube (pad_par 5))) = Ok s' /\
  par_evaluate_ybar exL (par_see (pad_par 5) s') "none" = Ok y /\ shp y = [8; 2; 1]%nat /\
  ent y [7; 1; 0]%nat = Fin (par_datacube exg (txz_mass exg exmod) (pm_mu exmod) (pm_sig exmod) 8 1 (zero_padded 5 exS) 7 1 0) /\
  par_evaluate_ybar exL (par_see (pad_par 5) s') "column" = Err ValueError /\ par_evaluate_ybar exL (par_see (pad_par 5) s') "spaxel" = Err ValueError.
Proof.
  assert (HT : templates (c_ssps (pa_cube (pad_par 5))) exg 5 1 exS) by (apply templates_for; cbn; lia).
  destruct (C89_padded _ _ _ _ _ HT) as (s' & E & _).
  destruct (C89_parametric_datacube exL (pad_par 5) exg exmod 5 1 exS s' 8 (pad_par_on 5) exg_good exmod_good HT ltac:(lra) E least_5) as (y & Ey & Hs & Hy).
  exists s', y. split; [exact E|]. split; [exact Ey|]. split; [exact Hs|]. split; [apply Hy; cbn; lia|].
  split; apply (C89_parametric_batches_refuted exL (pad_par 5) exg exmod 5 1 exS s' _ (pad_par_on 5) exg_good exmod_good HT ltac:(lra) E five); auto.
Qed.
(** two pixels of velocity: the first two pixels are dark, pixel 4 holds the flux of pixel 2 *)
Example C89_no_wrap_case : exists s' y, let c := see (Build.cube_of (exv 1 6 1)) (ssps_for (exv 1 6 1) 5 20 exS) in
  calculate_fourier_transform (PadStr "ppxf") (c_ssps c) = Ok s' /\ par_evaluate (see c s') (exPa 1 1) (exma 1 40) (exma 1 0) "none" = Ok y /\
  ent y [1; 1; 0]%nat = Fin 0 /\ ent y [4; 1; 0]%nat = Fin 4.
Proof.
  set (c := see (Build.cube_of (exv 1 6 1)) (ssps_for (exv 1 6 1) 5 20 exS)).
  assert (HT : templates (c_ssps c) (exv 1 6 1) 5 20 exS) by (apply templates_for; cbn; lia).
  destruct (C89_padded _ _ _ _ _ HT) as (s' & E & _).
  destruct (C89_no_wrap c (exv 1 6 1) 5 8 20 exS s' (fun t i _ _ => 1 + INR t + INR i) (fun _ _ _ => 40) (fun _ _ _ => 0) (exPa 1 1) (exma 1 40) (exma 1 0) 2)
    as (y & Ey & _ & Hy); try assumption; try reflexivity; try (cbn; lia); try lra.
  - split; [reflexivity|]. intros idx Hi. inb_inv. reflexivity.
  - split; [reflexivity|]. intros idx Hi. inb_inv. reflexivity.
  - split; [reflexivity|]. intros idx Hi. inb_inv. reflexivity.
  - exact least_5.
  - intros. split; lra.
  - exists s', y. split; [exact E|]. split; [exact Ey|].
    rewrite !Hy by (cbn; lia). cbn [exv nt nz Sum]. unfold moved, exS. cbn. split; f_equal; [lra|]. change (Pos.to_nat 2) with 2%nat. cbn. lra.
Qed.
