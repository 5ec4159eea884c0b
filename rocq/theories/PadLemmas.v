(** * PadLemmas: datacubes from padded transforms (claim C89). *)
From Coq Require Import Reals Lra Lia List Bool Arith ZArith String Ascii.
From Verif Require Import Num NumLemmas Arr ArrLemmas MomArr PyStr Cube Base Spec SpecLemmas Repr CubeLemmas BaseLemmas CondLemmas
  DistLemmas VecLemmas Fft Ssps SspLemmas ReadMiles Noise Datacube FourierSpec FourierLemmas DatacubeSpec DatacubeLemmas VelocityLemmas DatacubeMain DatacubeClaims
  Parametric ParSpec ParRepr ParDist ParLemmas ParMoments EvalSpec ParYbar ParYbarSpec ParYbarLemmas ParEval ParEvalLemmas Life Sharing SharingLemmas Pad PadSpec.
Import ListNotations.
Local Open Scope R_scope.

(** ** the length *)
Lemma ceil_unique x z : IZR z - 1 < x <= IZR z -> ceil x = z.
Proof.
  intros H. unfold ceil. assert (E : (1 - z)%Z = up (- x)).
  { apply tech_up; rewrite minus_IZR; lra. }
  rewrite <- E. ring.
Qed.

Lemma ln2_pos : 0 < ln 2.
Proof. rewrite <- ln_1. apply ln_increasing; lra. Qed.
Lemma ln_pow2 k : ln (INR (2 ^ k)) = INR k * ln 2.
Proof. rewrite pow_INR. replace (INR 2) with 2 by (cbn; lra). rewrite ln_pow by lra. reflexivity. Qed.

Lemma padded_length_log nl : (0 < nl)%nat -> padded_length nl = (2 ^ Nat.log2_up nl)%nat.
Proof.
  intros Hn. unfold padded_length. f_equal. rewrite (ceil_unique _ (Z.of_nat (Nat.log2_up nl))); [apply Nat2Z.id|].
  rewrite <- INR_IZR_INZ. pose proof ln2_pos as H2. assert (Hp : 0 < INR nl) by (apply lt_0_INR; exact Hn).
  assert (Hup : ln (INR nl) <= INR (Nat.log2_up nl) * ln 2).
  { rewrite <- ln_pow2. assert (Hle : (nl <= 2 ^ Nat.log2_up nl)%nat).
    { destruct (Nat.eq_dec nl 1) as [->|]; [cbn; lia|]. apply Nat.log2_up_spec. lia. }
    apply le_INR in Hle. destruct Hle as [Hlt|Heq]; [left; apply ln_increasing; assumption|right; rewrite Heq; reflexivity]. }
  assert (Hlo : (INR (Nat.log2_up nl) - 1) * ln 2 < ln (INR nl)).
  { destruct (Nat.eq_dec nl 1) as [->|Hne].
    - change (Nat.log2_up 1) with 0%nat. change (INR 1) with 1. change (INR 0) with 0. rewrite ln_1. lra.
    - pose proof (Nat.log2_up_spec nl ltac:(lia)) as [Hl _]. pose proof (Nat.log2_up_pos nl ltac:(lia)) as Hpos.
      replace (INR (Nat.log2_up nl) - 1) with (INR (pred (Nat.log2_up nl))) by (replace (Nat.log2_up nl) with (Datatypes.S (pred (Nat.log2_up nl))) at 2 by lia; rewrite S_INR; lra).
      rewrite <- ln_pow2. apply ln_increasing; [apply lt_0_INR; pose proof (Nat.pow_nonzero 2 (pred (Nat.log2_up nl))); lia|apply lt_INR; exact Hl]. }
  split.
  - apply (Rmult_lt_reg_r (ln 2)); [exact H2|]. unfold Rdiv. rewrite Rmult_assoc, Rinv_l by lra. lra.
  - apply (Rmult_le_reg_r (ln 2)); [exact H2|]. unfold Rdiv. rewrite Rmult_assoc, Rinv_l by lra. lra.
Qed.


Lemma padded_length_claim nl : (0 < nl)%nat -> least_power nl (padded_length nl).
Proof.
  intros Hn. rewrite padded_length_log by exact Hn. split; [eexists; reflexivity|].
  destruct (Nat.eq_dec nl 1) as [->|]; [cbn; lia|]. pose proof (Nat.log2_up_spec nl ltac:(lia)) as [H1 H2].
  pose proof (Nat.log2_up_pos nl ltac:(lia)) as Hpos. split; [exact H2|].
  replace (Nat.log2_up nl) with (Datatypes.S (pred (Nat.log2_up nl))) at 1 by lia. cbn [Nat.pow]. lia.
Qed.
Lemma least_power_unique nl n n' : least_power nl n -> least_power nl n' -> n = n'.
Proof.
  intros [[k ->] H1] [[k' ->] H2]. f_equal. destruct (Nat.lt_trichotomy k k') as [H|[H|H]]; [exfalso|exact H|exfalso].
  - pose proof (Nat.pow_le_mono_r 2 (Datatypes.S k) k' ltac:(lia) H) as Q. cbn [Nat.pow] in Q. lia.
  - pose proof (Nat.pow_le_mono_r 2 (Datatypes.S k') k ltac:(lia) H) as Q. cbn [Nat.pow] in Q. lia.
Qed.

(** ** the object *)

Lemma default_claim spline dv mg s : resample spline dv mg = Ok s -> calculate_fourier_transform PadFalse s = Ok s.
Proof.
  unfold resample. intros Es. destruct (np_min _) as [lo|]; cbn [bind] in Es; [|discriminate]. destruct (np_max _) as [hi|]; cbn [bind] in Es; [|discriminate].
  destruct (Nat.ltb _ 4); [discriminate|]. destruct (Reqb _ 0); [discriminate|].
  destruct (rfft _ _) as [fx|] eqn:EF; cbn [bind] in Es; [|discriminate]. destruct (get_light_weights mg); cbn [bind] in Es; [|discriminate].
  injection Es as <-. unfold calculate_fourier_transform. cbn [Xw shp nth fft_length bind]. rewrite EF. reflexivity.
Qed.

Lemma unknown_claim p s : p <> "ppxf"%string -> calculate_fourier_transform (PadStr p) s = Err ValueError.
Proof. intros H. unfold calculate_fourier_transform, fft_length. destruct (String.eqb_spec p "ppxf"); [contradiction|reflexivity]. Qed.

Lemma dft_pad n nl (x : nat -> num) (r : nat -> R) k : (nl <= n)%nat -> (forall j, (j < nl)%nat -> x j = Fin (r j)) ->
  dft n nl x k = dft n n (fun j => if Nat.ltb j nl then x j else Fin 0) k.
Proof.
  intros Hle Hx. unfold dft. rewrite Nat.min_r by exact Hle. rewrite Nat.min_id.
  assert (G : forall h : nat -> R, nsum (map (fun j => nmul (x j) (Fin (h j))) (seq 0 nl)) =
     nsum (map (fun j => nmul (if Nat.ltb j nl then x j else Fin 0) (Fin (h j))) (seq 0 n))).
  { intros h. replace n with (nl + (n - nl))%nat by lia. rewrite seq_app, map_app, nsum_app.
    rewrite (nsum_map_Fin _ (fun j => r j * h j)) by (intros j Hj; apply in_seq in Hj; rewrite Hx by lia; reflexivity).
    rewrite (nsum_map_Fin (fun j => nmul (if Nat.ltb j nl then x j else Fin 0) (Fin (h j))) (fun j => r j * h j) (seq 0 nl))
      by (intros j Hj; apply in_seq in Hj; destruct (Nat.ltb_spec j nl); [|lia]; rewrite Hx by lia; reflexivity).
    rewrite (nsum_map_Fin _ (fun j => 0 * h j)) by (intros j Hj; apply in_seq in Hj; destruct (Nat.ltb_spec j nl); [lia|reflexivity]).
    assert (Z0 : forall m q, sumR (map (fun j => 0 * h j) (seq q m)) = 0).
    { induction m as [|m IH]; intros q; cbn [seq map sumR fold_right]; [reflexivity|]. unfold sumR in *. cbn [fold_right]. rewrite IH. ring. }
    rewrite Z0. unfold nadd. rewrite Rplus_0_r. reflexivity. }
  rewrite (G (fun j => cos (ang n j k))), (G (fun j => - sin (ang n j k))). reflexivity.
Qed.

(** the same object with the zeros written out *)
Definition written_out (nl n : nat) (s : ssps) : ssps :=
  Ssps (par_edges_z s) (par_edges_t s) (par_cents_z s) (par_cents_t s) (delta_t s) (delta_z s) (par_dims s) (light_weights s) (ssp_dv s)
    (Arr [n; nth 1 (shp (Xw s)) O] (fun idx => match idx with [w; c] => if Nat.ltb w nl then ent (Xw s) [w; c] else Fin 0 | _ => NaN end))
    (FXw s) (n_fft s).

Lemma padded_ok s g nl dv S : templates s g nl dv S ->
  exists s', calculate_fourier_transform (PadStr "ppxf") s = Ok s' /\ Xw s' = Xw s /\
    (forall g', ssps_on s g' -> ssps_on s' g') /\ n_fft s' = padded_length nl /\ par_dims s' = par_dims s /\
    templates (written_out nl (padded_length nl) s') g (padded_length nl) dv (zero_padded nl S).
Proof.
  intros HT. pose proof (tp_n _ _ _ _ _ HT) as Hn. pose proof (padded_length_claim nl Hn) as [_ Hl].
  unfold calculate_fourier_transform. rewrite (tp_X _ _ _ _ _ HT). cbn [nth fft_length String.eqb Ascii.eqb Bool.eqb bind].
  unfold rfft. destruct (Nat.eqb_spec (padded_length nl) 0); [lia|]. cbn [T shp]. rewrite (tp_X _ _ _ _ _ HT). cbn [rev app bind].
  eexists; split; [reflexivity|]. split; [reflexivity|]. split.
  { intros g' [A1 A2 A3 A4 A5 A6 A7 A8 A9]. constructor; assumption. }
  split; [reflexivity|]. split; [reflexivity|].
  constructor.
  - lia.
  - exact (tp_dv _ _ _ _ _ HT).
  - reflexivity.
  - cbn [written_out Xw shp]. rewrite (tp_X _ _ _ _ _ HT). reflexivity.
  - intros t z w Ht Hz Hw. cbn [written_out Xw ent]. unfold zero_padded. destruct (Nat.ltb_spec w nl); [|reflexivity].
    apply (tp_S _ _ _ _ _ HT); assumption.
  - cbn [written_out FXw T shp set_last removelast rev app]. reflexivity.
  - intros k c Hk Hc. cbn [written_out FXw Xw T ent shp rev app removelast last last_dim].
    assert (0 < nt g)%nat by nia.
    apply (dft_pad _ _ _ (fun w => S (c mod nt g)%nat (c / nt g)%nat w)); [lia|].
    intros j Hj. cbn [rev app]. rewrite (Nat.div_mod c (nt g)) at 1 by lia. rewrite (Nat.mul_comm (nt g)).
    apply (tp_S _ _ _ _ _ HT); [apply Nat.mod_upper_bound; lia|apply Nat.div_lt_upper_bound; lia|exact Hj].
Qed.

Lemma map_res_first {B} (F : nat -> res B) e m : (0 < m)%nat -> F 0%nat = Err e -> map_res F (seq 0 m) = Err e.
Proof. intros Hm E. destruct m; [lia|]. cbn [seq map_res]. rewrite E. reflexivity. Qed.

Lemma broadcast_fails1 {A} (a : arr A) n nl : shp a = [n] -> (1 < nl)%nat -> (1 < n)%nat -> n <> nl -> broadcast_to a [nl] = Err ValueError.
Proof.
  intros Hs H1 H2 Hne. unfold broadcast_to, bshape. rewrite Hs. cbn [rev app bshape_rev]. unfold bdim.
  destruct (Nat.eqb_spec n nl); [contradiction|]. destruct (Nat.eqb_spec n 1); [lia|]. destruct (Nat.eqb_spec nl 1); [lia|]. reflexivity.
Qed.
Lemma broadcast_fails2 {A} (a : arr A) n nl m : shp a = [n; m] -> (1 < nl)%nat -> (1 < n)%nat -> n <> nl -> broadcast_to a [nl; m] = Err ValueError.
Proof.
  intros Hs H1 H2 Hne. unfold broadcast_to, bshape. rewrite Hs. cbn [rev app bshape_rev]. unfold bdim. rewrite Nat.eqb_refl.
  destruct (Nat.eqb_spec n nl); [contradiction|]. destruct (Nat.eqb_spec n 1); [lia|]. destruct (Nat.eqb_spec nl 1); [lia|]. reflexivity.
Qed.

(** ** components with a stored density *)
Section base.
Context (W : weights) (c : cube) (logp : arr num) (g : grid) (f : joint) (nl : nat) (dv : R) (S : spectra) (v0 : nat).
Context (H : evaluable (Component c logp) g f nl dv S v0).
Context (s' : ssps) (Es : calculate_fourier_transform (PadStr "ppxf") (c_ssps c) = Ok s').
Let n := padded_length nl.
Let self' := Component (see c s') logp.
Let virt := Component (see c (written_out nl n s')) logp.

Lemma pad_facts : Xw s' = Xw (c_ssps c) /\ comp_on self' g f /\ comp_on virt g f /\ n_fft s' = n /\
  templates (written_out nl n s') g n dv (zero_padded nl S).
Proof.
  destruct (padded_ok _ _ _ _ _ (ev_templates _ _ _ _ _ _ _ H)) as (s1 & E1 & HX & Hso & Hf & Hd & HT).
  cbn [comp_cube] in E1, HX, Hso. rewrite Es in E1. injection E1 as <-. split; [exact HX|].
  destruct (ev_on _ _ _ _ _ _ _ H) as [C1 C2 C3]. cbn [comp_cube log_p_tvxz] in C1, C2, C3. destruct C1 as [D1 D2 D3 D4 D5 D6 D7 D8 D9 D10 D11].
  pose proof (Hso _ D1) as D1'.
  split; [constructor; [constructor; assumption|exact C2|exact C3]|]. split; [|split; assumption].
  constructor; [|exact C2|exact C3]. constructor; try assumption. destruct D1' as [A1 A2 A3 A4 A5 A6 A7 A8 A9]. constructor; assumption.
Qed.

Lemma pad_prefix : exists Fs Fp,
  (arr_is Fs [nt g; (n / 2 + 1)%nat; nz g]
    (fun idx => match idx with [t; k; z] => dft n n (fun w => Fin (zero_padded nl S t z w)) k | _ => czero end)) /\
  (arr_is Fp [nt g; (n / 2 + 1)%nat; nx g; ny g; nz g]
    (fun idx => match idx with [t; k; x; y; z] => (Fin (are W g f n dv v0 t x y z k), Fin (aim W g f n dv v0 t x y z k)) | _ => czero end)) /\
  forall batch, evaluate_ybar W self' batch =
    if String.eqb batch "none" then ybar_none (see c s') Fs Fp
    else if String.eqb batch "column" then ybar_column (see c s') Fs Fp
    else if String.eqb batch "spaxel" then ybar_spaxel (see c s') Fs Fp
    else Err ValueError.
Proof.
  destruct pad_facts as (HX & Hon & Hon' & Hf & HT). destruct H as [_ Hg Hnn _ Hv Hk].
  pose proof (cm_cube _ _ _ Hon) as Hc.
  destruct (template_spectra_ok virt g f n dv (zero_padded nl S) Hon' Hg HT Hk) as (Fs & EsF & HFs).
  destruct (density_ok self' g f Hon Hg Hnn) as (p & Ep & Hp).
  destruct (velocity_spectra_ok W virt g f n dv (zero_padded nl S) v0 Hon' HT Hv Hk p Hp) as (Fp & EF & HFp).
  exists Fs, Fp. split; [exact HFs|]. split; [exact HFp|]. intros batch. unfold evaluate_ybar.
  replace (ssp_dv (c_ssps (comp_cube self'))) with (Fin dv) by (symmetry; exact (tp_dv _ _ _ _ _ HT)).
  rewrite (proj1 (validate_cases (c_v_edg (comp_cube self')) (nv g) (vE g) dv (co_v _ _ Hc)) v0 Hv). cbn [bind].
  change (template_spectra (c_ssps (comp_cube self'))) with (template_spectra (c_ssps (comp_cube virt))).
  rewrite EsF. cbn [bind]. rewrite Ep. cbn [bind]. rewrite (proj1 HFs). cbn [nth].
  change (velocity_spectra W (c_ssps (comp_cube self')) (c_v_edg (comp_cube self')) p (n / 2 + 1)) with
    (velocity_spectra W (c_ssps (comp_cube virt)) (c_v_edg (comp_cube virt)) p (n / 2 + 1)).
  rewrite EF. reflexivity.
Qed.

Lemma base_none_claim : exists y, evaluate_ybar W self' "none" = Ok y /\ is_cube y n (nx g) (ny g) (datacube W g f n dv v0 (zero_padded nl S)).
Proof.
  destruct pad_facts as (HX & Hon & Hon' & Hf & HT). destruct pad_prefix as (Fs & Fp & HFs & HFp & E).
  rewrite E. cbn [String.eqb Ascii.eqb Bool.eqb].
  destruct (none_ok W virt g f n dv (zero_padded nl S) v0 Hon' (ev_grid _ _ _ _ _ _ _ H) HT Fs Fp HFs HFp) as (y & Ey & Hy).
  exists y. split; [exact Ey|]. eapply is_cube_of; [exact Hy|]. intros. eapply datacube_total; [exact Hon'|exact (ev_grid _ _ _ _ _ _ _ H)|assumption|assumption].
Qed.

Lemma base_loop_claim batch : batch = "column"%string \/ batch = "spaxel"%string -> n <> nl -> evaluate_ybar W self' batch = Err ValueError.
Proof.
  intros Hb Hne. destruct pad_facts as (HX & Hon & Hon' & Hf & HT). destruct pad_prefix as (Fs & Fp & HFs & HFp & E).
  assert (Hn : (1 < nl)%nat /\ (1 < n)%nat /\ (0 < n)%nat).
  { pose proof (tp_n _ _ _ _ _ (ev_templates _ _ _ _ _ _ _ H)) as H0. pose proof (padded_length_claim nl H0) as [_ Hl]. fold n in Hl. lia. }
  destruct Hn as (Hn1 & Hn2 & Hn3).
  pose proof (cm_cube _ _ _ Hon) as Hc. cbn [self' comp_cube] in Hc.
  pose proof (vec_is _ _ _ (so_dt _ _ (co_ssps _ _ Hc))) as H1. pose proof (vec_is _ _ _ (so_dz _ _ (co_ssps _ _ Hc))) as H2. pose proof HFs as H3. pose proof HFp as H4.
  pose proof (ev_grid _ _ _ _ _ _ _ H) as Hg. pose proof (gg_x _ Hg) as Hgx. pose proof (gg_y _ Hg) as Hgy.
  pose proof (tp_X _ _ _ _ _ (ev_templates _ _ _ _ _ _ _ H)) as HXs. cbn [comp_cube] in HXs.
  destruct Hb as [-> | ->]; rewrite E; cbn [String.eqb Ascii.eqb Bool.eqb].
  - unfold ybar_column. cbn [see c_ssps] in *. rewrite HX, HXs, Hf. cbn [nth]. rewrite (co_nx _ _ Hc), (co_ny _ _ Hc).
    s_get. s_get. s_bop. s_get.
    rewrite (map_res_first _ ValueError (ny g) Hgy); [reflexivity|].
    s_geti. s_bop.
    match goal with H : arr_is ?a [nt g; (n / 2 + 1)%nat; nx g; nz g] _ |- context [irfft_ax ?a n 1] =>
      destruct (irfft1_is _ _ _ _ _ n H Hn3) as (y & Ey & Hy) end.
    rewrite Ey. cbn [bind]. s_bop. s_sum. apply (broadcast_fails2 _ n); try assumption.
    match goal with H : arr_is ?a [n; nx g] _ |- _ => exact (proj1 H) end.
  - unfold ybar_spaxel. cbn [see c_ssps] in *. rewrite HX, HXs, Hf. cbn [nth]. rewrite (co_nx _ _ Hc), (co_ny _ _ Hc).
    s_get. s_get. s_bop.
    rewrite (map_res_first _ ValueError (nx g) Hgx); [reflexivity|]. apply map_res_first; [exact Hgy|].
    s_geti. s_bop.
    match goal with H : arr_is ?a [nt g; (n / 2 + 1)%nat; nz g] _ |- context [irfft_ax ?a n 1] =>
      destruct (irfft1_is _ _ _ _ _ n H Hn3) as (y & Ey & Hy) end.
    rewrite Ey. cbn [bind]. s_bop. s_sum. apply (broadcast_fails1 _ n); try assumption.
    match goal with H : arr_is ?a [n] _ |- _ => exact (proj1 H) end.
Qed.
End base.

(** ** parametric components *)
Section parametric.
Context (L : stats_lib) (self : par) (g : grid) (m : par_model).
Context (H : par_on L self g m) (Hg : good_grid g) (Hm : good_par g m).
Context (nl : nat) (dv : R) (S : spectra) (HT : templates (c_ssps (pa_cube self)) g nl dv S) (Hdv : dv <> 0).
Context (s' : ssps) (Es : calculate_fourier_transform (PadStr "ppxf") (c_ssps (pa_cube self)) = Ok s').
Let n := padded_length nl.

Lemma par_pad_facts : Xw s' = Xw (c_ssps (pa_cube self)) /\ par_on L (par_see self s') g m /\ n_fft s' = n /\
  par_dims s' = (nz g, nt g) /\ templates (written_out nl n s') g n dv (zero_padded nl S).
Proof.
  destruct (padded_ok _ _ _ _ _ HT) as (s1 & E1 & HX & Hso & Hf & Hd & HT').
  rewrite Es in E1. injection E1 as <-. split; [exact HX|].
  destruct H as [C1 C2 C3 C4 C5 C6 C7]. pose proof (so_dims _ _ (co_ssps _ _ C1)) as Hdims. destruct C1 as [D1 D2 D3 D4 D5 D6 D7 D8 D9 D10 D11].
  pose proof (Hso _ D1) as D1'.
  split; [constructor; [constructor; assumption|assumption..]|]. split; [exact Hf|]. split; [rewrite Hd; exact Hdims|exact HT'].
Qed.

Lemma par_pad_prefix : exists P_txz mu_v sig_v,
  arr_is P_txz [nt g; nx g; ny g; nz g] (fun idx => match idx with [t; x; y; z] => Fin (txz_mass g m t x y z) | _ => NaN end) /\
  arr_is mu_v [nt g; nx g; ny g] (fun idx => match idx with [t; x; y] => Fin (pm_mu m t x y) | _ => NaN end) /\
  arr_is sig_v [nt g; nx g; ny g] (fun idx => match idx with [t; x; y] => Fin (pm_sig m t x y) | _ => NaN end) /\
  forall batch, is_batch batch -> par_evaluate_ybar L (par_see self s') batch = par_evaluate (see (pa_cube self) s') P_txz mu_v sig_v batch.
Proof.
  destruct par_pad_facts as (HX & Hon & Hf & Hd & HT'). destruct (txz_arr L (par_see self s') g m Hon Hg Hm) as (P & EP & HP).
  destruct Hon as [Hc _ _ _ _ (mu & Emu & Smu & Vmu) (sg & Esg & Ssg & Vsg)].
  exists P, mu, sg. split; [exact HP|]. split; [split; [exact Smu|]; intros idx Hi; inb_inv; apply Vmu; assumption|].
  split; [split; [exact Ssg|]; intros idx Hi; inb_inv; apply Vsg; assumption|].
  intros batch Hb. unfold par_evaluate_ybar. cbv zeta. rewrite EP. cbn [bind].
  assert (Htz : (0 < nz g * nt g)%nat) by (pose proof (gg_t _ Hg); pose proof (gg_z _ Hg); nia).
  destruct (template_arr (see (pa_cube self) (written_out nl n s')) g n dv (zero_padded nl S) HT' Htz (co_nx _ _ Hc) (co_ny _ _ Hc)) as (F & EF & _).
  change (c_ssps (pa_cube (par_see self s'))) with s'. rewrite Hd. cbn [fst snd]. change (FXw s') with (FXw (c_ssps (see (pa_cube self) (written_out nl n s')))). rewrite EF. cbn [bind].
  rewrite (proj2 (batch_known_is batch) Hb), Emu, Esg. cbn [attr bind]. reflexivity.
Qed.

Lemma par_none_claim : exists y, par_evaluate_ybar L (par_see self s') "none" = Ok y /\
  is_cube y n (nx g) (ny g) (par_datacube g (txz_mass g m) (pm_mu m) (pm_sig m) n dv (zero_padded nl S)).
Proof.
  destruct par_pad_facts as (HX & Hon & Hf & Hd & HT'). destruct par_pad_prefix as (P & mu & sg & HP & Hmu & Hsg & E).
  rewrite E by (left; reflexivity). pose proof (po_cube _ _ _ _ Hon) as Hc.
  assert (Htz : (0 < nz g * nt g)%nat) by (pose proof (gg_t _ Hg); pose proof (gg_z _ Hg); nia).
  destruct (par_evaluate_claim (see (pa_cube self) (written_out nl n s')) g n dv (zero_padded nl S) (txz_mass g m) (pm_mu m) (pm_sig m) P mu sg
    HT' Hdv Hd Htz (co_nx _ _ Hc) (co_ny _ _ Hc) HP Hmu Hsg "none" (or_introl eq_refl)) as (y & Ey & Hy).
  exists y. split; [exact Ey|exact Hy].
Qed.

Lemma par_loop_claim batch : batch = "column"%string \/ batch = "spaxel"%string -> n <> nl -> par_evaluate_ybar L (par_see self s') batch = Err ValueError.
Proof.
  intros Hb Hne. destruct par_pad_facts as (HX & Hon & Hf & Hd & HT'). destruct par_pad_prefix as (P & mu & sg & HP & Hmu & Hsg & E).
  rewrite E by (right; exact Hb). pose proof (po_cube _ _ _ _ Hon) as Hc. cbn [par_see pa_cube] in Hc.
  assert (Htz : (0 < nz g * nt g)%nat) by (pose proof (gg_t _ Hg); pose proof (gg_z _ Hg); nia).
  assert (Hn : (1 < nl)%nat /\ (1 < n)%nat /\ (0 < n)%nat).
  { pose proof (padded_length_claim nl (tp_n _ _ _ _ _ HT)) as [_ Hl]. pose proof (tp_n _ _ _ _ _ HT). fold n in Hl. lia. }
  destruct Hn as (Hn1 & Hn2 & Hn3). pose proof (gg_x _ Hg) as Hgx. pose proof (gg_y _ Hg) as Hgy.
  set (vc := see (pa_cube self) (written_out nl n s')).
  destruct (template_arr vc g n dv (zero_padded nl S) HT' Htz (co_nx _ _ Hc) (co_ny _ _ Hc)) as (Fs & EFs & HFs).
  pose proof (omega_is vc g n dv (zero_padded nl S) HT' Hdv Htz (co_nx _ _ Hc) (co_ny _ _ Hc)) as Ho.
  unfold par_evaluate. change (c_ssps (see (pa_cube self) s')) with s'. rewrite Hd. cbn [fst snd].
  change (reshape3c (FXw s') (nz g) (nt g) = Ok Fs) in EFs. rewrite EFs. cbn [bind].
  cbn [vc see c_ssps written_out ssp_dv FXw] in Ho.
  destruct Hb as [-> | ->]; cbn [String.eqb Ascii.eqb Bool.eqb].
  - unfold par_column. change (c_ssps (see (pa_cube self) s')) with s'. rewrite HX, (tp_X _ _ _ _ _ HT), Hf, (co_nx _ _ Hc), (co_ny _ _ Hc). cbn [nth].
    pose proof Hmu as H1. pose proof Hsg as H2. pose proof HP as H3. s_get.
    rewrite (map_res_first _ ValueError (ny g) Hgy); [reflexivity|].
    s_geti. s_geti. unfold transform. s_bop. s_bop. s_map. s_bop. s_map. cbn [bind]. s_geti.
    unfold einsum.
    repeat match goal with Q : arr_is ?a _ _ |- context [shp ?a] => rewrite (proj1 Q) end. cbn [app]. rewrite !natlist_eqb_refl. cbn [andb bind].
    match goal with |- context [irfft_ax ?A n 0] =>
      destruct (irfft0_is A (n / 2 + 1)%nat [nx g] (ent A) n (conj eq_refl (fun _ _ => eq_refl)) Hn3) as (y & Ey & Hy) end.
    rewrite Ey. cbn [bind]. apply (broadcast_fails2 _ n); try assumption. exact (proj1 Hy).
  - unfold par_spaxel. change (c_ssps (see (pa_cube self) s')) with s'. rewrite HX, (tp_X _ _ _ _ _ HT), Hf, (co_nx _ _ Hc), (co_ny _ _ Hc). cbn [nth].
    pose proof Hmu as H1. pose proof Hsg as H2. pose proof HP as H3. s_get.
    rewrite (map_res_first _ ValueError (nx g) Hgx); [reflexivity|]. apply map_res_first; [exact Hgy|].
    s_geti. s_geti. unfold transform. s_bop. s_bop. s_map. s_bop. s_map. cbn [bind]. s_geti.
    unfold einsum.
    repeat match goal with Q : arr_is ?a _ _ |- context [shp ?a] => rewrite (proj1 Q) end. cbn [app]. rewrite !natlist_eqb_refl. cbn [andb bind].
    match goal with |- context [irfft_ax ?A n 0] =>
      destruct (irfft0_is A (n / 2 + 1)%nat [] (ent A) n (conj eq_refl (fun _ _ => eq_refl)) Hn3) as (y & Ey & Hy) end.
    rewrite Ey. cbn [bind]. apply (broadcast_fails1 _ n); try assumption. exact (proj1 Hy).
Qed.

End parametric.


Lemma shifted_moved n nl S t z k w : (w < nl)%nat -> (nl <= n)%nat -> (Z.abs k <= Z.of_nat n - Z.of_nat nl)%Z ->
  shifted n (zero_padded nl S t z) k w = moved nl (S t z) k w.
Proof.
  intros Hw Hn Hk. unfold shifted, moved, zero_padded. set (d := (Z.of_nat w - k)%Z).
  destruct (Z.leb_spec 0 d) as [H0|H0]; cbn [andb].
  - rewrite Z.mod_small by lia. destruct (Z.ltb_spec d (Z.of_nat nl)); destruct (Nat.ltb_spec (Z.to_nat d) nl); try reflexivity; lia.
  - replace (d mod Z.of_nat n)%Z with (d + Z.of_nat n)%Z.
    + destruct (Nat.ltb_spec (Z.to_nat (d + Z.of_nat n)) nl); [lia|reflexivity].
    + apply (Z.mod_unique _ _ (-1)); lia.
Qed.

(** no dispersion and k pixels of mean velocity *)
Lemma par_moved_claim c g nl n dv S s' P mu sig P_txz mu_v sig_v (k : Z) :
  templates (c_ssps c) g nl dv S -> dv <> 0 -> par_dims (c_ssps c) = (nz g, nt g) -> (0 < nz g * nt g)%nat -> c_nx c = nx g -> c_ny c = ny g ->
  arr_is P_txz [nt g; nx g; ny g; nz g] (fun idx => match idx with [t; x; y; z] => Fin (P t x y z) | _ => NaN end) ->
  arr_is mu_v [nt g; nx g; ny g] (fun idx => match idx with [t; x; y] => Fin (mu t x y) | _ => NaN end) ->
  arr_is sig_v [nt g; nx g; ny g] (fun idx => match idx with [t; x; y] => Fin (sig t x y) | _ => NaN end) ->
  calculate_fourier_transform (PadStr "ppxf") (c_ssps c) = Ok s' -> least_power nl n ->
  (2 <= nl)%nat -> (Z.abs k <= Z.of_nat n - Z.of_nat nl)%Z ->
  (forall t i j, (t < nt g)%nat -> (i < nx g)%nat -> (j < ny g)%nat -> mu t i j = IZR k * dv /\ sig t i j = 0) ->
  exists y, par_evaluate (see c s') P_txz mu_v sig_v "none" = Ok y /\ shp y = [n; nx g; ny g] /\
    forall w i j, (w < nl)%nat -> (i < nx g)%nat -> (j < ny g)%nat ->
      ent y [w; i; j] = Fin (Sum (nt g) (fun t => Sum (nz g) (fun z => P t i j z * moved nl (S t z) k w))).
Proof.
  intros HT Hdv Hd Htz Hx Hy HP Hmu Hsg Es Hn Hnl Hk Hms.
  rewrite (least_power_unique _ _ _ Hn (padded_length_claim nl (tp_n _ _ _ _ _ HT))) in *. clear Hn.
  destruct (padded_ok _ _ _ _ _ HT) as (s1 & E1 & HX & _ & Hf & Hd' & HT'). rewrite Es in E1. injection E1 as <-.
  rewrite Hd in Hd'. set (n' := padded_length nl) in *.
  destruct (par_evaluate_claim (see c (written_out nl n' s')) g n' dv (zero_padded nl S) P mu sig P_txz mu_v sig_v
    HT' Hdv Hd' Htz Hx Hy HP Hmu Hsg "none" (or_introl eq_refl)) as (y & Ey & Hs & He).
  exists y. split; [exact Ey|]. split; [exact Hs|].
  pose proof (padded_length_claim nl (tp_n _ _ _ _ _ HT)) as [[q Hq] Hl]. fold n' in Hq, Hl.
  intros w i j Hw Hi Hj. rewrite He by (try assumption; lia). f_equal.
  rewrite (par_shift_claim g _ _ _ n' dv _ k); try assumption; try lia.
  - apply Sum_ext. intros t _. apply Sum_ext. intros z _. rewrite shifted_moved by (try assumption; lia). reflexivity.
  - destruct q; [cbn in Hq; lia|]. exists (2 ^ q)%nat. rewrite Hq. reflexivity.
  - intros t Ht. apply Hms; assumption.
Qed.

(** ** numbers of pixels that are powers of two *)
Lemma power_claim s g nl dv S : templates s g nl dv S -> (exists k, nl = 2 ^ k)%nat ->
  exists s', calculate_fourier_transform (PadStr "ppxf") s = Ok s' /\ templates s' g nl dv S.
Proof.
  intros HT Hp. pose proof (tp_n _ _ _ _ _ HT) as Hn.
  assert (E : padded_length nl = nl).
  { apply (least_power_unique nl); [apply padded_length_claim; exact Hn|]. split; [exact Hp|lia]. }
  unfold calculate_fourier_transform. rewrite (tp_X _ _ _ _ _ HT). cbn [nth fft_length String.eqb Ascii.eqb Bool.eqb bind]. rewrite E.
  unfold rfft. destruct (Nat.eqb_spec nl 0); [lia|]. cbn [T shp]. rewrite (tp_X _ _ _ _ _ HT). cbn [rev app bind].
  eexists; split; [reflexivity|]. constructor.
  - exact Hn.
  - exact (tp_dv _ _ _ _ _ HT).
  - reflexivity.
  - exact (tp_X _ _ _ _ _ HT).
  - exact (tp_S _ _ _ _ _ HT).
  - reflexivity.
  - intros k c Hk Hc. reflexivity.
Qed.

(** ** statements in terms of the least power of two *)
Lemma succeeds_claim s g nl dv S : templates s g nl dv S ->
  exists s', calculate_fourier_transform (PadStr "ppxf") s = Ok s' /\ Xw s' = Xw s /\ light_weights s' = light_weights s /\ least_power nl (n_fft s') /\
    shp (FXw s') = [(n_fft s' / 2 + 1)%nat; (nz g * nt g)%nat].
Proof.
  intros HT. destruct (padded_ok _ _ _ _ _ HT) as (s' & E & HX & _ & Hf & _ & HT'). exists s'. split; [exact E|]. split; [exact HX|].
  split; [|split; [rewrite Hf; apply padded_length_claim; exact (tp_n _ _ _ _ _ HT)|rewrite Hf; exact (tp_F _ _ _ _ _ HT')]].
  unfold calculate_fourier_transform in E. destruct (fft_length _ _); cbn [bind] in E; [|discriminate]. destruct (rfft _ _); cbn [bind] in E; [|discriminate].
  injection E as <-. reflexivity.
Qed.

Lemma datacube_claim W self g f nl dv S v0 s' n : evaluable self g f nl dv S v0 ->
  calculate_fourier_transform (PadStr "ppxf") (c_ssps (comp_cube self)) = Ok s' -> least_power nl n ->
  exists y, evaluate_ybar W (base_see self s') "none" = Ok y /\ is_cube y n (nx g) (ny g) (datacube W g f n dv v0 (zero_padded nl S)).
Proof.
  destruct self as [c logp]. intros H Es Hn.
  rewrite (least_power_unique _ _ _ Hn (padded_length_claim nl (tp_n _ _ _ _ _ (ev_templates _ _ _ _ _ _ _ H)))).
  exact (base_none_claim W c logp g f nl dv S v0 H s' Es).
Qed.
Lemma loops_claim W self g f nl dv S v0 s' batch : evaluable self g f nl dv S v0 ->
  calculate_fourier_transform (PadStr "ppxf") (c_ssps (comp_cube self)) = Ok s' -> ~ (exists k, nl = 2 ^ k)%nat ->
  batch = "column"%string \/ batch = "spaxel"%string -> evaluate_ybar W (base_see self s') batch = Err ValueError.
Proof.
  destruct self as [c logp]. intros H Es Hn Hb. apply (base_loop_claim W c logp g f nl dv S v0 H s' Es batch Hb).
  pose proof (padded_length_claim nl (tp_n _ _ _ _ _ (ev_templates _ _ _ _ _ _ _ H))) as [Hp _]. intros E. rewrite E in Hp. exact (Hn Hp).
Qed.
Lemma par_datacube_claim L self g m nl dv S s' n : par_on L self g m -> good_grid g -> good_par g m -> templates (c_ssps (pa_cube self)) g nl dv S -> dv <> 0 ->
  calculate_fourier_transform (PadStr "ppxf") (c_ssps (pa_cube self)) = Ok s' -> least_power nl n ->
  exists y, par_evaluate_ybar L (par_see self s') "none" = Ok y /\
    is_cube y n (nx g) (ny g) (par_datacube g (txz_mass g m) (pm_mu m) (pm_sig m) n dv (zero_padded nl S)).
Proof.
  intros H Hg Hm HT Hdv Es Hn. rewrite (least_power_unique _ _ _ Hn (padded_length_claim nl (tp_n _ _ _ _ _ HT))).
  exact (par_none_claim L self g m H Hg Hm nl dv S HT Hdv s' Es).
Qed.
Lemma par_loops_claim L self g m nl dv S s' batch : par_on L self g m -> good_grid g -> good_par g m -> templates (c_ssps (pa_cube self)) g nl dv S -> dv <> 0 ->
  calculate_fourier_transform (PadStr "ppxf") (c_ssps (pa_cube self)) = Ok s' -> ~ (exists k, nl = 2 ^ k)%nat ->
  batch = "column"%string \/ batch = "spaxel"%string -> par_evaluate_ybar L (par_see self s') batch = Err ValueError.
Proof.
  intros H Hg Hm HT Hdv Es Hn Hb. apply (par_loop_claim L self g m H Hg Hm nl dv S HT Hdv s' Es batch Hb).
  pose proof (padded_length_claim nl (tp_n _ _ _ _ _ HT)) as [Hp _]. intros E. rewrite E in Hp. exact (Hn Hp).
Qed.
