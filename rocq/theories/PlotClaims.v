(** * PlotClaims: lemmas for claim C81. *)
From Coq Require Import Reals Lra Lia List Bool Arith ZArith String Ascii Psatz.
From Verif Require Import Num NumLemmas Arr ArrLemmas PyStr Cube Base Spec SpecLemmas Repr CubeLemmas MomArr MomSpec MomLemmas LMom
  CubeGeom Plot PlotLemmas DistLemmas ReadMiles Ssps SspClaims PlotAxes.
Import ListNotations.
Local Open Scope R_scope.

(** ** specification *)
(** the label of each variable *)
Definition label (k : coord) : string :=
  match k with Ct => "$t$ [Gyr]" | Cv => "$v$ [km/s]" | Cx1 => "$x_1$" | Cx2 => "$x_2$" | Cz => "$z$ [M/H]" end.
(** the ticks an SSP object has for a variable *)
Definition own_ticks (mg : mgrid) (k : coord) : ticks :=
  match k with Ct => Some (g_img_t_ticks mg, g_t_ticks mg) | Cz => Some (g_img_z_ticks mg, g_z_ticks mg) | _ => None end.
(** the SSP object's ticks are in place for the bins of g *)
Definition ticks_on (mg : mgrid) (g : grid) : Prop :=
  placed (nt g) (tE g) (g_t_ticks mg) (g_img_t_ticks mg) /\ placed (nz g) (zE g) (g_z_ticks mg) (g_img_z_ticks mg).

(** ** images *)
Lemma label_ok k : get_axis_label (vname k) = Ok (label k). Proof. destruct k; reflexivity. Qed.
Lemma ticks_ok mg k : get_ticks mg (vname k) = Ok (own_ticks mg k). Proof. destruct k; reflexivity. Qed.
Lemma own_placed mg g k pos lab : ticks_on mg g -> own_ticks mg k = Some (pos, lab) -> placed (cn g k) (cedge g k) lab pos /\ shown g k = (0, 1).
Proof. intros [H1 H2] E. destruct k; cbn in *; try discriminate E; injection E as <- <-; split; auto. Qed.

(** a position on the image axis lies in bin j iff the value does *)
Lemma pos_in_bin n E x p j : (0 < n)%nat -> increasing n E -> image_pos n E x p -> (j < n)%nat ->
  (E j <= x < E (S j) <-> INR j / INR n <= p < INR (S j) / INR n).
Proof.
  intros Hn HE (i & Hi & Hx & ->) Hj. assert (N : 0 < INR n) by (apply lt_0_INR; lia).
  pose proof (HE i Hi) as Wi. set (f := (x - E i) / (E (S i) - E i)).
  assert (F : 0 <= f < 1).
  { unfold f. split; [apply div_pos_le; lra|]. apply Rmult_lt_reg_r with (E (S i) - E i); [lra|]. unfold Rdiv. rewrite Rmult_assoc, Rinv_l by lra. lra. }
  assert (R : INR j / INR n <= (INR i + f) / INR n < INR (S j) / INR n <-> i = j).
  { split.
    - intros [A B]. apply Rmult_le_reg_r in A; [|apply Rinv_0_lt_compat; assumption]. apply Rmult_lt_reg_r in B; [|apply Rinv_0_lt_compat; assumption].
      assert (INR j < INR (S i)) by (rewrite S_INR; lra). assert (INR i < INR (S j)) by lra. apply INR_lt in H, H0. lia.
    - intros <-. rewrite S_INR. split; [apply Rmult_le_compat_r|apply Rmult_lt_compat_r]; try (apply Rinv_0_lt_compat; assumption); try lra.
      left. apply Rinv_0_lt_compat; assumption. }
  rewrite R. split; [|intros <-; assumption]. intros Hxj. destruct (Nat.lt_trichotomy i j) as [H|[H|H]]; [exfalso|assumption|exfalso].
  - assert (E (S i) <= E j); [|lra]. clear - HE H Hj. induction j as [|j IH]; [lia|]. destruct (Nat.eq_dec i j) as [->|]; [lra|].
    pose proof (HE j ltac:(lia)). specialize (IH ltac:(lia) ltac:(lia)). lra.
  - assert (E (S j) <= E i); [|lra]. clear - HE H Hi. induction i as [|i IH]; [lia|]. destruct (Nat.eq_dec j i) as [->|]; [lra|].
    pose proof (HE i ltac:(lia)). specialize (IH ltac:(lia) ltac:(lia)). lra.
Qed.
Lemma lin01 n i : lin 0 1 n i = INR i / INR n. Proof. unfold lin. unfold Rdiv. ring. Qed.
Lemma good_cedge g k : good_grid g -> increasing (cn g k) (cedge g k) /\ (0 < cn g k)%nat.
Proof. intros H. destruct H, k; cbn; split; assumption. Qed.

Lemma image_axes_claim p h mg g k0 k1 img n m label_ax : cube_on (p_cube p) g -> good_grid g -> tuple_ranges p h g -> shp img = [n; m] ->
  exists ai, imshow p h img [vname k0; vname k1] = (h, Ok ai) /\
    imshow_axes p mg h img [vname k0; vname k1] label_ax =
      (h, Ok (ai, if label_ax then (Axis (own_ticks mg k0) (Some (label k0)), Axis (own_ticks mg k1) (Some (label k1)))
                  else (Axis (Some ([], [])) None, Axis (Some ([], [])) None))).
Proof.
  intros Hc Hg HT Hs. destruct (imshow_claim p h g k0 k1 img n m Hc Hg HT Hs) as (data & l & r & b & t & E & _).
  eexists. split; [exact E|]. unfold imshow_axes. rewrite E. cbn [bind nth]. unfold image_axis. destruct label_ax; cbn [negb bind]; [|reflexivity].
  rewrite !ticks_ok; cbn [bind]. rewrite !label_ok; cbn [bind]. reflexivity.
Qed.
Lemma image_ticks_claim p h mg g k0 k1 img m : cube_on (p_cube p) g -> good_grid g -> tuple_ranges p h g -> ticks_on mg g ->
  shp img = [cn g k0; m] -> forall pos lab, own_ticks mg k0 = Some (pos, lab) ->
  exists data l r b t ax1, imshow_axes p mg h img [vname k0; vname k1] true =
      (h, Ok (AxesImage data [Fin l; Fin r; Fin b; Fin t], (Axis (Some (pos, lab)) (Some (label k0)), ax1))) /\
    forall i j, (i < cn g k0)%nat -> (j < m)%nat ->
      exists row col, ent data [row; col] = ent img [i; j] /\
        forall s, (s < List.length lab)%nat ->
          (cedge g k0 i <= nth s lab 0 < cedge g k0 (S i) <->
           fst (fst (pixel_box m (cn g k0) l r b t row col)) <= nth s pos 0 < snd (fst (pixel_box m (cn g k0) l r b t row col))).
Proof.
  intros Hc Hg HT HK Hs pos lab Ho. destruct (good_cedge g k0 Hg) as [Gi Gn].
  destruct (imshow_claim p h g k0 k1 img _ m Hc Hg HT Hs) as (data & l & r & b & t & E & _ & He).
  destruct (image_axes_claim p h mg g k0 k1 img _ m true Hc Hg HT Hs) as (ai & E' & EA). rewrite E in E'. injection E' as <-.
  destruct (own_placed mg g k0 pos lab HK Ho) as [[HL HP] HS].
  exists data, l, r, b, t, (Axis (own_ticks mg k1) (Some (label k1))). rewrite Ho in EA. split; [exact EA|].
  intros i j Hi Hj. destruct (He i j Hi Hj) as (row & col & _ & _ & D & B). exists row, col. split; [exact D|].
  intros s Hss. rewrite B, HS. cbn [fst snd]. rewrite !lin01. apply pos_in_bin; try assumption. apply HP; assumption.
Qed.
Lemma image_ticks_vertical_claim p h mg g k0 k1 img n : cube_on (p_cube p) g -> good_grid g -> tuple_ranges p h g -> ticks_on mg g ->
  shp img = [n; cn g k1] -> forall pos lab, own_ticks mg k1 = Some (pos, lab) ->
  exists data l r b t ax0, imshow_axes p mg h img [vname k0; vname k1] true =
      (h, Ok (AxesImage data [Fin l; Fin r; Fin b; Fin t], (ax0, Axis (Some (pos, lab)) (Some (label k1))))) /\
    forall i j, (i < n)%nat -> (j < cn g k1)%nat ->
      exists row col, ent data [row; col] = ent img [i; j] /\
        forall s, (s < List.length lab)%nat ->
          (cedge g k1 j <= nth s lab 0 < cedge g k1 (S j) <->
           fst (snd (pixel_box (cn g k1) n l r b t row col)) <= nth s pos 0 < snd (snd (pixel_box (cn g k1) n l r b t row col))).
Proof.
  intros Hc Hg HT HK Hs pos lab Ho. destruct (good_cedge g k1 Hg) as [Gi Gn].
  destruct (imshow_claim p h g k0 k1 img n _ Hc Hg HT Hs) as (data & l & r & b & t & E & _ & He).
  destruct (image_axes_claim p h mg g k0 k1 img n _ true Hc Hg HT Hs) as (ai & E' & EA). rewrite E in E'. injection E' as <-.
  destruct (own_placed mg g k1 pos lab HK Ho) as [[HL HP] HS].
  exists data, l, r, b, t, (Axis (own_ticks mg k0) (Some (label k0))). rewrite Ho in EA. split; [exact EA|].
  intros i j Hi Hj. destruct (He i j Hi Hj) as (row & col & _ & _ & D & B). exists row, col. split; [exact D|].
  intros s Hss. rewrite B, HS. cbn [fst snd]. rewrite !lin01. apply pos_in_bin; try assumption. apply HP; assumption.
Qed.

(** ** lines *)
Lemma len0_vec a n E : vec a n E -> len0 a = n. Proof. intros [H _]. unfold len0. rewrite H. reflexivity. Qed.
Lemma plot_physical_claim c mg g k y n s : cube_on c g -> shp y = n :: s -> (List.length s <= 1)%nat ->
  (n = cn g k -> exists x, plot c mg (vname k) y "physical" = Ok (LinePlot x y (Axis None (Some (label k)))) /\
      shp x = [n] /\ forall i, (i < n)%nat -> ent x [i] = Fin (mid (cedge g k) i)) /\
  (n <> cn g k -> plot c mg (vname k) y "physical" = Err ValueError).
Proof.
  intros Hc Hs Hl. destruct (values_query c g Hc k) as (x & Ex & Vx). unfold plot, plot_x. cbn [String.eqb Ascii.eqb Bool.eqb]. rewrite Ex; cbn [bind].
  unfold mpl_plot. rewrite Hs, (len0_vec _ _ _ Vx). rewrite label_ok. destruct s as [|s0 [|s1 s]]; [| |cbn in Hl; lia];
  (split; intros Hn; [subst n; rewrite Nat.eqb_refl; cbn [bind]; exists x; destruct Vx as [V1 V2]; auto
                     |destruct (Nat.eqb_spec (cn g k) n); [congruence|reflexivity]]).
Qed.
Lemma linspace01 n : shp (linspace 0 1 n) = [n] /\
  forall i, (i < n)%nat -> ent (linspace 0 1 n) [i] = Fin (if Nat.eqb n 1 then 0 else INR i / INR (n - 1)).
Proof.
  split; [reflexivity|]. intros i Hi. cbn. destruct (Nat.eqb_spec n 1) as [->|Hn].
  - destruct i; [|lia]. cbn. f_equal. unfold Rdiv. rewrite Rmult_0_l. ring.
  - f_equal. unfold Rdiv. ring.
Qed.
Lemma plot_discrete_claim c mg g k y n : cube_on c g -> shp y = [n] ->
  exists x, plot c mg (vname k) y "discrete" = Ok (LinePlot x y (Axis (own_ticks mg k) (Some (label k)))) /\
    shp x = [n] /\ forall i, (i < n)%nat -> ent x [i] = Fin (if Nat.eqb n 1 then 0 else INR i / INR (n - 1)).
Proof.
  intros Hc Hs. exists (linspace 0 1 n). split; [|apply linspace01].
  unfold plot, plot_x. cbn [String.eqb Ascii.eqb Bool.eqb]. rewrite (extent_query c g Hc k). cbn [bind]. rewrite ticks_ok; cbn [bind].
  rewrite Hs. replace (size_of [n]) with n by (unfold size_of; cbn; lia). unfold mpl_plot. rewrite Hs. cbn [len0 shp linspace hd]. rewrite Nat.eqb_refl; cbn [bind]. rewrite label_ok. reflexivity.
Qed.
Lemma plot_errors c mg y : 
  (forall w sp, (forall k, w <> vname k) -> sp = "physical"%string \/ sp = "discrete"%string -> plot c mg w y sp = Err ValueError) /\
  (forall w sp, sp <> "physical"%string -> sp <> "discrete"%string -> plot c mg w y sp = Err UnboundLocalError).
Proof.
  split.
  - intros w sp Hw Hsp. destruct (unknown_variable c w Hw) as (V & _ & _ & X). unfold plot, plot_x. destruct Hsp as [-> | ->]; cbn [String.eqb Ascii.eqb Bool.eqb].
    + rewrite V. reflexivity.
    + rewrite X. reflexivity.
  - intros w sp H1 H2. unfold plot, plot_x. apply String.eqb_neq in H1, H2. rewrite H1, H2. reflexivity.
Qed.
(** several lines at once *)
Lemma plot_columns c mg g k y m : cube_on c g -> good_grid g -> shp y = [cn g k; m] -> m <> 1%nat ->
  (exists r, plot c mg (vname k) y "physical" = Ok r) /\ plot c mg (vname k) y "discrete" = Err ValueError.
Proof.
  intros Hc Hg Hs Hm. destruct (good_cedge g k Hg) as [_ Gn]. split.
  - destruct (plot_physical_claim c mg g k y _ _ Hc Hs ltac:(cbn; lia)) as [H _]. destruct (H eq_refl) as (x & E & _). eexists; exact E.
  - unfold plot, plot_x. cbn [String.eqb Ascii.eqb Bool.eqb]. rewrite (extent_query c g Hc k). cbn [bind]. rewrite ticks_ok; cbn [bind].
    rewrite Hs. unfold mpl_plot. rewrite Hs. unfold len0. cbn [shp linspace hd]. 
    destruct (Nat.eqb_spec (size_of [cn g k; m]) (cn g k)) as [E|E]; [|reflexivity]. exfalso. unfold size_of in E. cbn in E. nia.
Qed.
(** where the points are *)
Lemma point_in_bin n i : (2 <= n)%nat -> (i < n)%nat ->
  INR i / INR n <= INR i / INR (n - 1) <= INR (S i) / INR n /\
  INR i / INR (n - 1) - (INR i + 1 / 2) / INR n = (2 * INR i - INR (n - 1)) / (2 * INR n * INR (n - 1)) /\
  Rabs (INR i / INR (n - 1) - (INR i + 1 / 2) / INR n) <= 1 / (2 * INR n).
Proof.
  intros Hn Hi. assert (N : 2 <= INR n) by (apply (le_INR 2); assumption). rewrite S_INR. rewrite minus_INR by lia. change (INR 1) with 1.
  pose proof (pos_INR i). assert (I1 : INR i <= INR n - 1) by (assert (K : INR (S i) <= INR n) by (apply le_INR; lia); rewrite S_INR in K; lra).
  assert (E : INR i / (INR n - 1) - (INR i + 1 / 2) / INR n = (2 * INR i - (INR n - 1)) / (2 * INR n * (INR n - 1))) by (field; lra).
  assert (B : Rabs (INR i / (INR n - 1) - (INR i + 1 / 2) / INR n) <= 1 / (2 * INR n)).
  { rewrite E. replace (1 / (2 * INR n)) with ((INR n - 1) / (2 * INR n * (INR n - 1))) by (field; lra).
    unfold Rdiv. rewrite Rabs_mult, (Rabs_right (/ _)).
    2:{ apply Rle_ge, Rlt_le, Rinv_0_lt_compat. nra. }
    apply Rmult_le_compat_r; [apply Rlt_le, Rinv_0_lt_compat; nra|]. apply Rabs_le. lra. }
  split; [|split; assumption].
  assert (X : (INR i + 1) / INR n - (INR i + 1 / 2) / INR n = 1 / (2 * INR n)) by (field; lra).
  assert (Y : (INR i + 1 / 2) / INR n - INR i / INR n = 1 / (2 * INR n)) by (field; lra).
  pose proof (Rle_abs (INR i / (INR n - 1) - (INR i + 1 / 2) / INR n)). pose proof (Rle_abs (- (INR i / (INR n - 1) - (INR i + 1 / 2) / INR n))) as M. rewrite Rabs_Ropp in M. lra.
Qed.
Lemma centre_pos n E i p : (0 < n)%nat -> increasing n E -> (i < n)%nat -> image_pos n E (mid E i) p -> p = (INR i + 1 / 2) / INR n.
Proof.
  intros Hn HE Hi (j & Hj & Hx & ->). pose proof (HE i Hi). pose proof (HE j Hj).
  assert (H' : image_pos n E (mid E i) ((INR j + (mid E i - E j) / (E (S j) - E j)) / INR n)) by (exists j; auto).
  assert (N : 0 < INR n) by (apply lt_0_INR; lia).
  pose proof (pos_in_bin n E _ _ i Hn HE H' Hi) as [A _]. pose proof (pos_in_bin n E _ _ j Hn HE H' Hj) as [B _].
  assert (M : E i <= mid E i < E (S i)) by (unfold mid; lra). specialize (A M). specialize (B Hx).
  assert (i = j); [|subst j; unfold mid; field; lra].
  assert (INR j / INR n < INR (S i) / INR n) as K1 by lra. assert (INR i / INR n < INR (S j) / INR n) as K2 by lra.
  apply Rmult_lt_reg_r in K1, K2; try (apply Rinv_0_lt_compat; assumption). apply INR_lt in K1, K2. lia.
Qed.
(** the points of a discrete plot and the places its ticks give to their values *)
Lemma points_claim c mg g k y : cube_on c g -> good_grid g -> shp y = [cn g k] -> (2 <= cn g k)%nat ->
  exists x, plot c mg (vname k) y "discrete" = Ok (LinePlot x y (Axis (own_ticks mg k) (Some (label k)))) /\
    forall i, (i < cn g k)%nat -> exists r, ent x [i] = Fin r /\
      INR i / INR (cn g k) <= r <= INR (S i) / INR (cn g k) /\
      forall p, image_pos (cn g k) (cedge g k) (mid (cedge g k) i) p ->
        Rabs (r - p) <= 1 / (2 * INR (cn g k)) /\ (r = p <-> (2 * i = cn g k - 1)%nat).
Proof.
  intros Hc Hg Hs Hn. destruct (good_cedge g k Hg) as [Gi Gn]. destruct (plot_discrete_claim c mg g k y _ Hc Hs) as (x & E & _ & Hx).
  exists x. split; [exact E|]. intros i Hi. exists (INR i / INR (cn g k - 1)). rewrite Hx by assumption.
  destruct (Nat.eqb_spec (cn g k) 1) as [|_]; [lia|]. split; [reflexivity|].
  destruct (point_in_bin (cn g k) i Hn Hi) as (B & D & A). split; [exact B|]. intros p Hp.
  apply centre_pos in Hp; try assumption. subst p. split; [exact A|].
  assert (N : 2 <= INR (cn g k)) by (apply (le_INR 2); assumption). assert (N1 : INR (cn g k - 1) = INR (cn g k) - 1) by (rewrite minus_INR by lia; reflexivity).
  assert (Q : 2 * INR (cn g k) * INR (cn g k - 1) <> 0) by (rewrite N1; nra).
  split; intros H.
  - assert (Z : (2 * INR i - INR (cn g k - 1)) / (2 * INR (cn g k) * INR (cn g k - 1)) = 0) by (rewrite <- D; lra).
    assert (Z' : 2 * INR i - INR (cn g k - 1) = 0).
    { apply (f_equal (fun u => u * (2 * INR (cn g k) * INR (cn g k - 1)))) in Z. unfold Rdiv in Z. rewrite Rmult_assoc, Rinv_l, Rmult_0_l, Rmult_1_r in Z by assumption. exact Z. }
    apply INR_eq. rewrite mult_INR. change (INR 2) with 2. lra.
  - assert (Z : 2 * INR i = INR (cn g k - 1)) by (rewrite <- H, mult_INR; reflexivity).
    assert (Y : INR i / INR (cn g k - 1) - (INR i + 1 / 2) / INR (cn g k) = 0); [|lra].
    rewrite D, Z. unfold Rdiv. ring.
Qed.

(** ** spectra *)
Lemma spectrum_claim lmd w y L W n s : shp lmd = [L] -> shp w = [W] -> shp y = n :: s -> (List.length s <= 1)%nat ->
  (n = L -> plot_spectrum lmd w y = Ok (LinePlot lmd y (Axis None (Some "Wavelength [$\AA$]"%string)))) /\
  (n <> L -> n = W -> exists x, plot_spectrum lmd w y = Ok (LinePlot x y (Axis None (Some "Wavelength [$\AA$]"%string))) /\
     shp x = [n] /\ forall i u, (i < n)%nat -> ent w [i] = Fin u -> ent x [i] = Fin (exp u)) /\
  (n <> L -> n <> W -> plot_spectrum lmd w y = Err UnboundLocalError).
Proof.
  intros HL HW Hs Hl. unfold plot_spectrum, plot_spectrum_x, mpl_plot, len0. rewrite HL, HW, Hs.
  assert (Z : forall q, size_of [q] = q) by (intros; unfold size_of; cbn; lia). rewrite !Z.
  split; [|split].
  - intros ->. rewrite Nat.eqb_refl; cbn [bind]. rewrite HL. cbn [hd]. rewrite Nat.eqb_refl.
    destruct s as [|s0 [|s1 s]]; [reflexivity|reflexivity|cbn in Hl; lia].
  - intros N ->. destruct (Nat.eqb_spec W L); [contradiction|]. rewrite Nat.eqb_refl; cbn [bind]. exists (amap nexp w).
    cbn [amap shp]. rewrite HW; cbn [hd]. rewrite Nat.eqb_refl. split; [destruct s as [|s0 [|s1 s]]; [reflexivity|reflexivity|cbn in Hl; lia]|].
    split; [reflexivity|]. intros i u _ Hu. cbn [amap ent]. rewrite Hu. reflexivity.
  - intros N1 N2. destruct (Nat.eqb_spec n L); [contradiction|]. destruct (Nat.eqb_spec n W); [contradiction|]. reflexivity.
Qed.
Lemma spectrum_number lmd w y : shp y = [] -> plot_spectrum lmd w y = Err IndexError.
Proof. intros H. unfold plot_spectrum, plot_spectrum_x. rewrite H. reflexivity. Qed.
(** wavelengths from exp lo to exp hi, as many as the resampling to log
    wavelength gives (step dw in _logarithmically_resample) *)
Lemma spectrum_ambiguous lo hi n lmd y : lo < hi -> (0 < n)%nat -> shp lmd = [n] -> ent lmd [(n - 1)%nat] = Fin (exp hi) -> shp y = [n] ->
  exists dw, 0 < dw /\ List.length (arange lo hi dw) = n /\
    plot_spectrum lmd (arr1 (map Fin (arange lo hi dw)) NaN) y = Ok (LinePlot lmd y (Axis None (Some "Wavelength [$\AA$]"%string))) /\
    exp (nth (n - 1) (arange lo hi dw) 0) < exp hi.
Proof.
  intros Hlt Hn HL Hl Hs. assert (N : 0 < INR n) by (apply lt_0_INR; lia). exists ((hi - lo) / INR n).
  assert (D : 0 < (hi - lo) / INR n) by (apply Rdiv_lt_0_compat; lra).
  assert (C : ceil ((hi - lo) / ((hi - lo) / INR n)) = Z.of_nat n).
  { unfold ceil. replace (- ((hi - lo) / ((hi - lo) / INR n))) with (IZR (- Z.of_nat n)) by (rewrite opp_IZR, <- INR_IZR_INZ; field; lra).
    rewrite <- (tech_up (IZR (- Z.of_nat n)) (1 - Z.of_nat n)); [lia| |].
    - apply IZR_lt. lia.
    - rewrite <- plus_IZR. apply IZR_le. lia. }
  assert (LE : List.length (arange lo hi ((hi - lo) / INR n)) = n) by (unfold arange; rewrite map_length, seq_length, C; lia).
  split; [exact D|]. split; [exact LE|]. split.
  - destruct (spectrum_claim lmd (arr1 (map Fin (arange lo hi ((hi - lo) / INR n))) NaN) y n n n [] HL) as (H & _); [|exact Hs|cbn; lia|exact (H eq_refl)].
    cbn [arr1 shp]. rewrite map_length, LE. reflexivity.
  - apply exp_increasing. unfold arange. rewrite C, Nat2Z.id.
    rewrite (nth_indep _ 0 (lo + INR 0 * ((hi - lo) / INR n))) by (rewrite map_length, seq_length; lia).
    rewrite (map_nth (fun i => lo + INR i * ((hi - lo) / INR n))). rewrite seq_nth by lia. cbn [Nat.add]. rewrite minus_INR by lia. change (INR 1) with 1.
    replace (lo + (INR n - 1) * ((hi - lo) / INR n)) with (hi - (hi - lo) / INR n) by (field; lra). lra.
Qed.
