(** * Props_Ssps: claims C26-C31 and C71 about model_grids.py. *)
From Coq Require Import Reals Lra Lia List Bool Arith ZArith String.
From Verif Require Import Num NumLemmas Arr PyStr Cube Spec Repr ReadMiles MilesSpec MilesLemmas2 MilesLemmas3 MilesClaims MilesExample
  Ssps VecLemmas SspLemmas SspClaims SspFlow.
Import ListNotations.
Local Open Scope R_scope.

(** C26: bin edges around strictly increasing template values. *)
Theorem C26_edges : forall a n x, (2 <= n)%nat -> vec a n x -> template_values n x ->
  exists e E, get_par_edge_lims a = Ok e /\ vec e (S n) E /\
    (forall i, (0 < i < n)%nat -> E i = (x (i - 1)%nat + x i) / 2) /\
    (E 0%nat = x 0%nat - (x 1%nat - x 0%nat) / 2 \/
     (E 0%nat = 0 /\ Rabs (x 0%nat - (x 1%nat - x 0%nat) / 2) < 0.011)) /\
    E n = x (n - 1)%nat + (x (n - 1)%nat - x (n - 2)%nat) / 2 /\
    (E 0%nat < x 0%nat -> increasing n E /\ forall i, (i < n)%nat -> E i < x i < E (S i)).
Proof. exact edges_claim. Qed.
Print Assumptions C26_edges.
Theorem C26_too_few : forall a n x, (n <= 1)%nat -> vec a n x -> get_par_edge_lims a = Err IndexError.
Proof. exact edge_lims_short. Qed.
Print Assumptions C26_too_few.
Definition ages : arr num := arr1 [Fin 1; Fin 2; Fin 4; Fin 13] NaN.
Definition age (i : nat) : R := nth i [1; 2; 4; 13] 0.
Example C26_case : vec ages 4 age /\ template_values 4 age.
Proof.
  split; [exact (vec_list [1; 2; 4; 13])|]. intros i Hi. unfold age.
  destruct i as [|[|[|i]]]; cbn [nth]; [lra|lra|lra|lia].
Qed.

(** C27: an interior bin centre is its template's value iff the two neighbouring spacings are
    equal; the end centres are right when the first edge is not clamped. *)
Theorem C27_centres : forall a n x i, (2 <= n)%nat -> vec a n x -> (0 < i)%nat -> (S i < n)%nat ->
  exists e c E C, get_par_edge_lims a = Ok e /\ vec e (S n) E /\ mids e = Ok c /\ vec c n C /\
    (C i = x i <-> x (S i) - x i = x i - x (i - 1)%nat).
Proof. exact centre_claim. Qed.
Print Assumptions C27_centres.
Theorem C27_end_centres : forall a n x, (2 <= n)%nat -> vec a n x -> 0.011 <= Rabs (x 0%nat - (x 1%nat - x 0%nat) / 2) ->
  exists e c C, get_par_edge_lims a = Ok e /\ mids e = Ok c /\ vec c n C /\ C 0%nat = x 0%nat /\ C (n - 1)%nat = x (n - 1)%nat.
Proof. exact centre_ends_claim. Qed.
Print Assumptions C27_end_centres.
(** refuted: ages 1, 2, 4, 13 *)
Theorem C27_refuted : exists a x e c C, vec a 4 x /\ template_values 4 x /\
  get_par_edge_lims a = Ok e /\ mids e = Ok c /\ vec c 4 C /\ C 1%nat <> x 1%nat /\ C 2%nat <> x 2%nat.
Proof.
  destruct C26_case as [V T]. destruct (C27_centres ages 4 age 1 ltac:(lia) V ltac:(lia) ltac:(lia)) as (e & c & E & C & Ee & _ & Ec & Vc & I1).
  destruct (C27_centres ages 4 age 2 ltac:(lia) V ltac:(lia) ltac:(lia)) as (e' & c' & E' & C' & Ee' & _ & Ec' & Vc' & I2).
  assert (e' = e) by congruence. subst e'. assert (c' = c) by congruence. subst c'.
  exists ages, age, e, c, C. split; [exact V|]. split; [exact T|]. split; [exact Ee|]. split; [exact Ec|]. split; [exact Vc|].
  assert (Q : C' 2%nat = C 2%nat).
  { destruct Vc as [_ V1]. destruct Vc' as [_ V2]. specialize (V1 2%nat ltac:(lia)). specialize (V2 2%nat ltac:(lia)). congruence. }
  rewrite <- Q. split; intros H; [apply I1 in H|apply I2 in H]; unfold age in H; cbn in H; lra.
Qed.
Print Assumptions C27_refuted.

(** C28: rebinning.  [coarsens k n E n' E'] says the new edges are every k-th old edge plus
    the last, and old bin b lies in new bin b/k. *)
Theorem C28_rebin : forall kz ka g nL nz nt zE tE F, (0 < kz)%nat -> (0 < ka)%nat -> (0 < nz)%nat -> (0 < nt)%nat ->
  increasing nz zE -> increasing nt tE -> templates_on g nL nz nt zE tE F ->
  exists g' nz' nt' zE' tE' F', rebin_par_grid ka kz g = Ok g' /\ templates_on g' nL nz' nt' zE' tE' F' /\
    coarsens kz nz zE nz' zE' /\ coarsens ka nt tE nt' tE' /\
    (forall l i j, (i < nz')%nat -> (j < nt')%nat ->
      F' l i j * (wid zE' i * wid tE' j) =
      total nz nt (fun z t => if ((z / kz =? i) && (t / ka =? j))%nat%bool then F l z t * (wid zE z * wid tE t) else 0)) /\
    (forall l, total nz' nt' (fun i j => F' l i j * (wid zE' i * wid tE' j)) =
               total nz nt (fun z t => F l z t * (wid zE z * wid tE t))) /\
    (forall l c, (forall z t, (z < nz)%nat -> (t < nt)%nat -> F l z t = c) ->
       forall i j, (i < nz')%nat -> (j < nt')%nat -> F' l i j = c).
Proof. exact rebin_claim. Qed.
Print Assumptions C28_rebin.
Theorem C28_factor_1 : forall g nL nz nt zE tE F, (0 < nz)%nat -> (0 < nt)%nat ->
  increasing nz zE -> increasing nt tE -> templates_on g nL nz nt zE tE F ->
  exists g', rebin_par_grid 1 1 g = Ok g' /\ templates_on g' nL nz nt zE tE F.
Proof. exact rebin_1_claim. Qed.
Print Assumptions C28_factor_1.
Theorem C28_factor_0 : forall kz g nL nz nt zE tE F, (0 < kz)%nat -> (0 < nz)%nat -> increasing nz zE -> templates_on g nL nz nt zE tE F ->
  rebin_par_grid 0 kz g = Err ValueError.
Proof. exact rebin_0_age_claim. Qed.
Print Assumptions C28_factor_0.

(** 2 metallicities, 3 ages, one wavelength *)
Definition exz (i : nat) : R := INR i.
Definition ext (i : nat) : R := nth i [0; 1; 3; 8] 0.
Definition exF (l z t : nat) : R := INR (z * 3 + t).
Definition ex_mg : mgrid :=
  MGrid 1 [5000]
    (arr1 [Fin 0; Fin 1; Fin 2] NaN) (arr1 [Fin 0; Fin 1; Fin 3; Fin 8] NaN)
    (arr1 [Fin 0.5; Fin 1.5] NaN) (arr1 [Fin 0.5; Fin 2; Fin 5.5] NaN) (2, 3)%nat (index_table 2 3) 6
    (arr1 [Fin 1; Fin 1] NaN) (arr1 [Fin 1; Fin 2; Fin 5] NaN)
    (Arr [1; 6]%nat (fun idx => match idx with [_; c] => Fin (INR c) | _ => NaN end))
    [1; 5] [] [1 / 3; 2 / 3 + 2 / 15] [].
Ltac vcase := split; [reflexivity|]; intros i Hi;
  destruct i as [|[|[|[|i]]]]; try lia; cbn; unfold mid, wid, exz, ext; cbn; f_equal; lra.
Lemma ex_mg_on : templates_on ex_mg 1 2 3 exz ext exF.
Proof.
  split; try vcase; try reflexivity.
Qed.
Lemma exz_inc : increasing 2 exz.
Proof. intros i _. unfold exz. rewrite S_INR. lra. Qed.
Lemma ext_inc : increasing 3 ext.
Proof. intros i Hi. unfold ext. destruct i as [|[|[|i]]]; cbn [nth]; try lra; lia. Qed.
Example C28_case : exists g' nz' nt' zE' tE' F', rebin_par_grid 2 2 ex_mg = Ok g' /\ templates_on g' 1 nz' nt' zE' tE' F' /\
  coarsens 2 2 exz nz' zE' /\ coarsens 2 3 ext nt' tE'.
Proof.
  destruct (C28_rebin 2 2 ex_mg 1 2 3 exz ext exF ltac:(lia) ltac:(lia) ltac:(lia) ltac:(lia) exz_inc ext_inc ex_mg_on)
    as (g' & nz' & nt' & zE' & tE' & F' & H1 & H2 & H3 & H4 & _). exists g', nz', nt', zE', tE', F'. auto.
Qed.

(** C29: light weights, for any template object (also one that was rebinned, by C28). *)
Theorem C29_light_weights : forall g nL nz nt zE tE F, templates_on g nL nz nt zE tE F ->
  exists lw, get_light_weights g = Ok lw /\ shp lw = [nt; nz] /\
    forall t z, (t < nt)%nat -> (z < nz)%nat -> ent lw [t; z] = Fin (Sum nL (fun l => F l z t)).
Proof. exact light_claim. Qed.
Print Assumptions C29_light_weights.
Example C29_case : exists lw, get_light_weights ex_mg = Ok lw /\ ent lw [2; 1]%nat = Fin 5.
Proof.
  destruct (C29_light_weights ex_mg 1 2 3 exz ext exF ex_mg_on) as (lw & E & _ & H). exists lw. split; [exact E|].
  rewrite H by lia. cbn. unfold exF. cbn. f_equal. lra.
Qed.

(** C30: with any metallicity rebinning but no age rebinning, template z*nt+t is returned with its
    own labels and spectrum. *)
Theorem C30_get_ssp : forall s nL nz nt zs ts X kz xw, (2 <= nz)%nat -> (2 <= nt)%nat -> (0 < nL)%nat -> (0 < kz)%nat ->
  (Z.of_nat nz * Z.of_nat nt <= 100000)%Z -> reads s nL nz nt zs ts X ->
  template_values nz zs -> template_values nt ts -> edges_below nz zs -> edges_below nt ts ->
  exists g nz' zE tE F, build s 1 kz = Ok g /\ templates_on g nL nz' nt zE tE F /\
    forall z t, (z < nz')%nat -> (t < nt)%nat ->
      exists sp, get_ssp g xw (z * nt + t) "wavelength" = Ok (Fin (mid tE t), Fin (mid zE z), sp) /\ vec sp nL (fun l => F l z t).
Proof. exact get_ssp_claim. Qed.
Print Assumptions C30_get_ssp.
(** refuted: after rebinning the ages, id nt' (a valid template) raises IndexError *)
Theorem C30_error_refuted : forall s nL nz nt zs ts X ka kz xw sp, (2 <= nz)%nat -> (2 <= nt)%nat -> (0 < nL)%nat ->
  (2 <= ka)%nat -> (0 < kz < nz)%nat ->
  (Z.of_nat nz * Z.of_nat nt <= 100000)%Z -> reads s nL nz nt zs ts X ->
  template_values nz zs -> template_values nt ts -> edges_below nz zs -> edges_below nt ts ->
  exists g nz' nt' zE tE F, build s ka kz = Ok g /\ templates_on g nL nz' nt' zE tE F /\
    (nt' < nz' * nt')%nat /\ get_ssp g xw nt' sp = Err IndexError.
Proof. exact get_ssp_error_claim. Qed.
Print Assumptions C30_error_refuted.
(** and id nt, if valid, is returned with the wrong age or metallicity *)
Theorem C30_label_refuted : forall s nL nz nt zs ts X ka kz xw, (2 <= nz)%nat -> (2 <= nt)%nat -> (0 < nL)%nat ->
  (2 <= ka)%nat -> (0 < kz < nz)%nat ->
  (Z.of_nat nz * Z.of_nat nt <= 100000)%Z -> reads s nL nz nt zs ts X ->
  template_values nz zs -> template_values nt ts -> edges_below nz zs -> edges_below nt ts ->
  exists g nz' nt' zE tE F, build s ka kz = Ok g /\ templates_on g nL nz' nt' zE tE F /\
    ((nt < nz' * nt')%nat -> exists z t sp, (z < nz')%nat /\ (t < nt')%nat /\ nt = (z * nt' + t)%nat /\
      get_ssp g xw nt "wavelength" = Ok (Fin (mid tE 0), Fin (mid zE 1), sp) /\ vec sp nL (fun l => F l z t) /\
      (z, t) <> (1, 0)%nat /\ (mid zE 1 <> mid zE z \/ mid tE 0 <> mid tE t)).
Proof. exact get_ssp_label_claim. Qed.
Print Assumptions C30_label_refuted.
Definition ex_rd : miles := Miles (Names [] [] [] [] [] [] []) None None 1 1 [-1; 0] [1; 2; 4] 2 3 [5000]
  (Some (Arr [1; 6]%nat (fun idx => match idx with [_; c] => Fin (INR c) | _ => NaN end))).
Example C30_case : reads ex_rd 1 2 3 (fun i => nth i [-1; 0] 0) (fun i => nth i [1; 2; 4] 0) exF /\
  template_values 2 (fun i => nth i [-1; 0] 0) /\ template_values 3 (fun i => nth i [1; 2; 4] 0) /\
  edges_below 2 (fun i => nth i [-1; 0] 0) /\ edges_below 3 (fun i => nth i [1; 2; 4] 0) /\
  (3 < merged 1 2 * merged 2 3)%nat.
Proof.
  split; [split; try (split; reflexivity); try reflexivity; eexists; split; [reflexivity|]; split; reflexivity|].
  split; [intros i Hi; destruct i as [|i]; [cbn; lra|lia]|].
  split; [intros i Hi; destruct i as [|[|i]]; [cbn; lra|cbn; lra|lia]|].
  split; [|split; [|cbn; lia]]; unfold edges_below, edges_of, clamp; cbn [Nat.eqb nth]; destruct (Rltb _ _) eqn:Q; try lra.
  apply Rltb_true in Q. rewrite Rabs_left in Q by lra. lra.
Qed.

(** C31: ticks after set_tick_positions. *)
Theorem C31_ticks : forall g nL nz nt zE tE F treq zreq, (0 < nz)%nat -> (0 < nt)%nat -> increasing nz zE -> increasing nt tE ->
  templates_on g nL nz nt zE tE F ->
  exists g', set_tick_positions g treq zreq = Ok g' /\ templates_on g' nL nz nt zE tE F /\
    kept (fun x => tE 0%nat < x < tE nt) (match treq with Some l => l | None => g_t_ticks g end) (g_t_ticks g') /\
    kept (fun x => zE 0%nat < x < zE nz) (match zreq with Some l => l | None => g_z_ticks g end) (g_z_ticks g') /\
    placed nt tE (g_t_ticks g') (g_img_t_ticks g') /\ placed nz zE (g_z_ticks g') (g_img_z_ticks g').
Proof. exact ticks_claim. Qed.
Print Assumptions C31_ticks.
(** refuted for a freshly rebinned object: its positions are those of the old bins *)
Theorem C31_rebinned_refuted : forall g nL nz nt zE tE F ka kz i, (0 < kz)%nat -> (nt <= ka)%nat -> (0 < nz)%nat -> (0 < nt)%nat ->
  increasing nz zE -> increasing nt tE -> templates_on g nL nz nt zE tE F ->
  placed nt tE (g_t_ticks g) (g_img_t_ticks g) -> (i < List.length (g_t_ticks g))%nat ->
  nth i (g_img_t_ticks g) 0 <> (nth i (g_t_ticks g) 0 - tE 0%nat) / (tE nt - tE 0%nat) ->
  exists g' zE' nz' tE' F', rebin_par_grid ka kz g = Ok g' /\ templates_on g' nL nz' 1 zE' tE' F' /\
    ~ placed 1 tE' (g_t_ticks g') (g_img_t_ticks g').
Proof. exact stale_ticks_claim. Qed.
Print Assumptions C31_rebinned_refuted.
Example C31_case : placed 3 ext (g_t_ticks ex_mg) (g_img_t_ticks ex_mg) /\
  nth 0 (g_img_t_ticks ex_mg) 0 <> (nth 0 (g_t_ticks ex_mg) 0 - ext 0) / (ext 3 - ext 0).
Proof.
  split; [|cbn; lra]. split; [reflexivity|]. cbn [g_t_ticks g_img_t_ticks ex_mg List.length].
  intros i Hi. destruct i as [|[|i]]; [| |lia]; cbn [nth].
  - split; [exists 1%nat; split; [lia|]; split; [unfold ext; cbn; lra|unfold ext; cbn; lra]|].
    split; [unfold ext; cbn; lra|]. split; [lra|]. intros j Hj. destruct j as [|[|j]]; [| |lia]; cbn [nth]; lra.
  - split; [exists 2%nat; split; [lia|]; split; [unfold ext; cbn; lra|unfold ext; cbn; lra]|].
    split; [unfold ext; cbn; lra|]. split; [lra|]. intros j Hj. destruct j as [|[|j]]; [| |lia]; cbn [nth]; lra.
Qed.

(** C71: from a directory of template files (with limits given, forming a full grid) to the SSP
    arrays of a cube: the constructor followed by the calls made by IFUCube yields arrays on
    increasing age and metallicity grids, and without rebinning the light weight of (t,z) is the
    sum, over the requested wavelengths, of the spectrum in the file of that age and metallicity,
    whose values lie in the bin. *)
Theorem C71_files_to_cube : forall d fs al zl lo hi K dv spline ka kz zs ts W (g0 : grid), holds d fs -> given al zl -> limited al zl fs K -> K <> [] -> full_grid K ->
  readable d K (List.length default_lmd) ->
  (forall f s, In f K -> fits_data d (file_name f) = Ok s -> finite s) ->
  ~ below_all lo default_lmd -> ~ above_all hi default_lmd ->
  distinct_sorted (map file_z K) zs -> distinct_sorted (map file_t K) ts -> kept (in_request lo hi) default_lmd W ->
  (2 <= List.length zs)%nat -> (2 <= List.length ts)%nat -> (4 <= List.length W)%nat ->
  (Z.of_nat (List.length zs) * Z.of_nat (List.length ts) <= 100000)%Z ->
  edges_below (List.length zs) (fun i => nth i zs 0) -> edges_below (List.length ts) (fun i => nth i ts 0) ->
  (0 < ka)%nat -> (0 < kz)%nat -> 0 < dv ->
  exists mg s nz' nt' zE' tE' L, miles_ssps d lo hi al zl ka kz = (d, Ok mg) /\ resample spline dv mg = Ok s /\
    ssps_on s (with_ssps g0 nz' nt' zE' tE' L) /\
    increasing nz' zE' /\ increasing nt' tE' /\
    (ka = 1%nat -> kz = 1%nat -> nz' = List.length zs /\ nt' = List.length ts /\
      forall f sp z t, In f K -> fits_data d (file_name f) = Ok (map Fin sp) -> (z < nz')%nat -> (t < nt')%nat ->
        file_z f = nth z zs 0 -> file_t f = nth t ts 0 ->
        zE' z < file_z f < zE' (S z) /\ tE' t < file_t f < tE' (S t) /\
        exists A, kept (fun r => in_request lo hi (fst r)) (combine default_lmd sp) A /\ L t z = sumR (map snd A)).
Proof. exact flow_claim. Qed.
Print Assumptions C71_files_to_cube.
Example C71_case (g0 : grid) : exists mg s nz' nt' zE' tE' L,
  miles_ssps (exdisk exfiles) None None (Some (0, 2)) None 1 1 = (exdisk exfiles, Ok mg) /\
  resample (fun _ _ _ => Fin 1) 10 mg = Ok s /\ ssps_on s (with_ssps g0 nz' nt' zE' tE' L).
Proof.
  assert (LL : (4 <= List.length default_lmd)%nat) by (pose proof default_lmd_length; lia).
  destruct (C71_files_to_cube (exdisk exfiles) exfiles (Some (0, 2)) None None None exfiles 10 (fun _ _ _ => Fin 1) 1 1
              [-0.25; 0.06] [0.03; 1] default_lmd g0) as (mg & s & nz' & nt' & zE' & tE' & L & E1 & E2 & E3 & _);
    [exact exholds|left; discriminate|exact exkept|discriminate|exact exfull|apply exreadable| | | | | |apply kept_self; intros; split; exact I
    |cbn; lia|cbn; lia|exact LL|cbn; lia| | |lia|lia|lra|].
  - intros f s _ E. cbn in E. injection E as <-. unfold finite, exspec. rewrite Forall_forall. intros v Hv. apply repeat_spec in Hv. exists 1. exact Hv.
  - intros (x & Q & _). discriminate.
  - intros (x & Q & _). discriminate.
  - split.
    + intros x. cbn [map exfiles In]. rewrite za, zb, zc, zd. intuition lra.
    + intros i j Hij Hj. cbn in Hj. assert (i = 0 /\ j = 1)%nat as [-> ->] by lia. cbn. lra.
  - split.
    + intros x. cbn [map exfiles In]. rewrite ta, tb, tc, td. intuition lra.
    + intros i j Hij Hj. cbn in Hj. assert (i = 0 /\ j = 1)%nat as [-> ->] by lia. cbn. lra.
  - unfold edges_below, edges_of, clamp. cbn [Nat.eqb nth List.length]. destruct (Rltb _ _) eqn:Q; [|lra].
    apply Rltb_true in Q. rewrite Rabs_left in Q by lra. lra.
  - unfold edges_below, edges_of, clamp. cbn [Nat.eqb nth List.length]. destruct (Rltb _ _); lra.
  - exists mg, s, nz', nt', zE', tE', L. auto.
Qed.
