(** * Claim C88: templates in other units of flux.

    [brighter k g]: the grid g with the light weights of all templates times k;
    [refluxed k mg]: the SSP object with all fluxes times k; [k_times k y y']:
    y' is k times y, entry by entry (FluxUnitsSpec.v). *)
From Coq Require Import Reals Lra Lia List Bool Arith ZArith String Ascii.
From Verif Require Import Num NumLemmas Arr ArrLemmas PyStr Cube Base Parametric Spec SpecLemmas Repr ParSpec ParRepr MomSpec Moments
  ParMoments GaussSpec ParMomSpec ParMomOther ParMomExample Build ParExample Mixture MixParSpec MixParLemmas MixParClaims MixParExample
  Fft ReadMiles Ssps DatacubeSpec Datacube DatacubeClaims DatacubeMain ParYbarSpec ParEval ParEvalLemmas Sharing SharingLemmas DatacubeExample Noise NoiseLemmas NoiseExample
  FluxUnitsSpec FluxUnits.
Import ListNotations.
Local Open Scope R_scope.
Local Open Scope string_scope.

(** ** base components *)
Theorem C88_marginals : forall k, 0 < k -> forall c c' g f, comp_on c g f -> comp_on c' (brighter k g) f -> good_grid g -> nonneg g f ->
  forall S (density lw : bool), nonempty S = true -> lw_ok g f lw ->
  exists a b, get_p c (name S) density lw = Ok a /\ get_p c' (name S) density lw = Ok b /\
    shp a = dims S g /\ shp b = dims S g /\ forall i, in_grid g i -> ent a (coords S i) = ent b (coords S i).
Proof. exact bright_marg. Qed.
Print Assumptions C88_marginals.
Theorem C88_conditionals : forall k, 0 < k -> forall c c' g f, comp_on c g f -> comp_on c' (brighter k g) f -> good_grid g -> nonneg g f ->
  forall A C (density lw : bool), nonempty A = true -> nonempty C = true -> disjoint A C = true -> lw_ok g f lw ->
  exists a b, get_p c (cname A C) density lw = Ok a /\ get_p c' (cname A C) density lw = Ok b /\
    shp a = (dims A g ++ dims C g)%list /\ shp b = (dims A g ++ dims C g)%list /\
    forall i, in_grid g i -> ent a (coords A i ++ coords C i) = ent b (coords A i ++ coords C i).
Proof. exact bright_cond. Qed.
Print Assumptions C88_conditionals.
Theorem C88_means : forall k, 0 < k -> forall c c' g f, comp_on c g f -> comp_on c' (brighter k g) f -> good_grid g -> nonneg g f ->
  forall q C lw, lw_ok g f lw -> disjoint (cvar q) C = true -> (nonempty C = false -> lw = false -> total g (mass g f) = 1) ->
  exists a b, get_mean (base_obj c) (dname (cvar q) C) lw = Ok a /\ get_mean (base_obj c') (dname (cvar q) C) lw = Ok b /\
    shp a = mdims q C g /\ shp b = mdims q C g /\ forall i, in_grid g i -> ent a (mcoords q C i) = ent b (mcoords q C i).
Proof. exact bright_mean. Qed.
Print Assumptions C88_means.
Theorem C88_central_moments : forall k, 0 < k -> forall c c' g f, comp_on c g f -> comp_on c' (brighter k g) f -> good_grid g -> nonneg g f ->
  forall q C lw, lw_ok g f lw -> disjoint (cvar q) C = true -> (nonempty C = false -> lw = false -> total g (mass g f) = 1) -> forall j,
  exists a b, get_central_moment (base_obj c) (dname (cvar q) C) j lw = Ok a /\ get_central_moment (base_obj c') (dname (cvar q) C) j lw = Ok b /\
    shp a = mdims q C g /\ shp b = mdims q C g /\ forall i, in_grid g i -> ent a (mcoords q C i) = ent b (mcoords q C i).
Proof. exact bright_central. Qed.
Print Assumptions C88_central_moments.
Definition exc3 : component := comp_of (brighter 3 exg) exf.
Lemma exc3_on : comp_on exc3 (brighter 3 exg) exf.
Proof. apply comp_of_on; [apply exg_uniform_x|apply exg_uniform_y]. Qed.
Example C88_case :
  (exists a b, get_p exc "t_x" false true = Ok a /\ get_p exc3 "t_x" false true = Ok b /\ ent a [1; 1; 0]%nat = ent b [1; 1; 0]%nat) /\
  (exists a b, get_central_moment (base_obj exc) "v_t" 2 true = Ok a /\ get_central_moment (base_obj exc3) "v_t" 2 true = Ok b /\
    ent a [0]%nat = ent b [0]%nat).
Proof.
  assert (H3 : 0 < 3) by lra. split.
  - destruct (C88_conditionals 3 H3 exc exc3 exg exf exc_on exc3_on exg_good exf_nonneg (VSet true false false false) (VSet false false true false)
      false true eq_refl eq_refl eq_refl (fun _ => ex_light)) as (a & b & Ea & Eb & _ & _ & He).
    exists a, b. do 2 (split; [assumption|]). apply (He (Bin 1 0 1 0 0)). repeat split; cbn; lia.
  - destruct (C88_central_moments 3 H3 exc exc3 exg exf exc_on exc3_on exg_good exf_nonneg Cv (VSet true false false false) true
      (fun _ => ex_light) eq_refl ltac:(discriminate) 2%nat) as (a & b & Ea & Eb & _ & _ & He).
    exists a, b. do 2 (split; [assumption|]). apply (He (Bin 0 0 0 0 0)). repeat split; cbn; lia.
Qed.

(** ** parametric components *)
Theorem C88_parametric_marginals : forall k, 0 < k -> forall L s s' g m, par_on L s g m -> par_on L s' (brighter k g) m -> good_grid g -> good_par g m ->
  forall S (density lw : bool), nonempty S = true -> par_lw_ok g m lw (has_v S) ->
  exists a b, par_get_p L s (name S) density lw = Ok a /\ par_get_p L s' (name S) density lw = Ok b /\
    shp a = dims S g /\ shp b = dims S g /\ forall i, in_grid g i -> ent a (coords S i) = ent b (coords S i).
Proof. exact bright_par_marg. Qed.
Print Assumptions C88_parametric_marginals.
Theorem C88_parametric_conditionals : forall k, 0 < k -> forall L s s' g m, par_on L s g m -> par_on L s' (brighter k g) m -> good_grid g -> good_par g m ->
  forall A C (density lw : bool), nonempty A = true -> nonempty C = true -> disjoint A C = true ->
  par_lw_ok g m lw (has_v (union A C)) -> par_lw_ok g m lw (has_v C) -> (lw = true -> cname A C <> "v_tx") ->
  exists a b, par_get_p L s (cname A C) density lw = Ok a /\ par_get_p L s' (cname A C) density lw = Ok b /\
    shp a = (dims A g ++ dims C g)%list /\ shp b = (dims A g ++ dims C g)%list /\
    forall i, in_grid g i -> 0 < par_prob g m lw C i \/ lw = true -> ent a (coords A i ++ coords C i) = ent b (coords A i ++ coords C i).
Proof. exact bright_par_cond. Qed.
Print Assumptions C88_parametric_conditionals.
Definition exmp3 : par := par_of (brighter 3 exg) exmod.
Lemma exmp3_on : par_on exL exmp3 (brighter 3 exg) exmod.
Proof. apply par_of_on; [apply exg_uniform_x|apply exg_uniform_y|reflexivity]. Qed.
Example C88_parametric_case : exists a b, par_get_p exL exmp "t_x" true true = Ok a /\ par_get_p exL exmp3 "t_x" true true = Ok b /\
  ent a [1; 1; 0]%nat = ent b [1; 1; 0]%nat.
Proof.
  destruct (C88_parametric_conditionals 3 ltac:(lra) exL exmp exmp3 exg exmod exmp_on exmp3_on exg_good exmod_good
    (VSet true false false false) (VSet false false true false) true true eq_refl eq_refl eq_refl (exmod_lw true) (exmod_lw true) ltac:(discriminate))
    as (a & b & Ea & Eb & _ & _ & He).
  exists a, b. do 2 (split; [assumption|]). apply (He (Bin 1 0 1 0 0)); [repeat split; cbn; lia|right; reflexivity].
Qed.

(** ** mixtures of base and parametric components *)
Theorem C88_mixture_marginals : forall k, 0 < k -> forall s s' g l, mixed_on s g l -> mixed_on s' (brighter k g) l -> good_grid g ->
  forall S (density lw : bool), nonempty S = true -> lit_ok g (kmix g l (has_v S)) lw ->
  exists a b, mix_get_p s (name S) true density lw = Ok a /\ mix_get_p s' (name S) true density lw = Ok b /\
    shp a = dims S g /\ shp b = dims S g /\ forall i, in_grid g i -> ent a (coords S i) = ent b (coords S i).
Proof. exact bright_mix_marg. Qed.
Print Assumptions C88_mixture_marginals.
Theorem C88_mixture_conditionals : forall k, 0 < k -> forall s s' g l, mixed_on s g l -> mixed_on s' (brighter k g) l -> good_grid g ->
  forall A C (density lw : bool), nonempty A = true -> nonempty C = true -> disjoint A C = true ->
  lit_ok g (kmix g l (has_v (union A C))) lw -> lit_ok g (kmix g l (has_v C)) lw ->
  exists a b, mix_get_p s (cname A C) true density lw = Ok a /\ mix_get_p s' (cname A C) true density lw = Ok b /\
    shp a = (dims A g ++ dims C g)%list /\ shp b = (dims A g ++ dims C g)%list /\
    forall i, in_grid g i -> ent a (coords A i ++ coords C i) = ent b (coords A i ++ coords C i).
Proof. exact bright_mix_cond. Qed.
Print Assumptions C88_mixture_conditionals.
Theorem C88_mixture_means : forall k, 0 < k -> forall s s' g l, mixed_on s g l -> mixed_on s' (brighter k g) l -> good_grid g ->
  forall lw C, (forall q, (q < List.length l)%nat -> lit_ok g (kmass g (kk l q) (has_v C)) lw) ->
  (lw = true -> has_v C = false) -> (nonempty C = false -> lw = false -> k_normal g l) ->
  forall q, disjoint (cvar q) C = true -> q <> Cv ->
  (forall p m, (p < List.length l)%nat -> kk l p = KPar m -> no_holes g m lw (cvar q) C) ->
  exists a b, mix_mean s (dname (cvar q) C) lw = Ok a /\ mix_mean s' (dname (cvar q) C) lw = Ok b /\
    shp a = mdims q C g /\ shp b = mdims q C g /\ forall i, in_grid g i -> ent a (mcoords q C i) = ent b (mcoords q C i).
Proof. exact bright_mix_mean. Qed.
Print Assumptions C88_mixture_means.
Theorem C88_mixture_central_moments : forall k, 0 < k -> forall s s' g l, mixed_on s g l -> mixed_on s' (brighter k g) l -> good_grid g ->
  forall lw C, (forall q, (q < List.length l)%nat -> lit_ok g (kmass g (kk l q) (has_v C)) lw) ->
  (lw = true -> has_v C = false) -> (nonempty C = false -> lw = false -> k_normal g l) ->
  forall q, disjoint (cvar q) C = true -> q <> Cv ->
  (forall p m, (p < List.length l)%nat -> kk l p = KPar m -> no_holes g m lw (cvar q) C) -> forall j,
  exists a b, mix_central_moment s (dname (cvar q) C) j lw = Ok a /\ mix_central_moment s' (dname (cvar q) C) j lw = Ok b /\
    shp a = mdims q C g /\ shp b = mdims q C g /\ forall i, in_grid g i -> ent a (mcoords q C i) = ent b (mcoords q C i).
Proof. exact bright_mix_central. Qed.
Print Assumptions C88_mixture_central_moments.
(** (where all members are present: elsewhere the entries are NaN, C72) *)
Theorem C88_mixture_velocity_means : forall k, 0 < k -> forall s s' g l, mixed_on s g l -> mixed_on s' (brighter k g) l -> good_grid g ->
  forall lw C, (forall q, (q < List.length l)%nat -> lit_ok g (kmass g (kk l q) (has_v C)) lw) ->
  (lw = true -> has_v C = false) -> (nonempty C = false -> lw = false -> k_normal g l) -> has_v C = false ->
  exists a b, mix_mean s (dname V_v C) lw = Ok a /\ mix_mean s' (dname V_v C) lw = Ok b /\ shp a = dims C g /\ shp b = dims C g /\
    forall i, in_grid g i -> all_there g l lw C i -> ent a (coords C i) = ent b (coords C i).
Proof. exact bright_mix_v_mean. Qed.
Print Assumptions C88_mixture_velocity_means.
Theorem C88_mixture_velocity_moments : forall k, 0 < k -> forall s s' g l, mixed_on s g l -> mixed_on s' (brighter k g) l -> good_grid g ->
  forall lw C, (forall q, (q < List.length l)%nat -> lit_ok g (kmass g (kk l q) (has_v C)) lw) ->
  (lw = true -> has_v C = false) -> (nonempty C = false -> lw = false -> k_normal g l) -> has_v C = false -> forall j,
  exists a b, mix_central_moment s (dname V_v C) j lw = Ok a /\ mix_central_moment s' (dname V_v C) j lw = Ok b /\ shp a = dims C g /\ shp b = dims C g /\
    forall i, in_grid g i -> all_there g l lw C i ->
    (forall q, (q < List.length l)%nat -> all_there g l lw C (centre_at (kk l q) C i)) -> ent a (coords C i) = ent b (coords C i).
Proof. exact bright_mix_v_central. Qed.
Print Assumptions C88_mixture_velocity_moments.
Definition exm23 : mixture := Mixture (Build.cube_of (brighter 3 exg)) [comp_member exc3; par_member exL (Fin 1) exmp3] [Fin (1 / 4); Fin (3 / 4)].
Lemma exm23_on : mixed_on exm23 (brighter 3 exg) exl2.
Proof.
  constructor; try reflexivity; [apply Build.cube_of_on; [apply exg_uniform_x|apply exg_uniform_y]|discriminate| |].
  - intros [|[|q]] Hq; [cbn; lra|cbn; lra|cbn in Hq; lia].
  - intros [|[|q]] mb E; cbn in E; [| |destruct q; discriminate E]; injection E as <-.
    + exists exc3. split; [reflexivity|]. split; [apply exc3_on|exact exf_nonneg].
    + exists exL, exmp3. split; [reflexivity|]. split; [apply exmp3_on|exact (good_par_bright 3 exg exmod exmod_good)].
Qed.
Lemma light_pos g P C i : 0 < total g (lit g P) -> 0 < marg g (lit g P) C i -> 0 < marg g (weighted g true P) C i.
Proof.
  intros HT H. replace (marg g (weighted g true P) C i) with (/ total g (lit g P) * marg g (lit g P) C i).
  - apply Rmult_lt_0_compat; [apply Rinv_0_lt_compat|]; assumption.
  - rewrite <- marg_scal. unfold marg, weighted, light. do 5 (apply over_ext_all; intros). unfold Rdiv. apply Rmult_comm.
Qed.
Example C88_mixture_case : exists a b, mix_central_moment exm2 "v_t" 3 true = Ok a /\ mix_central_moment exm23 "v_t" 3 true = Ok b /\
    ent a [0]%nat = ent b [0]%nat.
Proof.
  destruct (C88_mixture_velocity_moments 3 ltac:(lra) exm2 exm23 exg exl2 exm2_on exm23_on exg_good true (VSet true false false false)
    (fun q Hq => exl2_lit true q Hq) ltac:(reflexivity) ltac:(discriminate) eq_refl 3%nat) as (a & b & Ea & Eb & _ & _ & He).
  exists a, b. do 2 (split; [assumption|]). apply (He (Bin 0 0 0 0 0)); [repeat split; cbn; lia| |intros p Hp; cbn in Hp; destruct p as [|[|p]]; [| |lia]; cbn [exl2 kk nth fst centre_at]];
      intros q Hq; (apply light_pos; [exact (exl2_lit true q Hq eq_refl)|]); cbn in Hq; (destruct q as [|[|q]]; [| |lia]); kev; unfold mass, wid; cbn; lra.
Qed.

(** ** the templates *)
(** the same SSP grid with all fluxes times k gives templates times k, on the
    same wavelengths, and the brighter grid *)
Theorem C88_templates : forall k spline dv mg g nL F, finite_spline spline -> homogeneous spline -> ssp_object mg g nL F -> 0 < dv ->
  exists s s' S, resample spline dv mg = Ok s /\ resample spline dv (refluxed k mg) = Ok s' /\
    ssps_on s g /\ ssps_on s' (brighter k g) /\ n_fft s' = n_fft s /\
    templates s g (n_fft s) dv S /\ templates s' (brighter k g) (n_fft s) dv (fun t z w => k * S t z w).
Proof. exact refluxed_templates. Qed.
Print Assumptions C88_templates.
Lemma ex_spline_homogeneous : homogeneous ex_spline.
Proof. intros k knots [|x vals] w H; [change (Fin 0 = Fin (k * 0)); f_equal; ring|reflexivity]. Qed.
Example C88_templates_case : exists s s' S, resample ex_spline 1 ex_ssp = Ok s /\ resample ex_spline 1 (refluxed 7 ex_ssp) = Ok s' /\
  templates s exg1 (n_fft s) 1 S /\ templates s' (brighter 7 exg1) (n_fft s) 1 (fun t z w => 7 * S t z w).
Proof.
  destruct (C88_templates 7 ex_spline 1 ex_ssp exg1 _ _ ex_spline_finite ex_spline_homogeneous ex_ssp_object ltac:(lra))
    as (s & s' & S & E & E' & _ & _ & _ & H & H'). exists s, s', S. auto.
Qed.

(** ** datacubes *)
Theorem C88_datacube : forall W c c' g f n dv S v0 k batch batch', evaluable c g f n dv S v0 ->
  evaluable c' (brighter k g) f n dv (fun t z w => k * S t z w) v0 -> is_batch batch -> is_batch batch' ->
  exists y y', evaluate_ybar W c batch = Ok y /\ evaluate_ybar W c' batch' = Ok y' /\ k_times k y y'.
Proof. exact bright_ybar. Qed.
Print Assumptions C88_datacube.
Theorem C88_parametric_datacube : forall L s s' g m n dv S k batch batch', par_on L s g m -> par_on L s' (brighter k g) m -> 0 < k -> good_grid g -> good_par g m ->
  templates (c_ssps (pa_cube s)) g n dv S -> templates (c_ssps (pa_cube s')) (brighter k g) n dv (fun t z w => k * S t z w) ->
  dv <> 0 -> is_batch batch -> is_batch batch' ->
  exists y y', par_evaluate_ybar L s batch = Ok y /\ par_evaluate_ybar L s' batch' = Ok y' /\ k_times k y y'.
Proof. exact bright_par_ybar. Qed.
Print Assumptions C88_parametric_datacube.
(** K: member datacubes, the same times k, weights *)
Theorem C88_mixture_datacube : forall k n nx ny (K : list (arr num * arr num * R)), K <> [] ->
  (forall a, In a K -> k_times k (fst (fst a)) (snd (fst a)) /\ shp (fst (fst a)) = [n; nx; ny]) ->
  exists y y', mixture_ybar (map (fun a => Some (fst (fst a))) K) (map (fun a => Fin (snd a)) K) = Ok y /\
    mixture_ybar (map (fun a => Some (snd (fst a))) K) (map (fun a => Fin (snd a)) K) = Ok y' /\ k_times k y y'.
Proof. exact bright_mix_ybar. Qed.
Print Assumptions C88_mixture_datacube.
Definition excube7 (r : R) : arr num := Arr [2; 1; 1]%nat (fun idx => Fin (r * (1 + INR (nth 0 idx 0%nat)))).
Example C88_datacube_case :
  (exists y y' r, evaluate_ybar idW (comp_for (exv 2 6 2) exD 8 1 exS) "none" = Ok y /\
    evaluate_ybar idW (comp_for (brighter 7 (exv 2 6 2)) exD 8 1 (fun t z w => 7 * exS t z w)) "spaxel" = Ok y' /\
    ent y [1; 1; 0]%nat = Fin r /\ ent y' [1; 1; 0]%nat = Fin (7 * r)) /\
  (exists y y' r, mixture_ybar [Some (excube7 2); Some (excube7 5)] [Fin (1 / 4); Fin (3 / 4)] = Ok y /\
    mixture_ybar [Some (excube7 (7 * 2)); Some (excube7 (7 * 5))] [Fin (1 / 4); Fin (3 / 4)] = Ok y' /\
    ent y [1; 0; 0]%nat = Fin r /\ ent y' [1; 0; 0]%nat = Fin (7 * r)).
Proof.
  split.
  - assert (E : evaluable (comp_for (exv 2 6 2) exD 8 1 exS) (exv 2 6 2) exD 8 1 exS 3)
      by (apply exv_evaluable; try lia; apply exD_nonneg).
    assert (E' : evaluable (comp_for (brighter 7 (exv 2 6 2)) exD 8 1 (fun t z w => 7 * exS t z w)) (brighter 7 (exv 2 6 2)) exD 8 1 (fun t z w => 7 * exS t z w) 3).
    { constructor.
      - apply comp_for_on; [apply (exv_x 2 6 2)|apply (exv_y 2 6 2)].
      - apply brighter_good; [lra|apply exv_good; lia].
      - exact (exD_nonneg 2 6 2).
      - apply templates_for; cbn; lia.
      - exact (exv_velocity 2 6 2 (or_introl eq_refl)).
      - cbn. lia. }
    destruct (C88_datacube idW _ _ _ _ _ _ _ _ 7 "none" "spaxel" E E') as (y & y' & Ey & Ey' & Hs & He); [unfold is_batch; auto|unfold is_batch; auto|].
    destruct (evaluate_claim idW _ _ _ _ _ _ _ "none" E ltac:(unfold is_batch; auto)) as (y0 & Ey0 & Hy0). rewrite Ey in Ey0. injection Ey0 as <-.
    destruct (He [1; 1; 0]%nat) as (r & R1 & R2); [rewrite (proj1 Hy0); repeat (constructor; [cbn; lia|]); constructor|].
    exists y, y', r. auto.
  - destruct (C88_mixture_datacube 7 2 1 1 [(excube7 2, excube7 (7 * 2), 1 / 4); (excube7 5, excube7 (7 * 5), 3 / 4)]) as (y & y' & Ey & Ey' & Hs & He).
    + discriminate.
    + intros a [<-|[<-|[]]]; (split; [split; [reflexivity|]|reflexivity]); intros idx _; eexists; (split; [reflexivity|]); cbn [fst snd excube7 ent]; f_equal; ring.
    + destruct (mixture_ybar_claim 2 1 1 [(excube7 2, 1 / 4, fun w _ _ => 2 * (1 + INR w)); (excube7 5, 3 / 4, fun w _ _ => 5 * (1 + INR w))]) as (y0 & Ey0 & Hy0);
        [discriminate|repeat (constructor; [split; [reflexivity|intros; reflexivity]|]); constructor|].
      cbn [map fst snd] in Ey, Ey', Ey0. rewrite Ey in Ey0. injection Ey0 as <-.
      destruct (He [1; 0; 0]%nat) as (r & R1 & R2); [rewrite (proj1 Hy0); repeat (constructor; [lia|]); constructor|].
      exists y, y', r. auto.
Qed.
(** a parametric component on a cube with templates *)
Definition seen_par (g : grid) (S : spectra) : par :=
  Par (see (Build.cube_of g) (ssps_for g 2 1 S)) (scal NaN) (scal NaN) (ZGrid (scal NaN) (scal NaN)) None
    (pa_log_p_t (par_of g exmod)) (pa_log_p_x_t (par_of g exmod)) None (pa_log_p_z_tx (par_of g exmod)) (pa_mu_v (par_of g exmod)) (pa_sig_v (par_of g exmod)) None.
Lemma seen_par_on g S : uniform (nx g) (xE g) -> uniform (ny g) (yE g) -> par_on exL (seen_par g S) g exmod.
Proof.
  intros Hx Hy. constructor; [|reflexivity|..]; [|eexists; split; try reflexivity; split; reflexivity ..].
  destruct (Build.cube_of_on g Hx Hy) as [D1 D2 D3 D4 D5 D6 D7 D8 D9 D10 D11]. constructor; try assumption.
  destruct D1 as [E1 E2 E3 E4 E5 E6 E7 E8 E9]. constructor; assumption.
Qed.
Example C88_parametric_datacube_case : exists y y' r, par_evaluate_ybar exL (seen_par exg exS) "none" = Ok y /\
  par_evaluate_ybar exL (seen_par (brighter 7 exg) (fun t z w => 7 * exS t z w)) "column" = Ok y' /\
  ent y [1; 1; 0]%nat = Fin r /\ ent y' [1; 1; 0]%nat = Fin (7 * r).
Proof.
  assert (Ha : par_on exL (seen_par exg exS) exg exmod) by (apply seen_par_on; [apply exg_uniform_x|apply exg_uniform_y]).
  assert (HT : templates (c_ssps (pa_cube (seen_par exg exS))) exg 2 1 exS) by (apply templates_for; cbn; lia).
  destruct (C88_parametric_datacube exL (seen_par exg exS) (seen_par (brighter 7 exg) (fun t z w => 7 * exS t z w)) exg exmod 2 1 exS 7 "none" "column")
    as (y & y' & Ey & Ey' & Hs & He).
  - exact Ha.
  - apply seen_par_on; [apply exg_uniform_x|apply exg_uniform_y].
  - lra.
  - exact exg_good.
  - exact exmod_good.
  - exact HT.
  - apply templates_for; cbn; lia.
  - lra.
  - unfold is_batch; auto.
  - unfold is_batch; auto.
  - destruct (component_datacube exL _ exg exmod Ha exg_good exmod_good 2 1 exS HT "none" ltac:(lra) ltac:(unfold is_batch; auto)) as (y0 & Ey0 & Hy0).
    rewrite Ey in Ey0. injection Ey0 as <-.
    destruct (He [1; 1; 0]%nat) as (r & R1 & R2); [rewrite (proj1 Hy0); repeat (constructor; [cbn; lia|]); constructor|]. exists y, y', r. auto.
Qed.

(** ** noise: the sigma and, at the same draws, the noisy data are times k *)
Theorem C88_constant_noise : forall k y y' f snr z, 0 < k -> is_data y f -> k_times k y y' -> 0 < snr -> (forall idx, inb idx (shp y) -> 0 <= f idx) ->
  (exists a b, constant_snr_sigma (Some y) (Fin snr) = Ok a /\ constant_snr_sigma (Some y') (Fin snr) = Ok b /\ k_times k a b) /\
  (exists a b, get_noisy_data constant_snr_sigma (Some y) (Fin snr) z = Ok a /\ get_noisy_data constant_snr_sigma (Some y') (Fin snr) z = Ok b /\ k_times k a b).
Proof. exact bright_constant. Qed.
Print Assumptions C88_constant_noise.
Theorem C88_shot_noise : forall k y y' f snr M z, 0 < k -> is_data y f -> k_times k y y' -> 0 < snr -> (forall idx, inb idx (shp y) -> 0 <= f idx) ->
  brightest y f M -> 0 < M ->
  (exists a b, shot_noise_sigma (Some y) (Fin snr) = Ok a /\ shot_noise_sigma (Some y') (Fin snr) = Ok b /\ k_times k a b) /\
  (exists a b, get_noisy_data shot_noise_sigma (Some y) (Fin snr) z = Ok a /\ get_noisy_data shot_noise_sigma (Some y') (Fin snr) z = Ok b /\ k_times k a b).
Proof. exact bright_shot. Qed.
Print Assumptions C88_shot_noise.
Example C88_noise_case : exists a b r, get_noisy_data shot_noise_sigma (Some exy) (Fin 10) (fun _ => 2) = Ok a /\
  get_noisy_data shot_noise_sigma (Some (Arr [3]%nat (fun idx => Fin (5 * exyf idx)))) (Fin 10) (fun _ => 2) = Ok b /\
  ent a [1]%nat = Fin r /\ ent b [1]%nat = Fin (5 * r).
Proof.
  destruct (C88_shot_noise 5 exy (Arr [3]%nat (fun idx => Fin (5 * exyf idx))) exyf 10 9 (fun _ => 2)) as [_ (a & b & Ea & Eb & Hs & He)].
  - lra.
  - exact exy_data.
  - split; [reflexivity|]. intros idx _. eexists. split; reflexivity.
  - lra.
  - exact exy_pos.
  - exact exy_bright.
  - lra.
  - destruct (noisy_shot_claim exy exyf 10 9 (fun _ => 2) exy_data ltac:(lra) exy_pos exy_bright ltac:(lra)) as (a' & Ea' & Sa & _).
    rewrite Ea in Ea'. injection Ea' as <-. destruct (He [1]%nat) as (r & R1 & R2); [rewrite Sa; exact ex_in1|]. exists a, b, r. auto.
Qed.
