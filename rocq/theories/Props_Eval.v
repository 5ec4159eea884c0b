(** * Props_Eval: datacubes of set-up components, their light, and when ybar is
    evaluated (claims C76 to C78). *)
From Coq Require Import Reals Lra Lia List Bool Arith ZArith String Ascii.
From Verif Require Import Num NumLemmas Arr ArrLemmas PyStr Cube Base Parametric GrowingDisk Stream Spec SpecLemmas Repr Build
  CubeLemmas CubeGeom ParSpec ParRepr ParSetSpec ParSetLemmas ParBuild ParClaims ParExample
  Fft ReadMiles Ssps Datacube FourierSpec DatacubeSpec DatacubeMain DatacubeClaims ParYbar ParYbarSpec Sharing SharingLemmas DatacubeExample
  Life LifeSpec LifeShape LifeLemmas LifeClaims LifeExample ParEval EvalSpec ParEvalLemmas FluxClaims FluxResample ParEvalClaims EvalExample.
Import ListNotations.
Local Open Scope R_scope.

(** ** C76 *)
(** evaluate_ybar of a parametric component whose stored arrays represent m *)
Theorem C76_component : forall L self g m, par_on L self g m -> good_grid g -> good_par g m ->
  forall n dv S, templates (c_ssps (pa_cube self)) g n dv S -> forall batch, dv <> 0 -> is_batch batch ->
  exists y, par_evaluate_ybar L self batch = Ok y /\
    is_cube y n (nx g) (ny g) (par_datacube g (txz_mass g m) (pm_mu m) (pm_sig m) n dv S).
Proof. exact component_datacube. Qed.
Print Assumptions C76_component.
Example C76_component_case : exists self m y, build_disk exL (exseen exlit) (1, 1 / 2) 0 exsfh exdisk = Ok self /\ par_on exL self exg m /\
  par_evaluate_ybar exL self "column" = Ok y /\
  ent y [1; 0; 0]%nat = Fin (par_datacube exg (txz_mass exg m) (pm_mu m) (pm_sig m) 2 1 exlit 1 0 0).
Proof.
  destruct (exbuilt exlit) as (self & m & E & H & Hm & HT & _).
  destruct (C76_component exL self exg m H exg_good Hm 2 1 exlit HT "column" ltac:(lra) (or_intror (or_introl eq_refl))) as (y & Ey & Hy).
  exists self, m, y. repeat (split; [assumption|]). apply Hy; cbn; lia.
Qed.

(** built by the setters, as a user would *)
Theorem C76_growing_disk : forall L c g X0 Y0 x0 y0 rot f,
  cube_on c g -> good_grid g -> cube_xy c g X0 Y0 -> sfh_ok L f -> good_norm (norm_cdf L) ->
  forall n dv S, templates (c_ssps c) g n dv S -> dv <> 0 -> forall d batch, disk_ok d -> is_batch batch ->
  (exists x y, (x < nx g)%nat /\ (y < ny g)%nat /\ cos rot * (X0 x y - x0) <> sin rot * (Y0 x y - y0)) ->
  exists self m y, build_disk L c (x0, y0) rot f d = Ok self /\ par_on L self g m /\ good_par g m /\
    par_evaluate_ybar L self batch = Ok y /\ is_cube y n (nx g) (ny g) (par_datacube g (txz_mass g m) (pm_mu m) (pm_sig m) n dv S).
Proof. exact disk_datacube. Qed.
Print Assumptions C76_growing_disk.
Theorem C76_stream : forall L c g X0 Y0 x0 y0 rot f,
  cube_on c g -> good_grid g -> cube_xy c g X0 Y0 -> sfh_ok L f -> good_norm (norm_cdf L) ->
  forall n dv S, templates (c_ssps c) g n dv S -> dv <> 0 -> forall d batch, stream_ok d -> is_batch batch ->
  exists self m y, build_stream L c (x0, y0) rot f d = Ok self /\ par_on L self g m /\ good_par g m /\
    par_evaluate_ybar L self batch = Ok y /\ is_cube y n (nx g) (ny g) (par_datacube g (txz_mass g m) (pm_mu m) (pm_sig m) n dv S).
Proof. exact stream_datacube. Qed.
Print Assumptions C76_stream.
Example C76_built_case : exists self m y, build_stream exL (exseen exlit) (1, 1 / 2) 0 exsfh exstream = Ok self /\ par_on exL self exg m /\ good_par exg m /\
  par_evaluate_ybar exL self "spaxel" = Ok y /\
  is_cube y 2 2 1 (par_datacube exg (txz_mass exg m) (pm_mu m) (pm_sig m) 2 1 exlit).
Proof.
  apply (C76_stream exL (exseen exlit) exg exX exY 1 (1 / 2) 0 exsfh (exseen_on exlit) exg_good (exseen_xy exlit) exsfh_ok exL_norm
    2 1 exlit (exseen_templates exlit) ltac:(lra) exstream "spaxel" exstream_ok). right. right. reflexivity.
Qed.

(** after any history of setter calls, valid or not *)
Theorem C76_disk_ready : forall L s0 g, new_component s0 g -> forall n dv S, templates (c_ssps (pa_cube s0)) g n dv S ->
  forall h batch, let self := disk_after L s0 h in let done := disk_done (disk_history h) in
  (all_done needs_dist done = false -> par_evaluate_ybar L self batch = Err AttributeError) /\
  (all_done needs_dist done = true -> ~ is_batch batch -> par_evaluate_ybar L self batch = Err ValueError) /\
  (is_batch batch -> all_done needs_all done = false -> par_evaluate_ybar L self batch = Err AttributeError) /\
  (is_batch batch -> all_done needs_all done = true -> exists y, par_evaluate_ybar L self batch = Ok y /\ shp y = [n; nx g; ny g]).
Proof. exact (fun L s0 g N => disk_ready L s0 g (new_fresh s0 g N)). Qed.
Print Assumptions C76_disk_ready.
Theorem C76_stream_ready : forall L s0 g, new_component s0 g -> forall n dv S, templates (c_ssps (pa_cube s0)) g n dv S ->
  forall h batch, let self := stream_after L s0 h in let done := stream_done (stream_history h) in
  (all_done needs_dist done = false -> par_evaluate_ybar L self batch = Err AttributeError) /\
  (all_done needs_dist done = true -> ~ is_batch batch -> par_evaluate_ybar L self batch = Err ValueError) /\
  (is_batch batch -> all_done needs_all done = false -> par_evaluate_ybar L self batch = Err AttributeError) /\
  (is_batch batch -> all_done needs_all done = true -> exists y, par_evaluate_ybar L self batch = Ok y /\ shp y = [n; nx g; ny g]).
Proof. exact (fun L s0 g N => stream_ready L s0 g (new_fresh s0 g N)). Qed.
Print Assumptions C76_stream_ready.
Example C76_ready_case : exists s0, new_component s0 exg /\ pa_cube s0 = exseen exlit /\
  par_evaluate_ybar exL (disk_after exL s0 [ex_early; ex_mu]) "none" = Err AttributeError.
Proof.
  destruct (exnew_seen exlit) as (s0 & Hn & Ec). exists s0. split; [exact Hn|]. split; [exact Ec|].
  assert (HT : templates (c_ssps (pa_cube s0)) exg 2 1 exlit) by (rewrite Ec; apply exseen_templates).
  destruct (C76_disk_ready exL s0 exg Hn 2 1 exlit HT [ex_early; ex_mu] "none") as (H & _). apply H. rewrite ex_two_calls. reflexivity.
Qed.

(** mixtures of parametric components, and the flux of their pixels *)
Theorem C76_mixture : forall L g n dv S batch (K : list (par * R * par_model)), K <> [] -> good_grid g -> dv <> 0 -> is_batch batch ->
  Forall (fun k => par_on L (fst (fst k)) g (snd k) /\ good_par g (snd k) /\ templates (c_ssps (pa_cube (fst (fst k)))) g n dv S) K ->
  let total w i j := sumR (map (fun k => snd (fst k) * par_datacube g (txz_mass g (snd k)) (pm_mu (snd k)) (pm_sig (snd k)) n dv S w i j) K) in
  exists ys y, map_res (fun k => par_evaluate_ybar L (fst (fst k)) batch) K = Ok ys /\
    mixture_ybar (map Some ys) (map (fun k => Fin (snd (fst k))) K) = Ok y /\ is_cube y n (nx g) (ny g) total /\
    forall i j, pixel_flux n total i j =
      sumR (map (fun k => snd (fst k) * Sum (nt g) (fun t => Sum (nz g) (fun z => txz_mass g (snd k) t i j z * Sum n (S t z)))) K).
Proof. exact par_mixture. Qed.
Print Assumptions C76_mixture.
Example C76_mixture_case : exists (p q : par) (m m' : par_model) ys y,
  build_disk exL (exseen exlit) (1, 1 / 2) 0 exsfh exdisk = Ok p /\ build_stream exL (exseen exlit) (1, 1 / 2) 0 exsfh exstream = Ok q /\
  map_res (fun k : par * R * par_model => par_evaluate_ybar exL (fst (fst k)) "none") [(p, 0.25, m); (q, 0.75, m')] = Ok ys /\
  mixture_ybar (map Some ys) [Fin 0.25; Fin 0.75] = Ok y /\ shp y = [2; 2; 1]%nat.
Proof.
  destruct (exbuilt exlit) as (p & m & E & H & Hm & HT & _).
  destruct (stream_built exL (exseen exlit) exg exX exY (1, 1 / 2) 0 exsfh (exseen_on exlit) exg_good (exseen_xy exlit) exsfh_ok exL_norm exstream exstream_ok)
    as (q & E' & Ec & _ & _ & H' & Hm').
  match type of H' with par_on _ _ _ ?m' => set (m2 := m') in * end. exists p, q, m, m2.
  destruct (C76_mixture exL exg 2 1 exlit "none" [(p, 0.25, m); (q, 0.75, m2)]) as (ys & y & E1 & E2 & [E3 _] & _).
  - discriminate.
  - exact exg_good.
  - lra.
  - left; reflexivity.
  - constructor; [cbn [fst snd]; auto|]. constructor; [cbn [fst snd]; split; [exact H'|split; [exact Hm'|rewrite Ec; apply exseen_templates]]|constructor].
  - exists ys, y. split; [exact E|]. split; [exact E'|]. split; [exact E1|]. split; [exact E2|exact E3].
Qed.

(** total flux when the flux of the templates depends on age only: the expectation
    over the ages, which is 1 when all templates have flux 1 *)
Theorem C76_total_flux : forall g m, good_par g m -> forall n dv S, (0 < n)%nat ->
  forall A, (forall t z, (t < nt g)%nat -> (z < nz g)%nat -> Sum n (S t z) = A t) ->
  all_flux n (nx g) (ny g) (par_datacube g (txz_mass g m) (pm_mu m) (pm_sig m) n dv S) = Sum (nt g) (fun t => pm_t m t * wid (tE g) t * A t).
Proof. exact by_age_flux. Qed.
Print Assumptions C76_total_flux.
Example C76_total_flux_case : exists self m, build_disk exL (exseen exage) (1, 1 / 2) 0 exsfh exdisk = Ok self /\ par_on exL self exg m /\
  all_flux 2 2 1 (par_datacube exg (txz_mass exg m) (pm_mu m) (pm_sig m) 2 1 exage) =
  pm_t m 0%nat * wid (tE exg) 0 * 1 + pm_t m 1%nat * wid (tE exg) 1 * 2.
Proof.
  destruct (exbuilt exage) as (self & m & E & H & Hm & _). exists self, m. split; [exact E|]. split; [exact H|].
  etransitivity; [apply (C76_total_flux exg m Hm 2 1 exage ltac:(lia) (fun t => INR t + 1))|].
  - intros t z _ Hz. cbn in Hz. destruct z as [|[|z]]; [| |lia]; cbn; ring.
  - cbn. ring.
Qed.

(** ** C77 *)
(** if the flux of every template is k times its light weight *)
Theorem C77_parametric : forall L self g m, par_on L self g m -> good_grid g -> good_par g m ->
  forall n dv S, templates (c_ssps (pa_cube self)) g n dv S -> dv <> 0 ->
  let y := par_datacube g (txz_mass g m) (pm_mu m) (pm_sig m) n dv S in
  forall k batch, (forall t z, (t < nt g)%nat -> (z < nz g)%nat -> Sum n (S t z) = k * Lw g t z) ->
  is_batch batch -> par_lw_ok g m true false ->
  exists ya a, par_evaluate_ybar L self batch = Ok ya /\ par_get_p L self "x" false true = Ok a /\
    is_cube ya n (nx g) (ny g) y /\ shp a = [nx g; ny g] /\
    forall i j, (i < nx g)%nat -> (j < ny g)%nat -> exists p, ent a [i; j] = Fin p /\ pixel_flux n y i j = p * all_flux n (nx g) (ny g) y.
Proof. exact par_light_flux. Qed.
Print Assumptions C77_parametric.
Example C77_parametric_case : exists self m ya a p, build_disk exL (exseen exlit) (1, 1 / 2) 0 exsfh exdisk = Ok self /\
  par_evaluate_ybar exL self "none" = Ok ya /\ par_get_p exL self "x" false true = Ok a /\ ent a [1; 0]%nat = Fin p /\
  let y := par_datacube exg (txz_mass exg m) (pm_mu m) (pm_sig m) 2 1 exlit in
  is_cube ya 2 2 1 y /\ pixel_flux 2 y 1 0 = p * all_flux 2 2 1 y.
Proof.
  destruct (exbuilt exlit) as (self & m & E & H & Hm & HT & Hl).
  destruct (C77_parametric exL self exg m H exg_good Hm 2 1 exlit HT ltac:(lra) 3 "none") as (ya & a & E1 & E2 & Hy & _ & HV).
  - intros t z _ _. unfold exlit. cbn. ring.
  - left; reflexivity.
  - exact Hl.
  - destruct (HV 1%nat 0%nat) as (p & Ep & Hp); [cbn; lia|cbn; lia|]. exists self, m, ya, a, p. cbv zeta. repeat (split; [assumption|]). exact Hp.
Qed.
(** components holding a joint density; widths of velocity bins exact and the
    interpolation keeping frequency 0 *)
Theorem C77_base : forall W self g f n dv S v0, evaluable self g f n dv S v0 -> (forall v, (v < nv g)%nat -> wid (vE g) v = dv) ->
  (forall q, (q < nv g / 2 + 1)%nat -> W (nv g / 2 + 1)%nat (n / 2 + 1)%nat 0%nat q = if Nat.eqb 0 q then 1 else 0) ->
  let y := datacube W g f n dv v0 S in
  forall k batch, (forall t z, (t < nt g)%nat -> (z < nz g)%nat -> Sum n (S t z) = k * Lw g t z) ->
  is_batch batch -> 0 < total g (lit g (mass g f)) ->
  exists ya a, evaluate_ybar W self batch = Ok ya /\ get_p self "x" false true = Ok a /\
    is_cube ya n (nx g) (ny g) y /\ shp a = [nx g; ny g] /\
    forall i j, (i < nx g)%nat -> (j < ny g)%nat -> exists p, ent a [i; j] = Fin p /\ pixel_flux n y i j = p * all_flux n (nx g) (ny g) y.
Proof. exact base_light_flux. Qed.
Print Assumptions C77_base.
Example C77_base_case : exists ya a p, evaluate_ybar idW (comp_for (exv 2 7 2) exD 8 1 exlit) "none" = Ok ya /\
  get_p (comp_for (exv 2 7 2) exD 8 1 exlit) "x" false true = Ok a /\ ent a [1; 0]%nat = Fin p /\
  pixel_flux 8 (datacube idW (exv 2 7 2) exD 8 1 3 exlit) 1 0 = p * all_flux 8 2 1 (datacube idW (exv 2 7 2) exD 8 1 3 exlit).
Proof.
  destruct (C77_base idW (comp_for (exv 2 7 2) exD 8 1 exlit) (exv 2 7 2) exD 8 1 exlit 3) with (k := 36) (batch := "none"%string) as (ya & a & E1 & E2 & _ & _ & HV).
  - apply exv_evaluable; try lia. apply exD_nonneg.
  - intros v _. unfold wid. cbn [exv vE]. rewrite (S_INR v). ring.
  - intros q Hq. reflexivity.
  - intros t z _ _. unfold exlit. cbn. ring.
  - left; reflexivity.
  - apply exv_light.
  - destruct (HV 1%nat 0%nat) as (p & Ep & Hp); [cbn; lia|cbn; lia|]. exists ya, a, p. repeat (split; [assumption|]). exact Hp.
Qed.
(** without proportional templates it fails: if two templates differ in the ratio
    of flux to light weight then some component has pixels whose flux is not
    distributed like the light-weighted p(x) *)
Theorem C77_refuted : forall W g n dv S v0 t1 z1 t2 z2,
  good_grid g -> (2 <= nx g)%nat -> (v0 < nv g)%nat -> (forall v, (v < nv g)%nat -> wid (vE g) v = dv) ->
  (forall q, (q < nv g / 2 + 1)%nat -> W (nv g / 2 + 1)%nat (n / 2 + 1)%nat 0%nat q = if Nat.eqb 0 q then 1 else 0) ->
  (t1 < nt g)%nat -> (z1 < nz g)%nat -> (t2 < nt g)%nat -> (z2 < nz g)%nat -> 0 < Lw g t1 z1 -> 0 < Lw g t2 z2 ->
  Sum n (S t1 z1) * Lw g t2 z2 <> Sum n (S t2 z2) * Lw g t1 z1 ->
  exists f, nonneg g f /\ forall self batch, evaluable self g f n dv S v0 -> is_batch batch ->
    exists ya a p, evaluate_ybar W self batch = Ok ya /\ get_p self "x" false true = Ok a /\
      is_cube ya n (nx g) (ny g) (datacube W g f n dv v0 S) /\ ent a [0; 0]%nat = Fin p /\
      pixel_flux n (datacube W g f n dv v0 S) 0 0 <> p * all_flux n (nx g) (ny g) (datacube W g f n dv v0 S).
Proof. exact light_flux_refuted. Qed.
Print Assumptions C77_refuted.
Example C77_refuted_case : exists f ya a p, evaluate_ybar idW (comp_for (exv 2 7 2) f 8 1 exS) "none" = Ok ya /\
  get_p (comp_for (exv 2 7 2) f 8 1 exS) "x" false true = Ok a /\ ent a [0; 0]%nat = Fin p /\
  pixel_flux 8 (datacube idW (exv 2 7 2) f 8 1 3 exS) 0 0 <> p * all_flux 8 2 1 (datacube idW (exv 2 7 2) f 8 1 3 exS).
Proof.
  destruct (C77_refuted idW (exv 2 7 2) 8 1 exS 3 0 0 1 1) as (f & Hf & H); try (cbn [exv nt nv nx nz]; lia).
  - apply exv_good; lia.
  - intros v _. unfold wid. cbn [exv vE]. rewrite (S_INR v). ring.
  - intros q Hq. reflexivity.
  - cbn. lra.
  - cbn. lra.
  - unfold exS. cbn. lra.
  - destruct (H (comp_for (exv 2 7 2) f 8 1 exS) "none"%string) as (ya & a & p & E1 & E2 & _ & E3 & E4).
    + apply exv_evaluable; try lia. exact Hf.
    + left; reflexivity.
    + exists f, ya, a, p. repeat (split; [assumption|]). exact E4.
Qed.
(** resampled templates are not proportional to the light weights, which are sums
    over the wavelengths before resampling: whatever the velocity step and the
    spline there are templates and no such k *)
Theorem C77_resampled_refuted : forall dv spline, 0 < dv -> finite_spline spline -> through_knots spline ->
  exists mg g nL F s S, ssp_object mg g nL F /\ resample spline dv mg = Ok s /\ ssps_on s g /\ templates s g (n_fft s) dv S /\
    ~ exists k, forall t z, (t < nt g)%nat -> (z < nz g)%nat -> Sum (n_fft s) (S t z) = k * Lw g t z.
Proof. exact resampled_light_refuted. Qed.
Print Assumptions C77_resampled_refuted.
Example C77_resampled_case : exists s S, resample lookup_spline 10 (log4 10) = Ok s /\ ssp_object (log4 10) log4_grid 4 log4_flux /\
  templates s log4_grid (n_fft s) 10 S /\
  ~ exists k, forall t z, (t < 2)%nat -> (z < 1)%nat -> Sum (n_fft s) (S t z) = k * Lw log4_grid t z.
Proof.
  assert (P : 0 < 10) by lra.
  destruct (resample_templates lookup_spline 10 (log4 10) log4_grid 4 log4_flux lookup_finite (log4_object 10 P) P) as (s & S & E & _ & HT).
  exists s, S. split; [exact E|]. split; [exact (log4_object 10 P)|]. split; [exact HT|].
  exact (proj2 (log4_not_proportional 10 P lookup_spline s S lookup_through E HT)).
Qed.

(** ** C78 *)
(** [set] is disk_step L or stream_step L *)
Theorem C78_parameters : forall C L (set : par -> C -> par * res unit) s0 h,
  ob_par (observe_all L set s0 h) = fold_left (fun s c => fst (set s c)) (setters h) s0.
Proof. exact @observed_par. Qed.
Print Assumptions C78_parameters.
Theorem C78_answers : forall C L (set : par -> C -> par * res unit) s0 h k,
  snd (observe L set (observe_all L set s0 h) k) =
  match k with
  | CSet c => snd (set (fold_left (fun s c => fst (set s c)) (setters h) s0) c)
  | CEval b => match par_evaluate_ybar L (fold_left (fun s c => fst (set s c)) (setters h) s0) b with Ok _ => Ok tt | Err e => Err e end
  end.
Proof. exact @observed_says. Qed.
Print Assumptions C78_answers.
(** there is no ybar exactly when no evaluation has succeeded *)
Theorem C78_never : forall C L (set : par -> C -> par * res unit) s0 h,
  ob_ybar (observe_all L set s0 h) = None <->
  forall h3 b h4, h = h3 ++ CEval b :: h4 -> exists e, par_evaluate_ybar L (fold_left (fun s c => fst (set s c)) (setters h3) s0) b = Err e.
Proof. exact @observed_none. Qed.
Print Assumptions C78_never.
(** ybar is the datacube of the parameters set before the last successful evaluation *)
Theorem C78_last : forall C L (set : par -> C -> par * res unit) s0 h y,
  ob_ybar (observe_all L set s0 h) = Some y <->
  exists h1 b h2, h = h1 ++ CEval b :: h2 /\ par_evaluate_ybar L (fold_left (fun s c => fst (set s c)) (setters h1) s0) b = Ok y /\
    forall h3 b' h4, h2 = h3 ++ CEval b' :: h4 ->
      exists e, par_evaluate_ybar L (fold_left (fun s c => fst (set s c)) (setters ((h1 ++ [CEval b]) ++ h3)) s0) b' = Err e.
Proof. exact @observed_some. Qed.
Print Assumptions C78_last.
Example C78_history_case : exists s0, new_component s0 exg /\ pa_cube s0 = exseen exlit /\
  forall b b', ob_ybar (observe_all exL (disk_step exL) s0 [CEval b; CSet ex_early; CSet ex_mu; CEval b']) = None.
Proof.
  destruct (exnew_seen exlit) as (s0 & Hn & Ec). exists s0. split; [exact Hn|]. split; [exact Ec|]. intros b b'.
  assert (HT : templates (c_ssps (pa_cube s0)) exg 2 1 exlit) by (rewrite Ec; apply exseen_templates).
  apply C78_never. intros h3 b0 h4 E. exists AttributeError.
  destruct h3 as [|x3 [|x4 [|x5 [|x6 h3]]]]; try discriminate E.
  - exact (proj1 (C76_disk_ready exL s0 exg Hn 2 1 exlit HT [] b0) eq_refl).
  - injection E as <- <- <- <- _. destruct (C76_disk_ready exL s0 exg Hn 2 1 exlit HT [ex_early; ex_mu] b') as (H & _). apply H. rewrite ex_two_calls. reflexivity.
  - injection E as _ _ _ _ E. destruct h3; discriminate E.
Qed.
(** and so not of the current ones: setting another star formation history leaves
    the old datacube, whenever the expected template flux changes *)
Theorem C78_stale_refuted : forall L self g m n dv S A f b b', par_on L self g m -> good_grid g -> good_par g m ->
  templates (c_ssps (pa_cube self)) g n dv S -> dv <> 0 -> (forall t z, (t < nt g)%nat -> (z < nz g)%nat -> Sum n (S t z) = A t) ->
  sfh_ok L f -> is_batch b -> is_batch b' ->
  Sum (nt g) (fun t => pm_t m t * wid (tE g) t * A t) <> Sum (nt g) (fun t => sfh_mass g (sfh_cdf L f) t * A t) ->
  let o := observe_all L (disk_step L) self [CEval b; CSet (DPt (sa_lmd f) (sa_phi f) (sa_se f))] in
  exists y y', ob_ybar o = Some y /\ par_evaluate_ybar L (ob_par o) b' = Ok y' /\
    exists w i j, (w < n)%nat /\ (i < nx g)%nat /\ (j < ny g)%nat /\ ent y [w; i; j] <> ent y' [w; i; j].
Proof. exact stale_claim. Qed.
Print Assumptions C78_stale_refuted.
Example C78_stale_case : exists self y y' w i j,
  build_disk exL2 (exseen exage) (1, 1 / 2) 0 exsfh exdisk = Ok self /\
  let o := observe_all exL2 (disk_step exL2) self [CEval "none"; CSet (DPt 3 (1 / 3) (1 / 4, 3 / 4))] in
  ob_ybar o = Some y /\ par_evaluate_ybar exL2 (ob_par o) "none" = Ok y' /\ ent y [w; i; j] <> ent y' [w; i; j].
Proof. exact ex_stale. Qed.
