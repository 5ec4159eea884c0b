(** * ParBuild: parametric components set up as a user would, by construction
    followed by all the setters; every such component represents a good model. *)
From Coq Require Import Reals Lra Lia List Bool Arith ZArith String Ascii.
From Verif Require Import Num NumLemmas Arr ArrLemmas PyStr Cube Base Parametric GrowingDisk Stream Spec Repr ParSpec ParRepr
  ParSetSpec CubeLemmas ParSetLemmas ParEnrich DiskLemmas StreamLemmas ParLemmas.
Import ListNotations.
Local Open Scope R_scope.

(** the arguments of the setters *)
Record sfh_args := Sfh { sa_lmd : R; sa_phi : R; sa_se : R * R }.
Record disk_args := Disk {
  dx_q : R * R; dx_rc : R * R; dx_al : R * R;                             (* set_p_x_t *)
  dt_q : R; dt_al : R; dt_in : R; dt_out : R; dt_min : R; dt_max : R;      (* set_t_dep *)
  dm_q : R * R; dm_rmax : R * R; dm_vmax : R * R;                         (* set_mu_v *)
  ds_q : R * R; ds_al : R * R; ds_in : R * R; ds_out : R * R; ds_max : R; ds_min : R (* set_sig_v *)
}.
Record stream_args := Strm {
  sx_th : R * R; sx_r : R * R; sx_sig : R; sx_n : nat;   (* set_p_x_t *)
  st_dep : R;                                            (* set_t_dep *)
  sm_v : R * R;                                          (* set_mu_v *)
  ss_sig : R                                             (* set_sig_v *)
}.

(** the calls a user makes *)
Definition set_age (L : stats_lib) (p : par) (f : sfh_args) : res par := set_p_t L p (sa_lmd f) (sa_phi f) (sa_se f).
Definition build_disk (L : stats_lib) (c : cube) (center : R * R) (rot : R) (f : sfh_args) (d : disk_args) : res par :=
  p <- par_init c center rot ;;
  p <- set_age L p f ;;
  p <- disk_set_p_x_t p (dx_q d) (dx_rc d) (dx_al d) ;;
  p <- disk_set_t_dep L p (dt_q d) (dt_al d) (dt_in d) (dt_out d) (dt_min d) (dt_max d) ;;
  p <- disk_set_mu_v p (dm_q d) (dm_rmax d) (dm_vmax d) ;;
  disk_set_sig_v p (ds_q d) (ds_al d) (ds_in d) (ds_out d) (ds_max d) (ds_min d).
Definition build_stream (L : stats_lib) (c : cube) (center : R * R) (rot : R) (f : sfh_args) (d : stream_args) : res par :=
  p <- par_init c center rot ;;
  p <- set_age L p f ;;
  p <- stream_set_p_x_t L p (sx_th d) (sx_r d) (sx_sig d) (sx_n d) ;;
  p <- stream_set_t_dep L p (st_dep d) ;;
  p <- stream_set_mu_v p (sm_v d) ;;
  Ok (stream_set_sig_v p (ss_sig d)).

(** valid arguments *)
Definition sfh_cdf (L : stats_lib) (f : sfh_args) : R -> R := beta_cdf L (sa_lmd f * sa_phi f) (sa_lmd f * (1 - sa_phi f)).
Definition sfh_ppf (L : stats_lib) (f : sfh_args) : R -> R := beta_ppf L (sa_lmd f * sa_phi f) (sa_lmd f * (1 - sa_phi f)).
Record sfh_ok (L : stats_lib) (f : sfh_args) : Prop := {
  so_a : 0 < sa_lmd f * sa_phi f; so_b : 0 < sa_lmd f * (1 - sa_phi f);
  so_ab : 1 < sa_lmd f * sa_phi f \/ 1 < sa_lmd f * (1 - sa_phi f);
  so_cdf : good_cdf (sfh_cdf L f); so_ppf : good_ppf (sfh_ppf L f);
  so_s : 0 <= fst (sa_se f); so_se : fst (sa_se f) < snd (sa_se f); so_e : snd (sa_se f) <= 1
}.
Record disk_ok (d : disk_args) : Prop := {
  dk_xq : posl (dx_q d); dk_xrc : posl (dx_rc d); dk_xal : nonnegl (dx_al d);
  dk_t : tdep_args_ok (dt_q d) (dt_al d) (dt_in d) (dt_out d) (dt_min d) (dt_max d);
  dk_mq : posl (dm_q d); dk_mr : posl (dm_rmax d); dk_mv : one_sign (dm_vmax d);
  dk_sq : posl (ds_q d); dk_sal : nonnegl (ds_al d); dk_sin : posl (ds_in d); dk_sout : posl (ds_out d)
}.
Record stream_ok (d : stream_args) : Prop := {
  sk_th : angles_ok (sx_th d); sk_ne : fst (sx_th d) <> snd (sx_th d);
  sk_sig : 0 < sx_sig d; sk_n : (0 < sx_n d)%nat; sk_ss : 0 < ss_sig d
}.

(** the models they represent *)
Definition sfh_age (L : stats_lib) (g : grid) (f : sfh_args) (p : R) : R := age_of g (sfh_ppf L f) p.
Definition disk_model (L : stats_lib) (g : grid) (X Y : map2d) (f : sfh_args) (d : disk_args) : par_model :=
  let s := sfh_age L g f (fst (sa_se f)) in
  let e := sfh_age L g f (snd (sa_se f)) in
  ParModel (fun t => sfh_mass g (sfh_cdf L f) t / wid (tE g) t)
    (disk_px g X Y s e (dx_q d) (dx_rc d) (dx_al d))
    (fun t x y k => pz g (norm_cdf L) (zm g (disk_tdep g X Y (dt_q d) (dt_al d) (dt_in d) (dt_out d) x y) t) k)
    (disk_muv g X Y s e (dm_q d) (dm_rmax d) (dm_vmax d))
    (disk_sigv g X Y s e (ds_q d) (ds_al d) (ds_in d) (ds_out d)) (norm_cdf L).
Definition stream_model (L : stats_lib) (g : grid) (X Y : map2d) (f : sfh_args) (d : stream_args) : par_model :=
  ParModel (fun t => sfh_mass g (sfh_cdf L f) t / wid (tE g) t)
    (fun t => stream_px L g X Y (sx_th d) (sx_r d) (sx_sig d) (sx_n d))
    (fun t x y k => pz g (norm_cdf L) (zm g (st_dep d) t) k)
    (fun t x y => vel_at (sx_th d) (sm_v d) (pol X Y x y))
    (fun t x y => ss_sig d) (norm_cdf L).

Lemma age_lt L g f : good_grid g -> sfh_ok L f ->
  sfh_age L g f (fst (sa_se f)) < sfh_age L g f (snd (sa_se f)).
Proof.
  intros Hg Hf. unfold sfh_age, age_of. pose proof (t_span g Hg).
  pose proof (proj2 (so_ppf _ _ Hf) (fst (sa_se f)) (snd (sa_se f)) (so_s _ _ Hf) (so_se _ _ Hf) (so_e _ _ Hf)). nra.
Qed.

Lemma set_age_ok L self g f : cube_on (pa_cube self) g -> good_grid g -> sfh_ok L f ->
  exists a, set_age L self f = Ok (with_p_t self (Fin (sfh_age L g f (fst (sa_se f)))) (Fin (sfh_age L g f (snd (sa_se f)))) a) /\
    arr_is a [nt g] (fun idx => lg (sfh_mass g (sfh_cdf L f) (hd 0%nat idx) / wid (tE g) (hd 0%nat idx))) /\
    t_pars_on (with_p_t self (Fin (sfh_age L g f (fst (sa_se f)))) (Fin (sfh_age L g f (snd (sa_se f)))) a)
      (sfh_age L g f (fst (sa_se f))) (sfh_age L g f (snd (sa_se f))).
Proof.
  intros Hc Hg Hf.
  pose proof (so_s _ _ Hf). pose proof (so_e _ _ Hf). pose proof (so_se _ _ Hf).
  destruct (set_p_t_ok L self g (sa_lmd f) (sa_phi f) (sa_se f) Hc Hg (so_a _ _ Hf) (so_b _ _ Hf) (so_ab _ _ Hf) (so_cdf _ _ Hf)
    ltac:(lra) ltac:(lra)) as (a & E & Ha).
  exists a. split; [exact E|]. split; [exact Ha|]. split; [|apply age_lt; assumption].
  cbn [with_p_t pa_t_pars]. rewrite nsub_Fin. reflexivity.
Qed.



Section Built.
Context (L : stats_lib) (c : cube) (g : grid) (X0 Y0 : map2d) (center : R * R) (rot : R) (f : sfh_args).
Context (Hc : cube_on c g) (Hg : good_grid g) (Hxy0 : cube_xy c g X0 Y0) (Hf : sfh_ok L f) (HN : good_norm (norm_cdf L)).
Let X : map2d := fun x y => rot_x rot (X0 x y - fst center) (Y0 x y - snd center).
Let Y : map2d := fun x y => rot_y rot (X0 x y - fst center) (Y0 x y - snd center).

Lemma good_built m :
  pm_t m = (fun t => sfh_mass g (sfh_cdf L f) t / wid (tE g) t) ->
  (forall t x y, (t < nt g)%nat -> (x < nx g)%nat -> (y < ny g)%nat -> 0 < pm_x m t x y) ->
  (forall t, (t < nt g)%nat -> over_image g (pm_x m t) = 1) ->
  (exists mu, pm_z m = fun t x y k => pz g (norm_cdf L) (mu t x y) k) ->
  (forall t x y, (t < nt g)%nat -> (x < nx g)%nat -> (y < ny g)%nat -> 0 < pm_sig m t x y) ->
  pm_F m = norm_cdf L -> good_par g m.
Proof.
  intros H1 H2 H3 (mu & H4) H5 H6. constructor.
  - intros t Ht. rewrite H1. apply Rmult_le_pos; [apply sfh_nonneg; [assumption|apply (so_cdf _ _ Hf)|assumption]|].
    left. apply Rinv_0_lt_compat. pose proof (gg_tE _ Hg t Ht). unfold wid; lra.
  - intros. left; apply H2; assumption.
  - intros. rewrite H4. left. apply pz_pos; assumption.
  - exact H3.
  - intros. rewrite H4. apply pz_total; assumption.
  - exact H5.
  - intros x. rewrite H6. pose proof (proj1 HN x). lra.
  - intros x y Hxy. rewrite H6. destruct (Req_dec x y) as [->|]; [lra|]. left. apply (proj2 HN). lra.
Qed.

Lemma disk_px_pos g' X' Y' s e q rc al t x y : good_grid g' -> 0 < disk_px g' X' Y' s e q rc al t x y.
Proof.
  intros Hg'. apply Rdiv_lt_0_compat; [apply rho_pos|apply image_pos; [assumption|intros; apply rho_pos]].
Qed.
Lemma disk_px_total g' X' Y' s e q rc al t : good_grid g' -> over_image g' (disk_px g' X' Y' s e q rc al t) = 1.
Proof.
  intros Hg'. pose proof (image_pos g' Hg' (rho g' X' Y' s e q rc al t) ltac:(intros; apply rho_pos)) as Hp.
  unfold over_image at 1, disk_px.
  transitivity (Sum (nx g') (fun x => Sum (ny g') (fun y => rho g' X' Y' s e q rc al t x y * (wid (xE g') x * wid (yE g') y))
     * / over_image g' (rho g' X' Y' s e q rc al t))).
  - apply Sum_ext. intros x Hx. rewrite <- Sum_scal_r. apply Sum_ext. intros y Hy. unfold Rdiv. ring.
  - rewrite Sum_scal_r. fold (over_image g' (rho g' X' Y' s e q rc al t)). apply Rinv_r. lra.
Qed.

Lemma disk_built d : disk_ok d -> 0 < max_abs g X ->
  exists self, build_disk L c center rot f d = Ok self /\ pa_cube self = c /\ xy_on self g X Y /\
    t_pars_on self (sfh_age L g f (fst (sa_se f))) (sfh_age L g f (snd (sa_se f))) /\
    par_on L self g (disk_model L g X Y f d) /\ good_par g (disk_model L g X Y f d).
Proof.
  intros Hd Hm. unfold build_disk.
  destruct (par_init_ok c g X0 Y0 center rot Hc Hg Hxy0) as (p0 & -> & Ec & Hxy & Hz & _). cbn [bind].
  assert (Hc0 : cube_on (pa_cube p0) g) by (rewrite Ec; exact Hc).
  destruct (set_age_ok L p0 g f Hc0 Hg Hf) as (lt & -> & Hlt & Ht). cbn [bind].
  set (p1 := with_p_t p0 _ _ lt) in *.
  assert (Hz1 : zgrid_on p1 g) by (unfold zgrid_on, p1; cbn [with_p_t pa_cube pa_zgrid]; rewrite Ec; exact Hz).
  destruct (disk_x_t_ok p1 g X Y _ _ Hc0 Hg Hxy Ht _ _ _ (dk_xq _ Hd) (dk_xrc _ Hd) (dk_xal _ Hd)) as (lx & -> & Hlx). cbn [bind].
  set (p2 := put_log_p_x_t p1 lx) in *.
  destruct (disk_t_dep_ok p2 g X Y Hc0 Hg Hxy Hm L _ _ _ _ _ _ Hz1 HN (dk_t _ Hd)) as (td & lz & -> & Htd & Hlz). cbn [bind].
  match goal with |- context [disk_set_mu_v ?p _ _ _] => set (p3 := p) in * end.
  destruct (disk_mu_v_ok p3 g X Y _ _ Hc0 Hxy Ht _ _ _ (dk_mq _ Hd) (dk_mr _ Hd) (dk_mv _ Hd)) as (mu & -> & Hmu). cbn [bind].
  set (p4 := put_mu_v p3 mu) in *.
  destruct (disk_sig_v_ok p4 g X Y _ _ Hc0 Hg Hxy Ht Hm _ _ _ _ (ds_max d) (ds_min d) (dk_sq _ Hd) (dk_sal _ Hd) (dk_sin _ Hd) (dk_sout _ Hd))
    as (sg & -> & Hsg).
  set (p5 := put_sig_v p4 sg) in *.
  exists p5. split; [reflexivity|]. split; [exact Ec|]. split; [exact Hxy|]. split; [exact Ht|]. split.
  - constructor; [exact Hc0|reflexivity| | | | |].
    + destruct Hlt as [S1 S2]. exists lt. split; [reflexivity|]. split; [exact S1|]. intros t H. exact (S2 [t] ltac:(repeat constructor; assumption)).
    + destruct Hlx as [S1 S2]. exists lx. split; [reflexivity|]. split; [exact S1|]. intros t x y H1 H2 H3. exact (S2 [x; y; t] ltac:(repeat constructor; assumption)).
    + destruct Hlz as [S1 S2]. exists lz. split; [reflexivity|]. split; [exact S1|]. intros t x y z H1 H2 H3 H4. exact (S2 [z; t; x; y] ltac:(repeat constructor; assumption)).
    + destruct Hmu as [S1 S2]. exists mu. split; [reflexivity|]. split; [exact S1|]. intros t x y H1 H2 H3. exact (S2 [t; x; y] ltac:(repeat constructor; assumption)).
    + destruct Hsg as [S1 S2]. exists sg. split; [reflexivity|]. split; [exact S1|]. intros t x y H1 H2 H3. exact (S2 [t; x; y] ltac:(repeat constructor; assumption)).
  - apply good_built; try reflexivity.
    + intros. apply disk_px_pos; assumption.
    + intros. apply disk_px_total; assumption.
    + eexists; reflexivity.
    + intros t x y _ _ _. cbn [disk_model pm_sig]. unfold disk_sigv.
      match goal with |- 0 < in_out ?a ?b ?m ?al ?r => pose proof (in_out_between a b m al r Hm) as HB end.
      pose proof (age_lt L g f Hg Hf) as Hse.
      pose proof (at_age_pos _ _ (ds_in d) (mid (tE g) t) Hse (proj1 (dk_sin _ Hd)) (proj2 (dk_sin _ Hd))) as P1.
      pose proof (at_age_pos _ _ (ds_out d) (mid (tE g) t) Hse (proj1 (dk_sout _ Hd)) (proj2 (dk_sout _ Hd))) as P2.
      pose proof (Rmin_glb_lt _ _ _ P1 P2). unfold at_bin in *. lra.
Qed.

Lemma stream_built d : stream_ok d ->
  exists self, build_stream L c center rot f d = Ok self /\ pa_cube self = c /\ xy_on self g X Y /\
    t_pars_on self (sfh_age L g f (fst (sa_se f))) (sfh_age L g f (snd (sa_se f))) /\
    par_on L self g (stream_model L g X Y f d) /\ good_par g (stream_model L g X Y f d).
Proof.
  intros Hd. unfold build_stream.
  destruct (par_init_ok c g X0 Y0 center rot Hc Hg Hxy0) as (p0 & -> & Ec & Hxy & Hz & _). cbn [bind].
  assert (Hc0 : cube_on (pa_cube p0) g) by (rewrite Ec; exact Hc).
  destruct (set_age_ok L p0 g f Hc0 Hg Hf) as (lt & -> & Hlt & Ht). cbn [bind].
  set (p1 := with_p_t p0 _ _ lt) in *.
  assert (Hz1 : zgrid_on p1 g) by (unfold zgrid_on, p1; cbn [with_p_t pa_cube pa_zgrid]; rewrite Ec; exact Hz).
  unfold stream_set_p_x_t. rewrite (angles_ok_true _ (sk_th _ Hd)). cbn [bind].
  destruct (stream_log_px_ok L p1 g X Y Hc0 Hg Hxy (sx_th d) (sx_r d) (sx_sig d) (sx_n d) HN (sk_ne _ Hd) (sk_sig _ Hd) (sk_n _ Hd))
    as (lx & -> & Hlx). cbn [bind].
  set (p2 := put_log_p_x_t _ lx) in *.
  destruct (stream_t_dep_ok L p2 g (st_dep d) Hc0 Hg Hz1 HN) as (lz & -> & Hlz). cbn [bind].
  match goal with |- context [stream_set_mu_v ?p _] => set (p3 := p) in * end.
  destruct (stream_mu_v_ok p3 g X Y Hc0 Hxy (sx_th d) (sk_ne _ Hd) (sm_v d) eq_refl) as (mu & -> & Hmu). cbn [bind].
  set (p4 := put_mu_v p3 mu) in *.
  destruct (stream_sig_v_ok p4 g (ss_sig d) Hc0) as (sg & E & Hsg).
  rewrite E. set (p5 := put_sig_v p4 sg) in *.
  exists p5. split; [reflexivity|]. split; [exact Ec|]. split; [exact Hxy|]. split; [exact Ht|]. split.
  - constructor; [exact Hc0|reflexivity| | | | |].
    + destruct Hlt as [S1 S2]. exists lt. split; [reflexivity|]. split; [exact S1|]. intros t H. exact (S2 [t] ltac:(repeat constructor; assumption)).
    + destruct Hlx as [S1 S2]. exists lx. split; [reflexivity|]. split; [exact S1|]. intros t x y H1 H2 H3. exact (S2 [x; y; t] ltac:(repeat constructor; assumption)).
    + destruct Hlz as [S1 S2]. exists lz. split; [reflexivity|]. split; [exact S1|]. intros t x y z H1 H2 H3 H4. exact (S2 [z; t; x; y] ltac:(repeat constructor; assumption)).
    + destruct Hmu as [S1 S2]. exists mu. split; [reflexivity|]. split; [exact S1|]. intros t x y H1 H2 H3. exact (S2 [t; x; y] ltac:(repeat constructor; assumption)).
    + destruct Hsg as [S1 S2]. exists sg. split; [reflexivity|]. split; [exact S1|]. intros t x y H1 H2 H3. exact (S2 [t; x; y] ltac:(repeat constructor; assumption)).
  - apply good_built; try reflexivity.
    + intros. apply stream_px_pos; try assumption; [apply (sk_sig _ Hd)|apply (sk_n _ Hd)].
    + intros. apply stream_px_total; try assumption; [apply (sk_sig _ Hd)|apply (sk_n _ Hd)].
    + eexists; reflexivity.
    + intros t x y _ _ _. exact (sk_ss _ Hd).
Qed.
End Built.
