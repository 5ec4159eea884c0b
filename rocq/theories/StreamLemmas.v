(** * StreamLemmas: the setters of Stream (claim C46). *)
From Coq Require Import Reals Lra Lia List Bool Arith ZArith String Ascii.
From Verif Require Import Num NumLemmas Arr ArrLemmas PyStr Cube Base Parametric GrowingDisk Stream Spec SpecLemmas Repr
  ParSpec ParRepr ParSetSpec CubeLemmas VecLemmas CubeGeom BaseLemmas CondLemmas ParLemmas ParSetLemmas ParEnrich
  DiskLemmas MomSpec.
Import ListNotations.
Local Open Scope R_scope.

Definition angles_ok (th : R * R) : Prop := - PI <= fst th <= PI /\ - PI <= snd th <= PI.
Lemma angles_ok_true th : angles_ok th -> stream_angles_ok th = Ok tt.
Proof.
  intros [H1 H2]. unfold stream_angles_ok.
  rewrite (proj2 (Rleb_true _ _)) by (apply Rmin_glb; lra). cbn [py_assert bind].
  rewrite (proj2 (Rleb_true _ _)) by (apply Rmax_lub; lra). reflexivity.
Qed.
Lemma angles_ok_false th : ~ angles_ok th -> stream_angles_ok th = Err AssertionError.
Proof.
  intros H. unfold stream_angles_ok. destruct (Rleb (- PI) _) eqn:E1; [|reflexivity]. cbn [py_assert bind].
  destruct (Rleb _ PI) eqn:E2; [|reflexivity]. exfalso. apply H. apply Rleb_true in E1, E2.
  pose proof (Rmin_l (fst th) (snd th)). pose proof (Rmin_r (fst th) (snd th)).
  pose proof (Rmax_l (fst th) (snd th)). pose proof (Rmax_r (fst th) (snd th)). split; lra.
Qed.

(** samples of the track *)
Definition angle_at (th : R * R) (n k : nat) : R := fst th + INR k * ((snd th - fst th) / INR (n - 1)).
Definition radius_at (th r : R * R) (a : R) : R := fst r + (snd r - fst r) * ((a - fst th) / (snd th - fst th)).
Definition track_x (th r : R * R) (n k : nat) : R := radius_at th r (angle_at th n k) * cos (angle_at th n k).
Definition track_y (th r : R * R) (n k : nat) : R := radius_at th r (angle_at th n k) * sin (angle_at th n k).

(** probability of the interval of length d about x *)
Definition nbox (F : R -> R) (mu sig d x : R) : R := F ((x + d / 2 - mu) / sig) - F ((x - d / 2 - mu) / sig).
Lemma nbox_pos F mu sig d x : good_norm F -> 0 < sig -> 0 < d -> 0 < nbox F mu sig d x.
Proof.
  intros [_ HF] Hs Hd. unfold nbox. enough (F ((x - d / 2 - mu) / sig) < F ((x + d / 2 - mu) / sig)) by lra.
  apply HF. apply Rmult_lt_compat_r; [apply Rinv_0_lt_compat; assumption|lra].
Qed.

Lemma stream_coord_ok L xx nx ny (X : map2d) d mu n (m : nat -> R) sig : good_norm (norm_cdf L) -> 0 < sig ->
  arr_is xx [nx; ny] (fun idx => match idx with [x; y] => Fin (X x y) | _ => NaN end) ->
  arr_is mu [n] (fun idx => Fin (m (hd 0%nat idx))) ->
  exists a, stream_coord L xx (Fin d) mu sig = Ok a /\
    arr_is a [nx; ny; n] (fun idx => match idx with [x; y; k] => lg (nbox (norm_cdf L) (m k) sig d (X x y)) | _ => NaN end).
Proof.
  intros HF Hs HX Hmu. unfold stream_coord. s_get. rewrite ndiv_Fin by lra.
  pose proof (scal_is (Fin (d / 2))) as Hd. pose proof (scal_is (Fin sig)) as Hsg.
  s_bop. s_bop. unfold norm_logcdf. s_bop. s_bop. s_bop. unfold logdiffexp. s_bop.
  eexists; split; [reflexivity|]. eapply arr_is_ext; [eassumption|]. at_idx.
  rewrite nadd_Fin, nsub_Fin. cbn [norm_logcdf1 fst snd hd]. destruct (Rlt_dec 0 sig); [|lra].
  rewrite !nlog_Fin. apply lse_b_diff; left; apply HF.
Qed.

Section Stream.
Context (L : stats_lib) (self : par) (g : grid) (X Y : map2d).
Context (Hc : cube_on (pa_cube self) g) (Hg : good_grid g) (Hxy : xy_on self g X Y).

Definition box_xy (th r : R * R) (sig : R) (n : nat) (k x y : nat) : R :=
  nbox (norm_cdf L) (track_x th r n k) sig (wid (xE g) x) (X x y) *
  nbox (norm_cdf L) (track_y th r n k) sig (wid (yE g) y) (Y x y).
(** share of the samples in a pixel, and the density *)
Definition stream_mass (th r : R * R) (sig : R) (n : nat) (x y : nat) : R := Sum n (fun k => box_xy th r sig n k x y).
Definition stream_px (th r : R * R) (sig : R) (n : nat) (x y : nat) : R :=
  stream_mass th r sig n x y / Sum (nx g) (fun x => Sum (ny g) (fun y => stream_mass th r sig n x y)) /
  (wid (xE g) x * wid (yE g) y).

Context (th r : R * R) (sig : R) (n : nat).
Context (HF : good_norm (norm_cdf L)) (Hth : fst th <> snd th) (Hsig : 0 < sig) (Hn : (0 < n)%nat).

Lemma box_xy_pos k x y : (x < nx g)%nat -> (y < ny g)%nat -> 0 < box_xy th r sig n k x y.
Proof.
  intros Hx Hy. apply Rmult_lt_0_compat; apply nbox_pos; try assumption.
  - apply (wid_pos _ _ _ (gg_xE _ Hg)); assumption.
  - apply (wid_pos _ _ _ (gg_yE _ Hg)); assumption.
Qed.
Lemma stream_mass_pos x y : (x < nx g)%nat -> (y < ny g)%nat -> 0 < stream_mass th r sig n x y.
Proof.
  intros Hx Hy. apply (Sum_pos _ _ 0); [assumption| |]; intros; [left|]; apply box_xy_pos; assumption.
Qed.
Lemma stream_norm_pos : 0 < Sum (nx g) (fun x => Sum (ny g) (fun y => stream_mass th r sig n x y)).
Proof.
  pose proof (gg_x _ Hg). pose proof (gg_y _ Hg).
  apply (Sum_pos _ _ 0); [assumption| |]; intros.
  - apply Sum_nonneg; intros; left; apply stream_mass_pos; assumption.
  - apply (Sum_pos _ _ 0); [assumption| |]; intros; [left|]; apply stream_mass_pos; assumption.
Qed.

Lemma t_values_len : exists t, get_variable_values (pa_cube self) "t" = Ok t /\ len0 t = nt g.
Proof. eexists; split; [reflexivity|]. exact (vec_len _ _ _ (so_tc _ _ (co_ssps _ _ Hc))). Qed.

Lemma radius_entry a : nadd (Fin (fst r)) (nmul (Fin (snd r - fst r)) (ndiv (nsub (Fin a) (Fin (fst th))) (Fin (snd th - fst th))))
  = Fin (radius_at th r a).
Proof. rewrite nsub_Fin, ndiv_Fin, nmul_Fin, nadd_Fin by lra. reflexivity. Qed.

Lemma stream_log_px_ok : exists a, stream_log_p_x_t L self th r sig n = Ok a /\
  arr_is a [nx g; ny g; nt g] (fun idx => match idx with [x; y; t] => lg (stream_px th r sig n x y) | _ => NaN end).
Proof.
  unfold stream_log_p_x_t. destruct Hxy as [HX HY].
  pose proof (gg_t _ Hg). pose proof (gg_x _ Hg). pose proof (gg_y _ Hg).
  assert (Hlin : arr_is (linspace (fst th) (snd th) n) [n] (fun idx => Fin (angle_at th n (hd 0%nat idx)))).
  { split; [reflexivity|]. intros idx Hi; inb_inv. reflexivity. }
  cbv zeta. revert Hlin. generalize (linspace (fst th) (snd th) n). intros smp Hlin.
  s_map. s_map. s_map. s_bop. s_bop.
  match goal with Hq : arr_is ?a [n] _ |- context [stream_coord L (pa_xxp self) _ ?a sig] =>
    assert (Hmx : arr_is a [n] (fun idx => Fin (track_x th r n (hd 0%nat idx)))); [eapply arr_is_ext; [exact Hq|]|clear Hq] end.
  { at_idx. rewrite radius_entry. reflexivity. }
  match goal with Hq : arr_is ?a [n] _ |- context [stream_coord L (pa_yyp self) _ ?a sig] =>
    assert (Hmy : arr_is a [n] (fun idx => Fin (track_y th r n (hd 0%nat idx)))); [eapply arr_is_ext; [exact Hq|]|clear Hq] end.
  { at_idx. rewrite radius_entry. reflexivity. }
  destruct t_values_len as (tv & -> & Htv). cbn [bind].
  destruct (co_dx _ _ Hc) as (dx & -> & Hdx), (co_dy _ _ Hc) as (dy & -> & Hdy).
  destruct (stream_coord_ok L _ _ _ X dx _ n (track_x th r n) sig HF Hsig HX Hmx) as (ax & -> & Hax). cbn [bind].
  destruct (stream_coord_ok L _ _ _ Y dy _ n (track_y th r n) sig HF Hsig HY Hmy) as (ay & -> & Hay). cbn [bind].
  s_bop.
  match goal with Hq : arr_is ?a [nx g; ny g; n] _ |- context [logsumexp ?a] =>
    assert (Hxy' : arr_is a [nx g; ny g; n] (fun idx => match idx with [x; y; k] => lg (box_xy th r sig n k x y) | _ => NaN end));
    [eapply arr_is_ext; [exact Hq|]|clear Hq] end.
  { at_idx. pose proof (wid_pos _ _ i (gg_xE _ Hg) ltac:(assumption)). pose proof (wid_pos _ _ i0 (gg_yE _ Hg) ltac:(assumption)).
    rewrite nadd_lg; [|left; apply nbox_pos; [assumption|assumption|rewrite <- (Hdx i) by assumption; assumption]
                      |left; apply nbox_pos; [assumption|assumption|rewrite <- (Hdy i0) by assumption; assumption]].
    unfold box_xy. rewrite Hdx, Hdy by assumption. reflexivity. }
  s_lse.
  match goal with Hq : arr_is ?a [nx g; ny g] _ |- context [logsumexp_all ?a] =>
    assert (Hm : arr_is a [nx g; ny g] (fun idx => match idx with [x; y] => lg (stream_mass th r sig n x y) | _ => NaN end));
    [eapply arr_is_ext; [exact Hq|]|clear Hq] end.
  { at_idx. rewrite (lse_map_lg _ (fun sub => box_xy th r sig n (hd 0%nat sub) i i0)).
    - rewrite sum_all_idx_cons. f_equal. apply Sum_ext. intros k Hk. rewrite sum_all_idx_nil. reflexivity.
    - intros sub Hs. apply in_all_idx in Hs. inb_inv. reflexivity.
    - intros sub Hs. left; apply box_xy_pos; assumption. }
  s_lseall.
  match goal with Hq : arr_is ?a [] _ |- context [iop nsub _ ?a] =>
    assert (Hno : arr_is a [] (fun _ => lg (Sum (nx g) (fun x => Sum (ny g) (fun y => stream_mass th r sig n x y)))));
    [eapply arr_is_ext; [exact Hq|]|clear Hq] end.
  { intros idx Hi. rewrite (lse_map_lg _ (fun idx => match idx with [x; y] => stream_mass th r sig n x y | _ => 0 end)).
    - rewrite sum_pixels. reflexivity.
    - intros sub Hs. apply in_all_idx in Hs. inb_inv. reflexivity.
    - intros sub Hs. apply in_all_idx in Hs. inb_inv. left; apply stream_mass_pos; assumption. }
  s_iop. pose proof (log_area_is self g Hc Hg) as Hla. s_iop.
  match goal with |- context [broadcast_to ?a (len0 tv :: shp ?a)] =>
    match goal with Hq : arr_is a ?s ?f |- _ => rewrite Htv, (proj1 Hq);
      destruct (broadcast_to_is a s f (nt g :: s) Hq) as (bb & -> & Hb); [bsh|cbn [bind]] end end.
  s_mov. eexists; split; [reflexivity|]. eapply arr_is_ext; [eassumption|]. at_idx.
  cbn [nth index_of Nat.eqb rev app bidx map2 skipn List.length Nat.sub hd map seq]. pk.
  pose proof (stream_mass_pos i i0 ltac:(assumption) ltac:(assumption)). pose proof stream_norm_pos.
  rewrite nsub_lg by lra. rewrite nsub_lg; [|left; apply Rdiv_lt_0_compat; assumption|apply area_pos; assumption].
  unfold stream_px. rewrite (area_at _ _ i i0 Hc Hg) by assumption. reflexivity.
Qed.

Lemma stream_px_pos x y : (x < nx g)%nat -> (y < ny g)%nat -> 0 < stream_px th r sig n x y.
Proof.
  intros Hx Hy. unfold stream_px. apply Rdiv_lt_0_compat; [apply Rdiv_lt_0_compat; [apply stream_mass_pos; assumption|apply stream_norm_pos]|].
  apply Rmult_lt_0_compat; [apply (wid_pos _ _ _ (gg_xE _ Hg))|apply (wid_pos _ _ _ (gg_yE _ Hg))]; assumption.
Qed.
Lemma stream_px_total : over_image g (stream_px th r sig n) = 1.
Proof.
  pose proof stream_norm_pos as Hp. unfold over_image.
  rewrite (Sum_ext _ _ (fun x => / Sum (nx g) (fun x => Sum (ny g) (fun y => stream_mass th r sig n x y)) * Sum (ny g) (fun y => stream_mass th r sig n x y))).
  - rewrite Sum_scal. apply Rinv_l. lra.
  - intros x Hx. rewrite <- Sum_scal. apply Sum_ext. intros y Hy. unfold stream_px.
    pose proof (wid_pos _ _ x (gg_xE _ Hg) Hx). pose proof (wid_pos _ _ y (gg_yE _ Hg) Hy). field. lra.
Qed.

(** ** mean velocity *)
Definition pol (x y : nat) : R := arctan2 (Y x y) (X x y).
(** velocity at polar angle a for velocities v at the angles th *)
Definition vel_at (v : R * R) (a : R) : R :=
  let lo := if Rlt_dec (fst th) (snd th) then fst v else snd v in
  let hi := if Rlt_dec (fst th) (snd th) then snd v else fst v in
  at_age (Rmin (fst th) (snd th)) (Rmax (fst th) (snd th)) (lo, hi) a.

Lemma minmax_lt : Rmin (fst th) (snd th) < Rmax (fst th) (snd th).
Proof. unfold Rmin, Rmax. destruct (Rle_dec (fst th) (snd th)); lra. Qed.

Lemma stream_mu_entry lo hi a b c : a < b -> stream_mu lo hi a b (Fin c) = Fin (at_age a b (lo, hi) c).
Proof.
  intros Hab. unfold stream_mu, nle. cbn [nlt neqb]. unfold at_age, Rltb, Reqb. cbn [fst snd].
  destruct (Rlt_dec c a).
  - destruct (Rlt_dec a c); [lra|]. destruct (Rlt_dec b c); [lra|]. destruct (Req_EM_T b c); [lra|]. reflexivity.
  - destruct (Rlt_dec b c).
    + destruct (Rlt_dec c b); [lra|]. rewrite Bool.andb_false_r. reflexivity.
    + destruct (Rlt_dec a c), (Rlt_dec c b); cbn [andb orb].
      * rewrite nsub_Fin, ndiv_Fin, nmul_Fin, nadd_Fin by lra. f_equal. ring.
      * destruct (Req_EM_T b c); [|lra]. f_equal. replace c with b by lra. field. lra.
      * destruct (Req_EM_T b c); [lra|]. destruct (Req_EM_T c a); [|lra]. f_equal. replace c with a by lra.
        unfold Rdiv. ring.
      * lra.
Qed.

Lemma stream_mu_v_ok v : pa_theta_lims self = Some th ->
  exists a, stream_set_mu_v self v = Ok (put_mu_v self a) /\
    arr_is a [nt g; nx g; ny g] (fun idx => match idx with [t; x; y] => Fin (vel_at v (pol x y)) | _ => NaN end).
Proof.
  intros Ht. unfold stream_set_mu_v. destruct Hxy as [HX HY]. s_bop. rewrite Ht. cbn [attr bind].
  destruct t_values_len as (tv & -> & Htv). cbn [bind]. cbv zeta.
  match goal with |- context [amap ?f ?a] => match goal with Hq : arr_is a _ _ |- _ =>
    pose proof (amap_is f _ _ _ Hq) as Hmu; revert Hmu; generalize (amap f a); intros mu Hmu end end.
  rewrite Htv, (proj1 Hmu).
  destruct (broadcast_to_is mu _ _ (nt g :: [nx g; ny g]) Hmu) as (bb & -> & Hb); [bsh|]. cbn [bind].
  eexists; split; [reflexivity|]. eapply arr_is_ext; [eassumption|]. at_idx. cbn [narctan2].
  rewrite stream_mu_entry by apply minmax_lt. unfold vel_at, pol, Rltb. destruct (Rlt_dec (fst th) (snd th)); reflexivity.
Qed.
End Stream.

Lemma stream_t_dep_ok L self g td : cube_on (pa_cube self) g -> good_grid g -> zgrid_on self g -> good_norm (norm_cdf L) ->
  exists lz, stream_set_t_dep L self td =
      Ok (Par (pa_cube self) (pa_xxp self) (pa_yyp self) (pa_zgrid self) (pa_t_pars self) (pa_log_p_t self)
        (pa_log_p_x_t self) (Some (full [nx g; ny g] (Fin (td * 1)))) (Some lz) (pa_mu_v self) (pa_sig_v self) (pa_theta_lims self)) /\
    arr_is lz [nz g; nt g; nx g; ny g] (fun idx => match idx with
      | [k; t; x; y] => lg (pz g (norm_cdf L) (zm g td t) k) | _ => NaN end).
Proof.
  intros Hc Hg Hz HF. unfold stream_set_t_dep, set_p_z_tx. rewrite (co_nx _ _ Hc), (co_ny _ _ Hc), nmul_Fin.
  assert (Htd : arr_is (full [nx g; ny g] (Fin (td * 1))) [nx g; ny g] (fun idx => match idx with [x; y] => Fin td | _ => NaN end)).
  { split; [reflexivity|]. intros idx Hi; inb_inv. cbn [full ent]. rewrite ?nmul_Fin, Rmult_1_r. reflexivity. }
  destruct (enrichment_ok L self g _ (fun _ _ => td) Hc Hg Hz HF Htd) as (lz & -> & Hlz). cbn [bind].
  exists lz. split; [reflexivity|assumption].
Qed.
Lemma stream_sig_v_ok self g sg : cube_on (pa_cube self) g ->
  exists a, stream_set_sig_v self sg = put_sig_v self a /\
    arr_is a [nt g; nx g; ny g] (fun idx => match idx with [t; x; y] => Fin sg | _ => NaN end).
Proof.
  intros Hc. unfold stream_set_sig_v. rewrite (co_nx _ _ Hc), (co_ny _ _ Hc), (so_dims _ _ (co_ssps _ _ Hc)). cbn [snd].
  eexists; split; [reflexivity|]. split; [reflexivity|]. intros idx Hi; inb_inv. cbn [full ent]. rewrite ?nmul_Fin, Rmult_1_r. reflexivity.
Qed.
