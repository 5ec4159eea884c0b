(** * ParClaims: the claims on the setters and distributions of parametric
    components in the form in which Props_Setters and Props_Parametric state them. *)
From Coq Require Import Reals Lra Lia List Bool Arith ZArith String Ascii.
From Verif Require Import Num NumLemmas Arr ArrLemmas PyStr Cube Base Parametric GrowingDisk Stream Spec SpecLemmas Repr ParSpec ParRepr
  ParSetSpec CubeLemmas CondLemmas CubeGeom ParSetLemmas ParEnrich DiskLemmas StreamLemmas ParLemmas ParDist ParBuild.
Import ListNotations.
Local Open Scope R_scope.

Ltac inbs := repeat (apply Forall2_cons; [assumption|]); apply Forall2_nil.

(** ** C42 *)
Lemma p_t_query L self g F (a : arr num) (density : bool) : cube_on (pa_cube self) g -> good_grid g ->
  pa_log_p_t self = Some a -> arr_is a [nt g] (fun idx => lg (F (hd 0%nat idx) / wid (tE g) (hd 0%nat idx))) ->
  (forall t, (t < nt g)%nat -> 0 <= F t) ->
  exists p, par_get_p L self "t" density false = Ok p /\ shp p = [nt g] /\
    forall t, (t < nt g)%nat -> ent p [t] = Fin (F t / (if density then wid (tE g) t else 1)).
Proof.
  intros Hc Hg E Ha HF.
  assert (W : forall t, (t < nt g)%nat -> 0 < wid (tE g) t) by (intros; apply (wid_pos _ _ _ (gg_tE _ Hg)); assumption).
  assert (Hp : exists b, t_mw self density = Ok b /\
     arr_is b [nt g] (fun idx => lg (F (hd 0%nat idx) / (if density then wid (tE g) (hd 0%nat idx) else 1)))).
  { unfold t_mw. rewrite E. cbn [attr bind]. destruct density.
    - exists a; split; [reflexivity|exact Ha].
    - destruct (log_dt_ok' self g Hc Hg) as (dt & Edt & Hdt). unfold log_vol. rewrite Edt. cbn [bind].
      s_map. s_iop. eexists; split; [reflexivity|]. eapply arr_is_ext; [eassumption|]. intros idx Hi. inb_inv.
      cbn [bidx map2 skipn List.length Nat.sub hd tl]. picks. cbn [hd].
      pose proof (W i ltac:(assumption)). rewrite nlog_Fin, nadd_lg; [|apply Rmult_le_pos; [apply HF; assumption|left; apply Rinv_0_lt_compat; assumption]|lra].
      f_equal. field. lra. }
  destruct Hp as (b & Eb & Hb1 & Hb2). unfold par_get_p, get_p_of, par_get_log_p, get_log_p_of. cbn.
  change (p_t self density false) with (t_mw self density). rewrite Eb. cbn [bind].
  eexists; split; [reflexivity|]. split; [exact Hb1|]. intros t Ht. cbn [amap ent]. rewrite Hb2 by inbs.
  cbn [hd]. apply nexp_lg. apply Rmult_le_pos; [apply HF; assumption|].
  left. apply Rinv_0_lt_compat. destruct density; [apply W; assumption|lra].
Qed.

Lemma sfh_claim L self g lmd phi se : cube_on (pa_cube self) g -> good_grid g ->
  0 < lmd * phi -> 0 < lmd * (1 - phi) -> (1 < lmd * phi \/ 1 < lmd * (1 - phi)) ->
  good_cdf (beta_cdf L (lmd * phi) (lmd * (1 - phi))) -> 0 <= fst se <= 1 -> 0 <= snd se <= 1 ->
  exists self' p d, set_p_t L self lmd phi se = Ok self' /\
    par_get_p L self' "t" false false = Ok p /\ par_get_p L self' "t" true false = Ok d /\
    shp p = [nt g] /\ shp d = [nt g] /\
    (forall t, (t < nt g)%nat -> let M := sfh_mass g (beta_cdf L (lmd * phi) (lmd * (1 - phi))) t in
       ent p [t] = Fin M /\ ent d [t] = Fin (M / wid (tE g) t) /\ 0 <= M) /\
    Sum (nt g) (sfh_mass g (beta_cdf L (lmd * phi) (lmd * (1 - phi)))) = 1.
Proof.
  intros Hc Hg H1 H2 H3 HF Hs He.
  destruct (set_p_t_ok L self g lmd phi se Hc Hg H1 H2 H3 HF Hs He) as (a & E & Ha).
  match type of E with _ = Ok ?q => set (self' := q) in * end.
  destruct (p_t_query L self' g _ a false Hc Hg eq_refl Ha ltac:(intros; apply sfh_nonneg; assumption)) as (p & Ep & Sp & Vp).
  destruct (p_t_query L self' g _ a true Hc Hg eq_refl Ha ltac:(intros; apply sfh_nonneg; assumption)) as (d & Ed & Sd & Vd).
  exists self', p, d. repeat (split; [assumption|]). split; [|apply sfh_total; assumption].
  intros t Ht. cbv zeta. rewrite Vp, Vd by assumption. split; [f_equal; field|]. split; [reflexivity|]. apply sfh_nonneg; assumption.
Qed.

Lemma set_p_t_value_error L self g lmd phi se : cube_on (pa_cube self) g -> good_grid g ->
  (lmd * phi <= 1 /\ lmd * (1 - phi) <= 1 -> set_p_t L self lmd phi se = Err ValueError) /\
  (~ (lmd * phi <= 1 /\ lmd * (1 - phi) <= 1) -> exists self', set_p_t L self lmd phi se = Ok self').
Proof.
  intros Hc Hg. split.
  - intros [H1 H2]. unfold set_p_t. cbv zeta.
    rewrite (proj2 (Rltb_false 1 (lmd * phi))), (proj2 (Rltb_false 1 (lmd * (1 - phi)))) by lra. reflexivity.
  - intros H. unfold set_p_t. cbv zeta. rewrite guard_true by lra.
    pose proof (so_te _ _ (co_ssps _ _ Hc)) as HE.
    destruct (vec_get _ _ _ 0 HE ltac:(lia)) as (e0 & E0 & V0). change (Z.of_nat 0) with 0%Z in E0.
    destruct (vec_last _ _ _ HE) as (e1 & E1 & V1).
    rewrite E0, E1. cbn [bind].
    match goal with |- context [tail0 ?x] => set (lc := x) end.
    assert (Hl : arr_is lc [S (nt g)] (ent lc)).
    { split; [unfold lc; cbn [amap shp]; rewrite (proj1 HE); f_equal; lia|reflexivity]. }
    clearbody lc. pose proof (tail0_is _ _ _ _ Hl ltac:(lia)) as Ht. pose proof (init0_is _ _ _ _ Hl) as Hi.
    cbn [Nat.sub] in Ht, Hi. rewrite Nat.sub_0_r in Ht, Hi.
    unfold logdiffexp. s_bop. destruct (log_dt_ok' self g Hc Hg) as (dt & Edt & Hdt). rewrite Edt. cbn [bind].
    s_map. s_bop. eexists; reflexivity.
Qed.

Lemma lse_b_nan : lse_b [(NaN, Fin 1); (NaN, Fin (-1))] = NaN.
Proof.
  unfold lse_b. cbn [map fst snd neqb].
  rewrite (proj2 (Reqb_false 1 0)), (proj2 (Reqb_false (-1) 0)) by lra. reflexivity.
Qed.

(** shape parameters that are not positive are accepted and give nan *)
Lemma set_p_t_nan L self g lmd phi se : cube_on (pa_cube self) g -> good_grid g ->
  (1 < lmd * phi \/ 1 < lmd * (1 - phi)) -> (lmd * phi <= 0 \/ lmd * (1 - phi) <= 0) ->
  exists self' a, set_p_t L self lmd phi se = Ok self' /\ pa_log_p_t self' = Some a /\
    forall t, (t < nt g)%nat -> ent a [t] = NaN.
Proof.
  intros Hc Hg H3 H4. unfold set_p_t. cbv zeta. rewrite guard_true by assumption.
  pose proof (so_te _ _ (co_ssps _ _ Hc)) as HE.
  destruct (vec_get _ _ _ 0 HE ltac:(lia)) as (e0 & E0 & V0). change (Z.of_nat 0) with 0%Z in E0.
  destruct (vec_last _ _ _ HE) as (e1 & E1 & V1).
  rewrite E0, E1. cbn [bind]. rewrite V0, V1, nsub_Fin.
  assert (Hok : beta_ok (lmd * phi) (lmd * (1 - phi)) (Fin (tE g (nt g) - tE g 0)) = false).
  { unfold beta_ok. destruct H4 as [H4|H4].
    - rewrite (proj2 (Rltb_false _ _)) by lra. reflexivity.
    - rewrite (proj2 (Rltb_false 0 (lmd * (1 - phi)))) by lra. rewrite Bool.andb_false_r. reflexivity. }
  match goal with |- context [tail0 ?x] => set (lc := x) end.
  assert (Hl : arr_is lc [S (nt g)] (fun _ => NaN)).
  { split; [unfold lc; cbn [amap shp]; rewrite (proj1 HE); f_equal; lia|].
    intros idx Hi; inb_inv. unfold lc. cbn [amap ent]. unfold beta_logcdf. rewrite Hok. reflexivity. }
  clearbody lc. pose proof (tail0_is _ _ _ _ Hl ltac:(lia)) as Ht. pose proof (init0_is _ _ _ _ Hl) as Hi.
  cbn [Nat.sub] in Ht, Hi. rewrite Nat.sub_0_r in Ht, Hi.
  unfold logdiffexp. s_bop. destruct (log_dt_ok' self g Hc Hg) as (dt & Edt & Hdt). rewrite Edt. cbn [bind].
  s_map. s_bop. eexists _, _. split; [reflexivity|]. split; [reflexivity|]. intros t Htt.
  match goal with Hq : arr_is ?a _ _ |- ent ?a _ = _ => rewrite (proj2 Hq) by inbs end.
  cbn [bidx map2 skipn List.length Nat.sub hd tl]. picks. rewrite lse_b_nan. reflexivity.
Qed.

(** ** C43 *)
Lemma age_start_end L self g f : cube_on (pa_cube self) g -> good_grid g -> sfh_ok L f ->
  exists self' s e, set_age L self f = Ok self' /\ tE g 0 <= s /\ s < e /\ e <= tE g (nt g) /\
    forall young old, exists a h, linear_interpolate_t self' (Fin young) (Fin old) = Ok a /\ vec a (nt g) h /\
    (forall t, (t < nt g)%nat -> mid (tE g) t <= s -> h t = young) /\
    (forall t, (t < nt g)%nat -> e <= mid (tE g) t -> h t = old) /\
    (forall t, (t < nt g)%nat -> s <= mid (tE g) t <= e -> (h t - young) * (e - s) = (old - young) * (mid (tE g) t - s)) /\
    (forall t, (t < nt g)%nat -> Rmin young old <= h t <= Rmax young old) /\
    (forall t t', (t < nt g)%nat -> (t' < nt g)%nat -> mid (tE g) t <= mid (tE g) t' ->
      (young <= old -> h t <= h t') /\ (old <= young -> h t' <= h t)).
Proof.
  intros Hc Hg Hf. destruct (set_age_ok L self g f Hc Hg Hf) as (a & E & Ha & Ht).
  eexists _, (sfh_age L g f (fst (sa_se f))), (sfh_age L g f (snd (sa_se f))). split; [exact E|].
  pose proof (t_span g Hg). pose proof (so_s _ _ Hf). pose proof (so_se _ _ Hf). pose proof (so_e _ _ Hf).
  pose proof (proj1 (so_ppf _ _ Hf) (fst (sa_se f)) ltac:(lra)). pose proof (proj1 (so_ppf _ _ Hf) (snd (sa_se f)) ltac:(lra)).
  split; [unfold sfh_age, age_of; nra|]. split; [apply age_lt; assumption|]. split; [unfold sfh_age, age_of; nra|].
  intros young old. apply age_claim; assumption.
Qed.
Lemma age_needs_p_t self a b : pa_t_pars self = None -> linear_interpolate_t self a b = Err AttributeError.
Proof. intros E. unfold linear_interpolate_t. rewrite E. reflexivity. Qed.

(** ** C44 *)
Section Disk.
Context (self : par) (g : grid) (X Y : map2d) (s e : R).
Context (Hc : cube_on (pa_cube self) g) (Hg : good_grid g) (Hxy : xy_on self g X Y) (Hp : t_pars_on self s e).

Lemma cored_anti q rc al x y x' y' : 0 < rc -> 0 <= al -> ell q x y <= ell q x' y' -> cored q rc al x' y' <= cored q rc al x y.
Proof.
  intros Hrc Hal H. unfold cored. rewrite !Rpower_Ropp. pose proof (ell_nonneg q x y).
  apply Rinv_le_contravar; [apply exp_pos|]. destruct (Req_dec (ell q x y) (ell q x' y')) as [->|]; [lra|].
  destruct (Req_dec al 0) as [->|].
  - rewrite !Rpower_O by lra. lra.
  - left. apply Rlt_Rpower_l; lra.
Qed.
Lemma cored_strict q rc al x y x' y' : 0 < rc -> 0 < al -> ell q x y < ell q x' y' -> cored q rc al x' y' < cored q rc al x y.
Proof.
  intros Hrc Hal H. unfold cored. rewrite !Rpower_Ropp. pose proof (ell_nonneg q x y).
  apply Rinv_lt_contravar; [apply Rmult_lt_0_compat; apply exp_pos|]. apply Rlt_Rpower_l; lra.
Qed.

Lemma disk_x_claim q rc al : posl q -> posl rc -> nonnegl al ->
  exists self' a p, disk_set_p_x_t self q rc al = Ok self' /\ pa_log_p_x_t self' = Some a /\ shp a = [nx g; ny g; nt g] /\
    (forall t x y, (t < nt g)%nat -> (x < nx g)%nat -> (y < ny g)%nat -> ent a [x; y; t] = nlog (Fin (p t x y)) /\ 0 < p t x y) /\
    (forall t, (t < nt g)%nat -> over_image g (p t) = 1) /\
    (forall t x y x' y', let at_t l := at_age s e l (mid (tE g) t) in
       p t x y * cored (at_t q) (at_t rc) (at_t al) (X x' y') (Y x' y') =
       p t x' y' * cored (at_t q) (at_t rc) (at_t al) (X x y) (Y x y) /\
       (ell (at_t q) (X x y) (Y x y) <= ell (at_t q) (X x' y') (Y x' y') -> p t x' y' <= p t x y) /\
       (0 < at_t al -> ell (at_t q) (X x y) (Y x y) < ell (at_t q) (X x' y') (Y x' y') -> p t x' y' < p t x y) /\
       (Rabs (X x y) = Rabs (X x' y') -> Rabs (Y x y) = Rabs (Y x' y') -> p t x y = p t x' y')).
Proof.
  intros Hq Hrc Hal. destruct (disk_x_t_ok self g X Y s e Hc Hg Hxy Hp q rc al Hq Hrc Hal) as (a & E & S1 & S2).
  exists (put_log_p_x_t self a), a, (disk_px g X Y s e q rc al).
  split; [exact E|]. split; [reflexivity|]. split; [exact S1|]. split; [|split].
  - intros t x y H1 H2 H3. split; [exact (S2 [x; y; t] ltac:(inbs))|apply disk_px_pos; assumption].
  - intros; apply disk_px_total; assumption.
  - intros t x y x' y' at_t.
    pose proof (image_pos g Hg (rho g X Y s e q rc al t) ltac:(intros; apply rho_pos)) as HI.
    pose proof (at_bin_pos self g s e Hp rc t Hrc) as Prc. pose proof (at_bin_nonneg self g s e Hp al t Hal) as Pal.
    unfold disk_px, rho. fold (at_t q) in *. unfold at_bin in *. fold (at_t q) (at_t rc) (at_t al) in *.
    set (I := over_image g _) in *. assert (0 < / I) by (apply Rinv_0_lt_compat; exact HI). unfold Rdiv.
    split; [ring|]. split; [|split].
    + intros H'. apply Rmult_le_compat_r; [lra|]. apply cored_anti; assumption.
    + intros H0' H'. apply Rmult_lt_compat_r; [lra|]. apply cored_strict; assumption.
    + intros H1 H2. unfold cored. rewrite (ell_sym _ _ _ (X x' y') (Y x' y') H1 H2). reflexivity.
Qed.

Lemma disk_x_invalid q rc al : ~ (posl q /\ posl rc /\ nonnegl al) -> disk_set_p_x_t self q rc al = Err AssertionError.
Proof.
  intros H. unfold disk_set_p_x_t.
  destruct (all_pos q) eqn:E1; [|reflexivity]. destruct (all_pos rc) eqn:E2; [|reflexivity]. destruct (all_nonneg al) eqn:E3; [|reflexivity].
  exfalso. unfold all_pos, all_nonneg in *. apply andb_prop in E1, E2, E3. apply H. unfold posl, nonnegl.
  destruct E1 as [A1 A2], E2 as [B1 B2], E3 as [C1 C2]. apply Rltb_true in A1, A2, B1, B2. apply Rleb_true in C1, C2. repeat split; assumption.
Qed.

(** ** C45 *)
Lemma disk_mu_claim q rmax vmax : posl q -> posl rmax -> one_sign vmax ->
  exists self' a f, disk_set_mu_v self q rmax vmax = Ok self' /\ pa_mu_v self' = Some a /\ shp a = [nt g; nx g; ny g] /\
    (forall t x y, (t < nt g)%nat -> (x < nx g)%nat -> (y < ny g)%nat -> ent a [t; x; y] = Fin (f t x y)) /\
    (forall t x y, let at_t l := at_age s e l (mid (tE g) t) in
       Rabs (f t x y) <= Rabs (at_t vmax) /\
       (X x y = at_t rmax -> Y x y = 0 -> f t x y = at_t vmax) /\
       (X x y = 0 -> f t x y = 0) /\
       (0 < at_t vmax -> 0 < X x y -> 0 < f t x y) /\
       (forall x' y', X x' y' = - X x y -> Rabs (Y x' y') = Rabs (Y x y) -> f t x' y' = - f t x y)).
Proof.
  intros Hq Hr Hv. destruct (disk_mu_v_ok self g X Y s e Hc Hxy Hp q rmax vmax Hq Hr Hv) as (a & E & S1 & S2).
  exists (put_mu_v self a), a, (disk_muv g X Y s e q rmax vmax).
  split; [exact E|]. split; [reflexivity|]. split; [exact S1|]. split.
  - intros t x y H1 H2 H3. exact (S2 [t; x; y] ltac:(inbs)).
  - intros t x y at_t. pose proof (at_bin_pos self g s e Hp rmax t Hr) as Pr.
    unfold disk_muv. unfold at_bin in *. fold (at_t rmax) (at_t vmax) (at_t q) in *.
    split; [apply disk_mu_bound; assumption|]. split; [intros -> ->; apply disk_mu_peak; assumption|].
    split; [intros ->; apply disk_mu_axis|]. split; [intros; apply disk_mu_pos; assumption|].
    intros x' y' H1 H2. apply disk_mu_anti; assumption.
Qed.
Lemma disk_mu_invalid q rmax vmax : ~ (posl q /\ one_sign vmax) -> disk_set_mu_v self q rmax vmax = Err AssertionError.
Proof.
  intros H. unfold disk_set_mu_v. destruct (all_pos q) eqn:E1; [|reflexivity].
  cbn [py_assert bind]. rewrite one_sign_false; [reflexivity|]. intros Hv. apply H. split; [|assumption].
  unfold all_pos in E1. apply andb_prop in E1. destruct E1 as [A B]. apply Rltb_true in A, B. split; assumption.
Qed.

Context (Hm : 0 < max_abs g X).
Lemma disk_sig_claim q al vi vo smax smin : posl q -> nonnegl al -> posl vi -> posl vo ->
  exists self' a f, disk_set_sig_v self q al vi vo smax smin = Ok self' /\ pa_sig_v self' = Some a /\ shp a = [nt g; nx g; ny g] /\
    (forall t x y, (t < nt g)%nat -> (x < nx g)%nat -> (y < ny g)%nat -> ent a [t; x; y] = Fin (f t x y)) /\
    (forall t x y, let at_t l := at_age s e l (mid (tE g) t) in let r := ell (at_t q) (X x y) (Y x y) in
       Rmin (at_t vi) (at_t vo) <= f t x y <= Rmax (at_t vi) (at_t vo) /\
       (r = 0 -> 0 < at_t al -> f t x y = at_t vi) /\
       (max_abs g X <= r -> f t x y = at_t vo) /\
       (forall x' y', r <= ell (at_t q) (X x' y') (Y x' y') ->
          (at_t vi <= at_t vo -> f t x y <= f t x' y') /\ (at_t vo <= at_t vi -> f t x' y' <= f t x y))).
Proof.
  intros Hq Hal Hi Ho. destruct (disk_sig_v_ok self g X Y s e Hc Hg Hxy Hp Hm q al vi vo smax smin Hq Hal Hi Ho) as (a & E & S1 & S2).
  exists (put_sig_v self a), a, (disk_sigv g X Y s e q al vi vo).
  split; [exact E|]. split; [reflexivity|]. split; [exact S1|]. split.
  - intros t x y H1 H2 H3. exact (S2 [t; x; y] ltac:(inbs)).
  - intros t x y at_t r. pose proof (at_bin_nonneg self g s e Hp al t Hal) as Pal.
    unfold disk_sigv. unfold at_bin in *. fold (at_t vi) (at_t vo) (at_t q) (at_t al) in *. fold r.
    split; [apply in_out_between; assumption|]. split; [intros -> ?; apply in_out_0; assumption|].
    split; [intros; apply in_out_far; assumption|].
    intros x' y' H1. apply in_out_mono; try assumption. split; [apply ell_nonneg|assumption].
Qed.
Lemma disk_sig_invalid q al vi vo smax smin : ~ (posl q /\ nonnegl al /\ posl vi /\ posl vo) ->
  disk_set_sig_v self q al vi vo smax smin = Err AssertionError.
Proof.
  intros H. unfold disk_set_sig_v.
  destruct (all_pos q) eqn:E1; [|reflexivity]. destruct (all_nonneg al) eqn:E3; [|reflexivity].
  destruct (all_pos vi) eqn:E2; [|reflexivity]. destruct (all_pos vo) eqn:E4; [|reflexivity].
  exfalso. unfold all_pos, all_nonneg in *. apply andb_prop in E1, E2, E3, E4. apply H. unfold posl, nonnegl.
  destruct E1 as [A1 A2], E2 as [B1 B2], E3 as [C1 C2], E4 as [D1 D2]. apply Rltb_true in A1, A2, B1, B2, D1, D2. apply Rleb_true in C1, C2.
  repeat split; assumption.
Qed.

Lemma disk_tdep_claim L q al a b lo hi : zgrid_on self g -> good_norm (norm_cdf L) -> tdep_args_ok q al a b lo hi ->
  exists self' td f, disk_set_t_dep L self q al a b lo hi = Ok self' /\ pa_t_dep self' = Some td /\ shp td = [nx g; ny g] /\
    (forall x y, (x < nx g)%nat -> (y < ny g)%nat -> ent td [x; y] = Fin (f x y)) /\
    (forall x y, let r := ell q (X x y) (Y x y) in
       Rmin a b <= f x y <= Rmax a b /\ lo <= f x y <= hi /\
       (r = 0 -> 0 < al -> f x y = a) /\ (max_abs g X <= r -> f x y = b) /\
       (forall x' y', r <= ell q (X x' y') (Y x' y') ->
          (a <= b -> f x y <= f x' y') /\ (b <= a -> f x' y' <= f x y))).
Proof.
  intros Hz HN Hok. destruct (disk_t_dep_ok self g X Y Hc Hg Hxy Hm L q al a b lo hi Hz HN Hok) as (td & lz & E & (S1 & S2) & _).
  eexists _, td, (disk_tdep g X Y q al a b). split; [exact E|]. split; [reflexivity|]. split; [exact S1|]. split.
  - intros x y H2 H3. exact (S2 [x; y] ltac:(inbs)).
  - intros x y r. unfold disk_tdep. fold r. destruct Hok as (H1 & H2 & H3 & H4 & H5 & H6).
    pose proof (in_out_between a b (max_abs g X) al r Hm) as HB.
    split; [exact HB|]. split.
    { revert HB. unfold Rmin, Rmax. destruct (Rle_dec a b); lra. }
    split; [intros -> ?; apply in_out_0; assumption|].
    split; [intros; apply in_out_far; assumption|].
    intros x' y' H7. apply in_out_mono; try assumption. split; [apply ell_nonneg|assumption].
Qed.
End Disk.

(** the documented limits on the dispersion are not used *)
Lemma sigma_limits_ignored self q al vi vo smax smin smax' smin' :
  disk_set_sig_v self q al vi vo smax smin = disk_set_sig_v self q al vi vo smax' smin'.
Proof. reflexivity. Qed.

(** ** C46 *)
Lemma arctan2_polar r a : 0 < r -> - PI < a <= PI -> arctan2 (r * sin a) (r * cos a) = a.
Proof.
  intros Hr Ha. unfold arctan2. pose proof PI_RGT_0 as HP.
  assert (Hq : cos a <> 0 -> r * sin a / (r * cos a) = tan a) by (intros; unfold tan; field; split; lra).
  destruct (Rlt_dec 0 (r * cos a)) as [H1|H1].
  - assert (0 < cos a) by nra. rewrite Hq by lra. apply atan_tan.
    split; apply Rnot_le_lt; intros H2.
    + pose proof (cos_le_0 (- a) ltac:(lra) ltac:(lra)). rewrite cos_neg in *. lra.
    + pose proof (cos_le_0 a ltac:(lra) ltac:(lra)). lra.
  - destruct (Rlt_dec (r * cos a) 0) as [H2|H2].
    + assert (cos a < 0) by nra. rewrite Hq by lra.
      destruct (Rle_dec 0 (r * sin a)) as [H3|H3].
      * assert (0 <= sin a) by nra.
        assert (PI / 2 < a).
        { apply Rnot_le_lt; intros K. destruct (Rle_dec 0 a) as [K5|K5].
          - pose proof (cos_ge_0 a ltac:(lra) ltac:(lra)). lra.
          - pose proof (sin_lt_0_var a ltac:(lra) ltac:(lra)). lra. }
        replace (tan a) with (tan (a - PI)).
        { rewrite atan_tan by lra. lra. }
        unfold tan. rewrite sin_minus, cos_minus, sin_PI, cos_PI. field. lra.
      * assert (sin a < 0) by nra.
        assert (a < 0) by (apply Rnot_le_lt; intros K; pose proof (sin_ge_0 a K ltac:(lra)); lra).
        assert (a < - (PI / 2)).
        { apply Rnot_le_lt; intros K. pose proof (cos_ge_0 a ltac:(lra) ltac:(lra)). lra. }
        replace (tan a) with (tan (a + PI)).
        { rewrite atan_tan by lra. lra. }
        unfold tan. rewrite neg_sin, neg_cos. field. lra.
    + assert (H4 : cos a = 0) by nra.
      assert (H5 : a = PI / 2 \/ a = - (PI / 2)).
      { destruct (Rle_dec 0 a) as [H5|H5].
        - left. destruct (Rtotal_order a (PI / 2)) as [H6|[H6|H6]]; [|exact H6|].
          + pose proof (cos_gt_0 a ltac:(lra) ltac:(lra)). lra.
          + pose proof (cos_lt_0 a ltac:(lra) ltac:(lra)). lra.
        - right. destruct (Rtotal_order a (- (PI / 2))) as [H6|[H6|H6]]; [|exact H6|].
          + pose proof (cos_lt_0 (- a) ltac:(lra) ltac:(lra)). rewrite cos_neg in *. lra.
          + pose proof (cos_gt_0 a ltac:(lra) ltac:(lra)). lra. }
      destruct H5 as [-> | ->].
      * rewrite sin_PI2. destruct (Rlt_dec 0 (r * 1)); [reflexivity|lra].
      * rewrite sin_neg, sin_PI2. destruct (Rlt_dec 0 (r * - (1))); [lra|]. destruct (Rlt_dec (r * - (1)) 0); [reflexivity|lra].
Qed.

Section Stream.
Context (L : stats_lib) (self : par) (g : grid) (X Y : map2d).
Context (Hc : cube_on (pa_cube self) g) (Hg : good_grid g) (Hxy : xy_on self g X Y).

Lemma stream_x_claim th r sig n : good_norm (norm_cdf L) -> angles_ok th -> fst th <> snd th -> 0 < sig -> (0 < n)%nat ->
  exists self' a p, stream_set_p_x_t L self th r sig n = Ok self' /\ pa_log_p_x_t self' = Some a /\
    pa_theta_lims self' = Some th /\ shp a = [nx g; ny g; nt g] /\
    (forall t x y, (t < nt g)%nat -> (x < nx g)%nat -> (y < ny g)%nat -> ent a [x; y; t] = nlog (Fin (p x y)) /\ 0 < p x y) /\
    over_image g p = 1 /\
    (forall x y x' y', let pix x y := wid (xE g) x * wid (yE g) y in
      let M x y := Sum n (fun k => nbox (norm_cdf L) (track_x th r n k) sig (wid (xE g) x) (X x y) *
                                   nbox (norm_cdf L) (track_y th r n k) sig (wid (yE g) y) (Y x y)) in
      (x < nx g)%nat -> (y < ny g)%nat -> (x' < nx g)%nat -> (y' < ny g)%nat ->
      p x y * pix x y * M x' y' = p x' y' * pix x' y' * M x y).
Proof.
  intros HN Hth Hne Hs Hn. unfold stream_set_p_x_t. rewrite (angles_ok_true _ Hth). cbn [bind].
  destruct (stream_log_px_ok L self g X Y Hc Hg Hxy th r sig n HN Hne Hs Hn) as (a & -> & S1 & S2). cbn [bind].
  eexists _, a, (stream_px L g X Y th r sig n). split; [reflexivity|]. split; [reflexivity|]. split; [reflexivity|]. split; [exact S1|]. split; [|split].
  - intros t x y H1 H2 H3. split; [exact (S2 [x; y; t] ltac:(inbs))|apply stream_px_pos; assumption].
  - apply stream_px_total; assumption.
  - intros x y x' y' H1 H2 H3 H4.
    pose (pix := fun x y => wid (xE g) x * wid (yE g) y).
    pose (M := stream_mass L g X Y th r sig n).
    assert (Hpix : forall a b, (a < nx g)%nat -> (b < ny g)%nat -> 0 < pix a b).
    { intros. apply Rmult_lt_0_compat; [apply (wid_pos _ _ _ (gg_xE _ Hg))|apply (wid_pos _ _ _ (gg_yE _ Hg))]; assumption. }
    pose proof (Hpix x y H1 H2). pose proof (Hpix x' y' H3 H4).
    pose proof (stream_norm_pos L g X Y Hg th r sig n HN Hs Hn) as HT.
    change (stream_px L g X Y th r sig n x y * pix x y * M x' y' = stream_px L g X Y th r sig n x' y' * pix x' y' * M x y).
    unfold stream_px. fold M. fold (pix x y) (pix x' y'). fold M in HT.
    field. repeat split; lra.
Qed.
Lemma stream_x_invalid th r sig n : ~ angles_ok th -> stream_set_p_x_t L self th r sig n = Err AssertionError.
Proof. intros H. unfold stream_set_p_x_t. rewrite (angles_ok_false _ H). reflexivity. Qed.

Lemma stream_mu_claim th v : pa_theta_lims self = Some th -> fst th <> snd th ->
  exists self' a f, stream_set_mu_v self v = Ok self' /\ pa_mu_v self' = Some a /\ shp a = [nt g; nx g; ny g] /\
    (forall t x y rho phi, (t < nt g)%nat -> (x < nx g)%nat -> (y < ny g)%nat ->
       0 < rho -> - PI < phi <= PI -> X x y = rho * cos phi -> Y x y = rho * sin phi ->
       ent a [t; x; y] = Fin (f phi)) /\
    (forall phi, let d := snd th - fst th in
       ((phi - fst th) * d <= 0 -> f phi = fst v) /\
       (0 <= (phi - snd th) * d -> f phi = snd v) /\
       (0 <= (phi - fst th) * d -> (phi - snd th) * d <= 0 -> (f phi - fst v) * d = (snd v - fst v) * (phi - fst th)) /\
       Rmin (fst v) (snd v) <= f phi <= Rmax (fst v) (snd v) /\
       (forall phi', phi <= phi' ->
         (0 <= (snd v - fst v) * d -> f phi <= f phi') /\ ((snd v - fst v) * d <= 0 -> f phi' <= f phi))).
Proof.
  intros Eth Hne. destruct (stream_mu_v_ok self g X Y Hc Hxy th Hne v Eth) as (a & E & S1 & S2).
  exists (put_mu_v self a), a, (vel_at th v). split; [exact E|]. split; [reflexivity|]. split; [exact S1|]. split.
  - intros t x y rho phi H1 H2 H3 Hr Hphi Hx Hy. rewrite (S2 [t; x; y]) by inbs.
    unfold pol. rewrite Hx, Hy, arctan2_polar by assumption. reflexivity.
  - intros phi d. unfold vel_at. destruct (Rlt_dec (fst th) (snd th)) as [H|H].
    + rewrite Rmin_left, Rmax_right by lra. cbv zeta. fold d. assert (0 < d) by (unfold d; lra).
      split; [intros; rewrite at_age_young; [reflexivity|nra|assumption]|].
      split; [intros; rewrite at_age_old; [reflexivity|nra|assumption]|].
      split; [intros; rewrite at_age_mid by nra; cbn [fst snd]; unfold d in *; field; lra|].
      split; [exact (at_age_between _ _ (fst v, snd v) phi H)|].
      intros phi' Hle. split; intros; [apply at_age_mono|apply at_age_anti]; cbn [fst snd]; try assumption; nra.
    + rewrite Rmin_right, Rmax_left by lra. cbv zeta. assert (d < 0) by (unfold d; lra). assert (H' : snd th < fst th) by lra.
      split; [intros; rewrite at_age_old; [reflexivity|nra|assumption]|].
      split; [intros; rewrite at_age_young; [reflexivity|nra|assumption]|].
      split; [intros; rewrite at_age_mid by nra; cbn [fst snd]; unfold d in *; field; lra|].
      split; [rewrite Rmin_comm, Rmax_comm; exact (at_age_between _ _ (snd v, fst v) phi H')|].
      intros phi' Hle. split; intros; [apply at_age_mono|apply at_age_anti]; cbn [fst snd]; try assumption; nra.
Qed.
Lemma stream_mu_needs_track v : pa_theta_lims self = None -> stream_set_mu_v self v = Err AttributeError.
Proof.
  intros E. unfold stream_set_mu_v. destruct Hxy as [H1 H2]. s_bop. rewrite E. reflexivity.
Qed.
Lemma stream_sig_claim sg : exists self' a, stream_set_sig_v self sg = self' /\ pa_sig_v self' = Some a /\ shp a = [nt g; nx g; ny g] /\
  forall t x y, (t < nt g)%nat -> (x < nx g)%nat -> (y < ny g)%nat -> ent a [t; x; y] = Fin sg.
Proof.
  destruct (stream_sig_v_ok self g sg Hc) as (a & E & S1 & S2). exists (put_sig_v self a), a. split; [exact E|].
  split; [reflexivity|]. split; [exact S1|]. intros t x y H1 H2 H3. exact (S2 [t; x; y] ltac:(inbs)).
Qed.
End Stream.

(** ** C47 *)
Lemma enrich_claim L self g (t_dep : arr num) (td : map2d) :
  cube_on (pa_cube self) g -> good_grid g -> zgrid_on self g -> good_norm (norm_cdf L) ->
  shp t_dep = [nx g; ny g] -> (forall x y, (x < nx g)%nat -> (y < ny g)%nat -> ent t_dep [x; y] = Fin (td x y)) ->
  exists self' a p, set_p_z_tx L self t_dep = Ok self' /\ pa_log_p_z_tx self' = Some a /\ shp a = [nz g; nt g; nx g; ny g] /\
    (forall t x y k, (t < nt g)%nat -> (x < nx g)%nat -> (y < ny g)%nat -> (k < nz g)%nat ->
       ent a [k; t; x; y] = nlog (Fin (p t x y k)) /\ 0 < p t x y k) /\
    (forall t x y, (t < nt g)%nat -> Sum (nz g) (fun k => p t x y k * wid (zE g) k) = 1) /\
    (forall t x y, (t < nt g)%nat -> let N k := znorm g (norm_cdf L) (zm g (td x y) t) (ahat * Rpower (zm g (td x y) t) bhat) k in
       ((forall k, (k < nz g)%nat -> wid (zE g) k = wid (zE g) 0) ->
         forall k, (k < nz g)%nat -> p t x y k * wid (zE g) k = N k / Sum (nz g) N) /\
       (forall k l, (k < nz g)%nat -> (l < nz g)%nat ->
         (p t x y k * wid (zE g) k) * (N l * wid (zE g) l) = (p t x y l * wid (zE g) l) * (N k * wid (zE g) k)) /\
       (forall k l, (k < nz g)%nat -> (l < nz g)%nat -> wid (zE g) k <> wid (zE g) l ->
         (p t x y k * wid (zE g) k) * N l <> (p t x y l * wid (zE g) l) * N k)).
Proof.
  intros Hc Hg Hz HN Hs He.
  assert (Ha : arr_is t_dep [nx g; ny g] (fun idx => match idx with [x; y] => Fin (td x y) | _ => NaN end)).
  { split; [exact Hs|]. intros idx Hi; inb_inv. apply He; assumption. }
  destruct (enrichment_ok L self g t_dep td Hc Hg Hz HN Ha) as (a & E & S1 & S2).
  unfold set_p_z_tx. rewrite E. cbn [bind].
  eexists _, a, (fun t x y k => pz g (norm_cdf L) (zm g (td x y) t) k). split; [reflexivity|]. split; [reflexivity|]. split; [exact S1|].
  split; [|split].
  - intros t x y k H1 H2 H3 H4. split; [exact (S2 [k; t; x; y] ltac:(inbs))|apply pz_pos; assumption].
  - intros. apply pz_total; assumption.
  - intros t x y Ht. unfold pz. set (mu := zm g (td x y) t).
    change (fun k => znorm g (norm_cdf L) mu (ahat * Rpower mu bhat) k) with (zbin g (norm_cdf L) mu).
    pose proof (zden_pos g (norm_cdf L) mu Hg HN) as HD. set (D := zden g (norm_cdf L) mu) in *.
    split; [|split].
    + intros Hw k Hk. change (znorm g (norm_cdf L) mu (ahat * Rpower mu bhat) k) with (zbin g (norm_cdf L) mu k).
      assert (HDe : D = Sum (nz g) (zbin g (norm_cdf L) mu) * wid (zE g) 0).
      { unfold D, zden. rewrite <- Sum_scal_r. apply Sum_ext. intros l Hl. rewrite Hw by assumption. reflexivity. }
      pose proof (wid_pos _ _ 0 (gg_zE _ Hg) (gg_z _ Hg)) as W0. rewrite Hw by assumption. rewrite HDe in *.
      set (SN := Sum (nz g) (zbin g (norm_cdf L) mu)) in *. assert (SN <> 0) by (intros K; rewrite K in HD; lra).
      field. split; (assumption || lra).
    + intros k l Hk Hl. change (znorm g (norm_cdf L) mu (ahat * Rpower mu bhat)) with (zbin g (norm_cdf L) mu). field. lra.
    + intros k l Hk Hl Hne. change (znorm g (norm_cdf L) mu (ahat * Rpower mu bhat)) with (zbin g (norm_cdf L) mu).
      pose proof (zbin_pos g (norm_cdf L) mu k Hg HN Hk). pose proof (zbin_pos g (norm_cdf L) mu l Hg HN Hl).
      intros K. apply Hne.
      apply Rmult_eq_reg_l with (zbin g (norm_cdf L) mu k * zbin g (norm_cdf L) mu l / D).
      * unfold Rdiv in *. lra.
      * apply Rgt_not_eq. apply Rdiv_lt_0_compat; [apply Rmult_lt_0_compat; assumption|assumption].
Qed.

(** ** C48 *)
Lemma zg_t_dep_is self g : cube_on (pa_cube self) g -> good_grid g -> zgrid_on self g ->
  arr_is (zg_t_dep (pa_zgrid self)) [n_grid] (fun idx => match idx with [i] => Fin (grid_t_dep n_grid i) | _ => NaN end).
Proof.
  intros Hc Hg Hz. destruct (z_grid_ok n_grid _ g Hc Hg) as (zg & E & _ & H). unfold zgrid_on in Hz. rewrite Hz in E. inversion E; subst. exact H.
Qed.
Lemma nearest_claim self g td : cube_on (pa_cube self) g -> good_grid g -> zgrid_on self g ->
  let i := idx_t_dep (pa_zgrid self) (Fin td) in
  exists T, (forall k, (k < n_grid)%nat -> ent (zg_t_dep (pa_zgrid self)) [k] = Fin (T k)) /\
    (forall k l, (k < l)%nat -> T k < T l) /\ T 0%nat = 1 / 10 /\ T (n_grid - 1)%nat = 10 /\
    (i < n_grid)%nat /\ (forall k, (k < n_grid)%nat -> Rabs (td - T i) <= Rabs (td - T k)) /\
    (1 / 10 <= td <= 10 -> exists k, (S k < n_grid)%nat /\ T k <= td <= T (S k) /\ Rabs (td - T i) <= (T (S k) - T k) / 2).
Proof.
  intros Hc Hg Hz i. pose proof (zg_t_dep_is self g Hc Hg Hz) as HT. pose proof n_grid_gt as Hn.
  unfold i. rewrite (idx_t_dep_ok _ n_grid td HT).
  exists (grid_t_dep n_grid). split; [intros k Hk; exact (proj2 HT [k] ltac:(inbs))|].
  split; [intros; apply t_dep_lt; assumption|]. split; [apply t_dep_first|]. split; [apply t_dep_last; assumption|].
  destruct (nearest_ok n_grid td ltac:(lia)) as [H1 H2]. split; [exact H1|]. split; [exact H2|].
  intros H. apply nearest_within; assumption.
Qed.

Lemma in_out_same a m al r : in_out a a m al r = a.
Proof. unfold in_out. ring. Qed.

Lemma clamp_refuted L self g X Y q al td td' : cube_on (pa_cube self) g -> good_grid g -> zgrid_on self g ->
  good_norm (norm_cdf L) -> xy_on self g X Y -> 0 < max_abs g X -> 0 < q -> 0 <= al -> 10 <= td < td' -> td' <= 13 ->
  exists p p' a a', disk_set_t_dep L self q al td td (1 / 10) 13 = Ok p /\ disk_set_t_dep L self q al td' td' (1 / 10) 13 = Ok p' /\
    pa_log_p_z_tx p = Some a /\ pa_log_p_z_tx p' = Some a' /\
    (forall t x y k, (t < nt g)%nat -> (x < nx g)%nat -> (y < ny g)%nat -> (k < nz g)%nat -> ent a' [k; t; x; y] = ent a [k; t; x; y]) /\
    (forall tH z, 0 < z <= z_max -> grid_t tH td' z < grid_t tH td z).
Proof.
  intros Hc Hg Hz HN Hxy Hm Hq Hal H1 H2.
  destruct (disk_t_dep_ok self g X Y Hc Hg Hxy Hm L q al td td (1 / 10) 13 Hz HN ltac:(unfold tdep_args_ok; lra)) as (t1 & a & E & _ & S1 & S2).
  destruct (disk_t_dep_ok self g X Y Hc Hg Hxy Hm L q al td' td' (1 / 10) 13 Hz HN ltac:(unfold tdep_args_ok; lra)) as (t2 & a' & E' & _ & S1' & S2').
  eexists _, _, a, a'. split; [exact E|]. split; [exact E'|]. split; [reflexivity|]. split; [reflexivity|]. split.
  - intros t x y k I1 I2 I3 I4. rewrite S2, S2' by inbs. unfold disk_tdep. rewrite !in_out_same.
    unfold zm. rewrite !nearest_above; [reflexivity|apply n_grid_gt|lra|apply n_grid_gt|lra].
  - intros tH z Hzz. apply grid_t_slower; [assumption|lra].
Qed.

(** ** C74 *)
Lemma table_claim c g : cube_on c g -> good_grid g ->
  exists zg z, z_interpolation_grid n_grid c = Ok zg /\ shp (zg_z zg) = [n_grid; nt g] /\
    (forall i t, (i < n_grid)%nat -> (t < nt g)%nat -> ent (zg_z zg) [i; t] = Fin (z i t) /\ 0 < z i t <= z_max) /\
    (forall i t t', (t < nt g)%nat -> (t' < nt g)%nat -> mid (tE g) t <= mid (tE g) t' -> z i t' <= z i t) /\
    (forall i t zz, 0 < zz <= z_max ->
       mid (tE g) t = tE g (nt g) - grid_t_dep n_grid i * zz / (1 - ahat * rpow zz bhat) ->
       Rabs (z i t - zz) <= z_max / INR (n_grid - 1)) /\
    (forall i t, mid (tE g) t < tE g (nt g) - grid_t_dep n_grid i * z_max / (1 - ahat * rpow z_max bhat) -> z i t = z_max).
Proof.
  intros Hc Hg. destruct (z_grid_ok n_grid c g Hc Hg) as (zg & E & (S1 & S2) & _). pose proof n_grid_gt as Hn.
  exists zg, (fun i t => zmean n_grid (tE g (nt g)) (grid_t_dep n_grid i) (mid (tE g) t)).
  split; [exact E|]. split; [exact S1|]. split; [|split; [|split]].
  - intros i t Hi Ht. split; [exact (S2 [i; t] ltac:(inbs))|].
    apply zmean_range; [assumption|apply mid_lt; assumption].
  - intros i t t' Ht Ht' H. apply zmean_anti; try assumption; [apply t_dep_pos|apply mid_lt; assumption].
  - intros i t zz Hzz H. rewrite H. apply zmean_near; try assumption; apply t_dep_pos.
  - intros i t H. apply zmean_capped; try assumption; apply t_dep_pos.
Qed.

(** ** C50 *)
Definition lost (g : grid) (m : par_model) (t x y : nat) : R :=
  1 - Sum (nv g) (fun v => vbin g m t v x y).
Lemma lost_tails g m t x y : lost g m t x y =
  pm_F m ((vE g 0 - pm_mu m t x y) / pm_sig m t x y) + (1 - pm_F m ((vE g (nv g) - pm_mu m t x y) / pm_sig m t x y)).
Proof.
  unfold lost. rewrite (Sum_ext _ _ (fun v => pm_F m ((vE g (S v) - pm_mu m t x y) / pm_sig m t x y) -
    pm_F m ((vE g v - pm_mu m t x y) / pm_sig m t x y))) by reflexivity.
  rewrite (Sum_telescope (nv g) (fun v => pm_F m ((vE g v - pm_mu m t x y) / pm_sig m t x y))). ring.
Qed.

Lemma marg_flat_v g (Q : nat -> nat -> nat -> nat -> R) (V : nat -> nat -> nat -> nat -> R) S i : has_v S = false ->
  marg g (fun t v x y z => Q t x y z * V t v x y) S i =
  marg (flat g) (fun t _ x y z => Q t x y z * Sum (nv g) (fun v => V t v x y)) S i.
Proof.
  intros HS. unfold marg. rewrite HS. cbn [over Sum flat nt nv nx ny nz].
  apply over_ext_all. intros t. rewrite Sum_over_comm, Rplus_0_l. apply over_ext_all. intros x.
  rewrite Sum_over_comm. apply over_ext_all. intros y. rewrite Sum_over_comm. apply over_ext_all. intros z.
  apply Sum_scal.
Qed.
Lemma marg_minus g P Q S i : marg g P S i - marg g Q S i = marg g (fun t v x y z => P t v x y z - Q t v x y z) S i.
Proof.
  assert (HO : forall b n k f h, over b n k f - over b n k h = over b n k (fun j => f j - h j)).
  { intros [|] n k f h; cbn [over]; [reflexivity|]. rewrite Sum_minus. reflexivity. }
  unfold marg. rewrite HO. apply over_ext_all; intros t. rewrite HO. apply over_ext_all; intros v. rewrite HO. apply over_ext_all; intros x.
  rewrite HO. apply over_ext_all; intros y. rewrite HO. reflexivity.
Qed.

Lemma lost_mass g m S i : has_v S = false ->
  par_prob g m false S i - Sum (nv g) (fun v => par_prob g m false (with_v true S) (set_v v i)) =
  marg (flat g) (fun t _ x y z => txz_mass g m t x y z * lost g m t x y) S i.
Proof.
  intros HS.
  assert (E1 : par_prob g m false S i = marg (flat g) (fun t _ x y z => txz_mass g m t x y z * 1) S i).
  { unfold par_prob, pprob, pjoint. rewrite HS. reflexivity. }
  assert (E2 : Sum (nv g) (fun v => par_prob g m false (with_v true S) (set_v v i)) =
               marg g (fun t v x y z => txz_mass g m t x y z * vbin g m t v x y) S i).
  { unfold par_prob, pprob, pjoint. cbn [with_v has_v pgrid].
    rewrite marg_sum_v. f_equal. unfold with_v. rewrite <- HS. destruct S; reflexivity. }
  rewrite E1, E2, (marg_flat_v g (txz_mass g m) (fun t v x y => vbin g m t v x y)) by assumption. rewrite marg_minus. unfold marg.
  apply over_ext_all; intros t. apply over_ext_all; intros v. apply over_ext_all; intros x. apply over_ext_all; intros y. apply over_ext_all; intros z.
  unfold lost. ring.
Qed.

Section Par.
Context (L : stats_lib) (self : par) (g : grid) (m : par_model).
Context (H : par_on L self g m) (Hg : good_grid g) (Hm : good_par g m).

Lemma lost_claim S : nonempty S = true -> has_v S = false ->
  exists a b, par_get_p L self (name S) false false = Ok a /\ par_get_p L self (name (with_v true S)) false false = Ok b /\
    forall i, in_grid g i -> exists p q, ent a (coords S i) = Fin p /\
      (forall v, (v < nv g)%nat -> ent b (coords (with_v true S) (set_v v i)) = Fin (q v)) /\
      p - Sum (nv g) q = marg (flat g) (fun t _ x y z => txz_mass g m t x y z *
        (pm_F m ((vE g 0 - pm_mu m t x y) / pm_sig m t x y) + (1 - pm_F m ((vE g (nv g) - pm_mu m t x y) / pm_sig m t x y)))) S i.
Proof.
  intros Hne HS.
  destruct (par_p_marg L self g m H Hg Hm S false false Hne ltac:(discriminate)) as (a & Ea & _ & Va).
  assert (Hne' : nonempty (with_v true S) = true) by (unfold nonempty, with_v; cbn; destruct (has_t S); reflexivity).
  destruct (par_p_marg L self g m H Hg Hm (with_v true S) false false Hne' ltac:(discriminate)) as (b & Eb & _ & Vb).
  exists a, b. split; [exact Ea|]. split; [exact Eb|]. intros i Hi.
  exists (par_prob g m false S i), (fun v => par_prob g m false (with_v true S) (set_v v i)). split; [|split].
  - rewrite Va by assumption. unfold pent. f_equal. field.
  - intros v Hv. rewrite Vb by (destruct Hi as (? & ? & ? & ? & ?); repeat split; assumption). unfold pent. f_equal. field.
  - rewrite lost_mass by assumption. unfold marg.
    apply over_ext_all; intros t. apply over_ext_all; intros v. apply over_ext_all; intros x. apply over_ext_all; intros y. apply over_ext_all; intros z.
    rewrite lost_tails. reflexivity.
Qed.

Lemma lost_strict t : good_norm (pm_F m) -> (t < nt g)%nat -> 0 < pm_t m t ->
  exists a b, par_get_p L self "t" false false = Ok a /\ par_get_p L self "tv" false false = Ok b /\
    exists p q, ent a [t] = Fin p /\ (forall v, (v < nv g)%nat -> ent b [t; v] = Fin (q v)) /\ Sum (nv g) q < p.
Proof.
  intros HN Ht Hpt.
  destruct (lost_claim (VSet true false false false) eq_refl eq_refl) as (a & b & Ea & Eb & HV).
  exists a, b. split; [exact Ea|]. split; [exact Eb|].
  destruct (HV (Bin t 0 0 0 0)) as (p & q & Hp & Hq & HE).
  { repeat split; cbn; [assumption|apply (gg_v _ Hg)|apply (gg_x _ Hg)|apply (gg_y _ Hg)|apply (gg_z _ Hg)]. }
  exists p, q. split; [exact Hp|]. split; [exact Hq|].
  enough (0 < p - Sum (nv g) q) by lra. rewrite HE. unfold marg. cbn [over has_t has_v has_x has_z flat nv nx ny nz bt Sum]. rewrite Rplus_0_l.
  set (tails := fun x y => pm_F m ((vE g 0 - pm_mu m t x y) / pm_sig m t x y) + (1 - pm_F m ((vE g (nv g) - pm_mu m t x y) / pm_sig m t x y))).
  assert (HT : forall x y, 0 < tails x y).
  { intros. unfold tails. pose proof (proj1 HN ((vE g 0 - pm_mu m t x y) / pm_sig m t x y)).
    pose proof (proj1 HN ((vE g (nv g) - pm_mu m t x y) / pm_sig m t x y)). lra. }
  pose proof (wid_pos _ _ t (gg_tE _ Hg) Ht) as Wt.
  assert (Wx : forall x, (x < nx g)%nat -> 0 < wid (xE g) x) by (intros; apply (wid_pos _ _ _ (gg_xE _ Hg)); assumption).
  assert (Wy : forall x, (x < ny g)%nat -> 0 < wid (yE g) x) by (intros; apply (wid_pos _ _ _ (gg_yE _ Hg)); assumption).
  apply Rlt_le_trans with (Sum (nx g) (fun x => Sum (ny g) (fun y => pm_t m t * wid (tE g) t * (pm_x m t x y * (wid (xE g) x * wid (yE g) y)) * tails x y))).
  - (* some pixel has positive p(x|t) *)
    assert (HX : exists x y, (x < nx g)%nat /\ (y < ny g)%nat /\ 0 < pm_x m t x y * (wid (xE g) x * wid (yE g) y)).
    { pose proof (gp_x1 _ _ Hm t Ht) as H1.
      destruct (Classical_Prop.classic (exists x y, (x < nx g)%nat /\ (y < ny g)%nat /\ 0 < pm_x m t x y * (wid (xE g) x * wid (yE g) y))) as [K|K]; [exact K|].
      exfalso. assert (Sum (nx g) (fun x => Sum (ny g) (fun y => pm_x m t x y * (wid (xE g) x * wid (yE g) y))) <= Sum (nx g) (fun _ => 0)).
      { apply Sum_le. intros x Hx. apply Rle_trans with (Sum (ny g) (fun _ => 0)); [|rewrite Sum_0; lra].
        apply Sum_le. intros y Hy. apply Rnot_lt_le. intros K'. apply K. exists x, y. repeat split; assumption. }
      rewrite Sum_0 in *. lra. }
    destruct HX as (x0 & y0 & Hx0 & Hy0 & Hpos).
    assert (Hterm : forall x y, (x < nx g)%nat -> (y < ny g)%nat -> 0 <= pm_t m t * wid (tE g) t * (pm_x m t x y * (wid (xE g) x * wid (yE g) y)) * tails x y).
    { intros x y Hx Hy. apply Rmult_le_pos; [|left; apply HT]. apply Rmult_le_pos; [apply Rmult_le_pos; lra|].
      apply Rmult_le_pos; [apply (gp_x _ _ Hm); assumption|]. apply Rmult_le_pos; left; [apply Wx|apply Wy]; assumption. }
    apply Sum_pos with x0; [assumption|intros; apply Sum_nonneg; intros; apply Hterm; assumption|].
    apply Sum_pos with y0; [assumption|intros; apply Hterm; assumption|].
    apply Rmult_lt_0_compat; [|apply HT]. apply Rmult_lt_0_compat; [apply Rmult_lt_0_compat; assumption|assumption].
  - apply Req_le. apply Sum_ext. intros x Hx. apply Sum_ext. intros y Hy. unfold txz_mass. fold (tails x y).
    rewrite <- (Rmult_1_r (pm_t m t * wid (tE g) t * (pm_x m t x y * (wid (xE g) x * wid (yE g) y)))) at 1.
    rewrite <- (gp_z1 _ _ Hm t x y Ht Hx Hy), <- Sum_scal, <- Sum_scal_r. reflexivity.
Qed.

(** the three stored factors are returned as they are, whatever the probability
    of the condition *)
Lemma x_t_query (density : bool) : exists a, par_get_p L self "x_t" density false = Ok a /\ shp a = [nx g; ny g; nt g] /\
  forall t x y, (t < nt g)%nat -> (x < nx g)%nat -> (y < ny g)%nat ->
    ent a [x; y; t] = Fin (pm_x m t x y * (if density then 1 else wid (xE g) x * wid (yE g) y)).
Proof.
  destruct (x_t_mw_ok L self g m H Hg Hm density) as (a & E & Hs & He).
  pose proof (log_cond_special L self "x_t" _ density false a eq_refl eq_refl (ex_intro _ _ (ex_intro _ _ eq_refl)) E) as E'.
  unfold par_get_p, get_p_of, get_log_p_of. cbn [has_char]. change (has_char "_" "x_t") with true. cbn iota. rewrite E'. cbn [bind].
  eexists; split; [reflexivity|]. split; [exact Hs|]. intros t x y H1 H2 H3. cbn [amap ent]. rewrite He by inbs.
  rewrite <- (px_area_at L self g m H Hg x y) by assumption. unfold dn.
  apply nexp_lg. apply Rmult_le_pos; [apply (gp_x _ _ Hm); assumption|].
  destruct density; [lra|]. apply Rmult_le_pos; left; [apply (wid_pos _ _ _ (gg_xE _ Hg))|apply (wid_pos _ _ _ (gg_yE _ Hg))]; assumption.
Qed.
Lemma z_tx_query (density : bool) : exists a, par_get_p L self "z_tx" density false = Ok a /\ shp a = [nz g; nt g; nx g; ny g] /\
  forall t x y z, (t < nt g)%nat -> (x < nx g)%nat -> (y < ny g)%nat -> (z < nz g)%nat ->
    ent a [z; t; x; y] = Fin (pm_z m t x y z * (if density then 1 else wid (zE g) z)).
Proof.
  destruct (z_tx_mw_ok L self g m H Hg Hm density) as (a & E & Hs & He).
  pose proof (log_cond_special L self "z_tx" _ density false a eq_refl eq_refl (ex_intro _ _ (ex_intro _ _ eq_refl)) E) as E'.
  unfold par_get_p, get_p_of, get_log_p_of. change (has_char "_" "z_tx") with true. cbn iota. rewrite E'. cbn [bind].
  eexists; split; [reflexivity|]. split; [exact Hs|]. intros t x y z H1 H2 H3 H4. cbn [amap ent]. rewrite He by inbs. unfold dn.
  apply nexp_lg. apply Rmult_le_pos; [apply (gp_z _ _ Hm); assumption|].
  destruct density; [lra|]. left; apply (wid_pos _ _ _ (gg_zE _ Hg)); assumption.
Qed.
Lemma v_tx_query (density : bool) : exists a, par_get_p L self "v_tx" density false = Ok a /\ shp a = [nv g; nt g; nx g; ny g] /\
  forall t v x y, (t < nt g)%nat -> (v < nv g)%nat -> (x < nx g)%nat -> (y < ny g)%nat ->
    ent a [v; t; x; y] = Fin (vbin g m t v x y / (if density then wid (vE g) v else 1)).
Proof.
  destruct (v_tx_mw_ok L self g m H Hg Hm density) as (a & E & Hs & He).
  pose proof (log_cond_special L self "v_tx" _ density false a eq_refl eq_refl (ex_intro _ _ (ex_intro _ _ eq_refl)) E) as E'.
  unfold par_get_p, get_p_of, get_log_p_of. change (has_char "_" "v_tx") with true. cbn iota. rewrite E'. cbn [bind].
  eexists; split; [reflexivity|]. split; [exact Hs|]. intros t v x y H1 H2 H3 H4. cbn [amap ent]. rewrite He by inbs.
  apply nexp_lg. apply Rmult_le_pos; [apply vbin_nonneg; assumption|].
  left. apply Rinv_0_lt_compat. destruct density; [apply (wid_pos _ _ _ (gg_vE _ Hg)); assumption|lra].
Qed.

(** mass weighted p(v|t,x) sums to less than one, light weighted to one *)
Lemma v_tx_sums : par_lw_ok g m true true ->
  exists a b, par_get_p L self "v_tx" false false = Ok a /\ par_get_p L self "v_tx" false true = Ok b /\
    forall t x y, (t < nt g)%nat -> (x < nx g)%nat -> (y < ny g)%nat ->
      (exists q, (forall v, (v < nv g)%nat -> ent a [v; t; x; y] = Fin (q v)) /\
         Sum (nv g) q = pm_F m ((vE g (nv g) - pm_mu m t x y) / pm_sig m t x y) - pm_F m ((vE g 0 - pm_mu m t x y) / pm_sig m t x y)) /\
      (0 < Sum (nv g) (fun v => par_prob g m true (VSet true true true false) (Bin t v x y 0)) ->
       exists q, (forall v, (v < nv g)%nat -> ent b [v; t; x; y] = Fin (q v)) /\ Sum (nv g) q = 1).
Proof.
  intros Hl. destruct (v_tx_query false) as (a & Ea & _ & Va).
  destruct (v_tx_lw_ok L self g m H Hg Hm false Hl) as (b & E & Hs & He).
  pose proof (log_cond_special L self "v_tx" _ false true b eq_refl eq_refl (ex_intro _ _ (ex_intro _ _ eq_refl)) E) as E'.
  exists a. eexists. split; [exact Ea|]. split.
  { unfold par_get_p, get_p_of, get_log_p_of. change (has_char "_" "v_tx") with true. cbn iota. rewrite E'. reflexivity. }
  intros t x y H1 H2 H3. split.
  - exists (fun v => vbin g m t v x y). split; [intros v Hv; rewrite Va by assumption; f_equal; field|].
    pose proof (lost_tails g m t x y) as HL. unfold lost in HL. lra.
  - intros Hpos. set (Z := Sum (nv g) _) in Hpos.
    exists (fun v => par_prob g m true (VSet true true true false) (Bin t v x y 0) / Z). split.
    + intros v Hv. cbn [amap ent]. rewrite He by inbs. cbv zeta. fold Z. unfold cond_entry.
      match goal with |- context [Rlt_dec 0 ?z] => change z with Z end.
      destruct (Rlt_dec 0 Z); [|lra]. replace (par_prob g m true (VSet true true true false) (Bin t v x y 0) / 1) with (par_prob g m true (VSet true true true false) (Bin t v x y 0)) by field. apply nexp_lg.
      apply Rmult_le_pos; [|left; apply Rinv_0_lt_compat; assumption].
      apply (par_prob_ge0 g m Hg Hm); [assumption|]. repeat split; cbn; try assumption. apply (gg_z _ Hg).
    + unfold Rdiv. rewrite Sum_scal_r. fold Z. apply Rinv_r. lra.
Qed.
End Par.

(** ** light weighting of a component with positive densities and light *)
Lemma par_light g m b : good_grid g -> good_par g m ->
  (forall t z, (t < nt g)%nat -> (z < nz g)%nat -> 0 < Lw g t z) ->
  (forall t x y, (t < nt g)%nat -> (x < nx g)%nat -> (y < ny g)%nat -> 0 < pm_x m t x y) ->
  (forall t x y z, (t < nt g)%nat -> (x < nx g)%nat -> (y < ny g)%nat -> (z < nz g)%nat -> 0 < pm_z m t x y z) ->
  (exists t, (t < nt g)%nat /\ 0 < pm_t m t) -> good_norm (pm_F m) -> par_lw_ok g m true b.
Proof.
  intros Hg Hm HL HX HZ (t0 & Ht0 & Hpt) HN _.
  pose proof (gg_v _ (good_pgrid g b Hg)) as Hv0.
  pose proof (good_pgrid g b Hg) as Hg'.
  assert (Hnn : nonneg (pgrid g b) (lit (pgrid g b) (pjoint g m b))).
  { intros t v x y z Ht Hv Hx Hy Hz. unfold lit. apply Rmult_le_pos; [apply pjoint_nonneg; assumption|].
    apply (gg_L _ Hg'); assumption. }
  assert (Hd : nt (pgrid g b) = nt g /\ nx (pgrid g b) = nx g /\ ny (pgrid g b) = ny g /\ nz (pgrid g b) = nz g) by (destruct b; repeat split; reflexivity).
  destruct Hd as (D1 & D2 & D3 & D4).
  unfold total. apply Sum_pos with t0; [rewrite D1; assumption| |].
  { intros; do 4 (apply Sum_nonneg; intros). apply Hnn; assumption. }
  apply Sum_pos with 0%nat; [assumption| |].
  { intros; do 3 (apply Sum_nonneg; intros). apply Hnn; try assumption. rewrite D1; assumption. }
  apply Sum_pos with 0%nat; [apply (gg_x _ Hg')| |].
  { intros; do 2 (apply Sum_nonneg; intros). apply Hnn; try assumption. rewrite D1; assumption. }
  apply Sum_pos with 0%nat; [apply (gg_y _ Hg')| |].
  { intros; apply Sum_nonneg; intros. apply Hnn; try assumption; [rewrite D1; assumption|apply (gg_x _ Hg')]. }
  apply Sum_pos with 0%nat; [apply (gg_z _ Hg')| |].
  { intros; apply Hnn; try assumption; [rewrite D1; assumption|apply (gg_x _ Hg')|apply (gg_y _ Hg')]. }
  unfold lit. apply Rmult_lt_0_compat.
  2:{ replace (Lw (pgrid g b)) with (Lw g) by (destruct b; reflexivity). apply HL; [assumption|apply (gg_z _ Hg)]. }
  unfold pjoint. apply Rmult_lt_0_compat.
  - unfold txz_mass. apply Rmult_lt_0_compat; [apply Rmult_lt_0_compat|]; apply Rmult_lt_0_compat.
    + assumption. + apply (wid_pos _ _ _ (gg_tE _ Hg)); assumption.
    + apply HX; [assumption|apply (gg_x _ Hg)|apply (gg_y _ Hg)].
    + apply Rmult_lt_0_compat; [apply (wid_pos _ _ _ (gg_xE _ Hg)), (gg_x _ Hg)|apply (wid_pos _ _ _ (gg_yE _ Hg)), (gg_y _ Hg)].
    + apply HZ; [assumption|apply (gg_x _ Hg)|apply (gg_y _ Hg)|apply (gg_z _ Hg)].
    + apply (wid_pos _ _ _ (gg_zE _ Hg)), (gg_z _ Hg).
  - destruct b; [|lra]. unfold vbin. apply Rlt_Rminus. apply (proj2 HN).
    pose proof (gp_sig _ _ Hm t0 0%nat 0%nat Ht0 (gg_x _ Hg) (gg_y _ Hg)).
    apply Rmult_lt_compat_r; [apply Rinv_0_lt_compat; assumption|]. pose proof (gg_vE _ Hg 0%nat (gg_v _ Hg)). lra.
Qed.

Lemma some_age L g f : good_grid g -> sfh_ok L f -> exists t, (t < nt g)%nat /\ 0 < sfh_mass g (sfh_cdf L f) t / wid (tE g) t.
Proof.
  intros Hg Hf. pose proof (sfh_total g _ Hg (so_cdf _ _ Hf)) as HT.
  destruct (Classical_Prop.classic (exists t, (t < nt g)%nat /\ 0 < sfh_mass g (sfh_cdf L f) t)) as [(t & Ht & Hp)|K].
  - exists t. split; [assumption|]. apply Rdiv_lt_0_compat; [assumption|]. apply (wid_pos _ _ _ (gg_tE _ Hg)); assumption.
  - exfalso. assert (Sum (nt g) (sfh_mass g (sfh_cdf L f)) <= Sum (nt g) (fun _ => 0)).
    { apply Sum_le. intros t Ht. apply Rnot_lt_le. intros K'. apply K. exists t. split; assumption. }
    rewrite Sum_0 in *. lra.
Qed.

Definition positive_light (g : grid) : Prop := forall t z, (t < nt g)%nat -> (z < nz g)%nat -> 0 < Lw g t z.

Section BuiltLight.
Context (L : stats_lib) (c : cube) (g : grid) (X0 Y0 : map2d) (x0 y0 rot : R) (f : sfh_args).
Context (Hc : cube_on c g) (Hg : good_grid g) (Hxy0 : cube_xy c g X0 Y0) (Hf : sfh_ok L f) (HN : good_norm (norm_cdf L)).

Lemma disk_represents d : disk_ok d ->
  (exists x y, (x < nx g)%nat /\ (y < ny g)%nat /\ cos rot * (X0 x y - x0) <> sin rot * (Y0 x y - y0)) ->
  exists self m, build_disk L c (x0, y0) rot f d = Ok self /\ par_on L self g m /\ good_par g m /\
    (positive_light g -> forall b, par_lw_ok g m true b).
Proof.
  intros Hd (x & y & Hx & Hy & Hne).
  set (X := fun x y => rot_x rot (X0 x y - fst (x0, y0)) (Y0 x y - snd (x0, y0))).
  assert (HM : 0 < max_abs g X).
  { apply Rlt_le_trans with (Rabs (X x y)); [|apply max_abs_ge; assumption]. apply Rabs_pos_lt.
    unfold X, rot_x. cbn [fst snd]. lra. }
  destruct (disk_built L c g X0 Y0 (x0, y0) rot f Hc Hg Hxy0 Hf HN d Hd HM) as (self & E & _ & _ & _ & Hon & Hgood).
  eexists self, _. split; [exact E|]. split; [exact Hon|]. split; [exact Hgood|].
  intros HL b. apply par_light; try assumption.
  - intros. apply disk_px_pos; assumption.
  - intros. apply pz_pos; assumption.
  - exact (some_age L g f Hg Hf).
Qed.
Lemma stream_represents d : stream_ok d ->
  exists self m, build_stream L c (x0, y0) rot f d = Ok self /\ par_on L self g m /\ good_par g m /\
    (positive_light g -> forall b, par_lw_ok g m true b).
Proof.
  intros Hd.
  destruct (stream_built L c g X0 Y0 (x0, y0) rot f Hc Hg Hxy0 Hf HN d Hd) as (self & E & _ & _ & _ & Hon & Hgood).
  eexists self, _. split; [exact E|]. split; [exact Hon|]. split; [exact Hgood|].
  intros HL b. apply par_light; try assumption.
  - intros. apply stream_px_pos; try assumption; [apply (sk_sig _ Hd)|apply (sk_n _ Hd)].
  - intros. apply pz_pos; assumption.
  - exact (some_age L g f Hg Hf).
Qed.
End BuiltLight.

(** ** C49 *)
Section Queries.
Context (L : stats_lib) (self : par) (g : grid) (m : par_model).
Context (H : par_on L self g m) (Hg : good_grid g) (Hm : good_par g m).

Lemma par_cond_claim A C (density lw : bool) :
  nonempty A = true -> nonempty C = true -> disjoint A C = true -> par_lw_ok g m lw (has_v (union A C)) ->
  (lw = true -> cname A C <> "v_tx"%string) ->
  exists a, par_get_p L self (cname A C) density lw = Ok a /\ shp a = (dims A g ++ dims C g)%list /\
    forall i, in_grid g i ->
      (0 < par_prob g m lw C i -> ent a (coords A i ++ coords C i) =
        Fin (par_prob g m lw (union A C) i / par_prob g m lw C i / (if density then vol g A i else 1))) /\
      (par_prob g m lw C i = 0 -> lw = true \/ ~ In (cname A C) ["x_t"; "z_tx"; "v_tx"]%string ->
        ent a (coords A i ++ coords C i) = NaN).
Proof.
  intros HA HC HD Hl Hv.
  destruct (par_p_cond L self g m H Hg Hm A C density lw HA HC HD Hl) as (a & E & Hs & V).
  { destruct lw; [|reflexivity]. cbn. unfold is_v_tx. apply String.eqb_neq. apply Hv. reflexivity. }
  exists a. split; [exact E|]. split; [exact Hs|]. intros i Hi. destruct (V i Hi) as [V1 V2]. split; [exact V1|].
  intros Hz Hor. apply V2; [assumption|]. destruct lw; [apply andb_false_r|]. destruct Hor as [K|K]; [discriminate|].
  rewrite andb_true_r. apply not_true_is_false. intros Hsp. apply K.
  destruct (special_cases A C Hsp HA HC HD) as [[-> ->]|[[-> ->]|[-> ->]]]; cbn; tauto.
Qed.

Lemma par_v_tx_claim (density : bool) : par_lw_ok g m true true ->
  exists a, par_get_p L self "v_tx" density true = Ok a /\ shp a = [nv g; nt g; nx g; ny g] /\
    forall i, in_grid g i -> let P v := par_prob g m true (VSet true true true false) (set_v v i) in
      (0 < Sum (nv g) P -> ent a [bv i; bt i; bx i; by_ i] =
         Fin (P (bv i) / Sum (nv g) P / (if density then wid (vE g) (bv i) else 1))) /\
      (Sum (nv g) P = 0 -> ent a [bv i; bt i; bx i; by_ i] = NaN).
Proof.
  intros Hl. destruct (par_log_v_tx L self g m H Hg Hm density Hl) as (a & E & Hs & V).
  unfold par_get_p, get_p_of. unfold par_get_log_p in E. rewrite E. cbn [bind].
  eexists; split; [reflexivity|]. split; [exact Hs|]. intros i Hi. set (P := fun v => par_prob g m true (VSet true true true false) (set_v v i)). cbn [amap ent].
  assert (EP : par_prob g m true (VSet true true true false) i = P (bv i)) by (unfold P; destruct i; reflexivity).
  rewrite V by assumption. fold P. rewrite EP. unfold cond_entry.
  assert (W : 0 < (if density then wid (vE g) (bv i) else 1)).
  { destruct density; [|lra]. apply (wid_pos _ _ _ (gg_vE _ Hg)). apply Hi. }
  split.
  - intros Hp. destruct (Rlt_dec 0 (Sum (nv g) P)); [|contradiction].
    rewrite nexp_lg. { fold (P (bv i)). f_equal; field; lra. }
    apply Rmult_le_pos; [|left; apply Rinv_0_lt_compat; assumption]. apply Rmult_le_pos; [|left; apply Rinv_0_lt_compat; assumption].
    rewrite <- EP. apply (par_prob_ge0 g m Hg Hm); assumption.
  - intros ->. destruct (Rlt_dec 0 0); [lra|reflexivity].
Qed.
End Queries.
