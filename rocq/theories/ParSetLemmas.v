(** * ParSetLemmas: construction, set_p_t and age interpolation (claims C41-C43). *)
From Coq Require Import Reals Lra Lia List Bool Arith ZArith String Ascii.
From Verif Require Import Num NumLemmas Arr ArrLemmas PyStr Cube Base Parametric Spec SpecLemmas Repr
  ParSpec ParRepr ParSetSpec CubeLemmas VecLemmas CubeGeom BaseLemmas CondLemmas ParLemmas.
Import ListNotations.
Local Open Scope R_scope.

(** component coordinates of the pixels *)
Definition xy_on (self : par) (g : grid) (X Y : map2d) : Prop :=
  arr_is (pa_xxp self) [nx g; ny g] (fun idx => match idx with [x; y] => Fin (X x y) | _ => NaN end) /\
  arr_is (pa_yyp self) [nx g; ny g] (fun idx => match idx with [x; y] => Fin (Y x y) | _ => NaN end).
(** cube coordinates of the pixels *)
Definition cube_xy (c : cube) (g : grid) (X Y : map2d) : Prop :=
  arr_is (c_xx c) [nx g; ny g] (fun idx => match idx with [x; y] => Fin (X x y) | _ => NaN end) /\
  arr_is (c_yy c) [nx g; ny g] (fun idx => match idx with [x; y] => Fin (Y x y) | _ => NaN end).

Definition rot_x (a x y : R) : R := cos a * x + - sin a * y.
Definition rot_y (a x y : R) : R := sin a * x + cos a * y.

Lemma z_grid_ok n c g : cube_on c g -> good_grid g ->
  exists zg, z_interpolation_grid n c = Ok zg /\
    arr_is (zg_z zg) [n; nt g] (fun idx => match idx with
      | [i; t] => Fin (np_interp n (fun k => grid_t (tE g (nt g)) (grid_t_dep n i) (grid_z n k)) (grid_z n) (mid (tE g) t))
      | _ => NaN end) /\
    arr_is (zg_t_dep zg) [n] (fun idx => match idx with [i] => Fin (grid_t_dep n i) | _ => NaN end).
Proof.
  intros Hc Hg. pose proof (co_ssps _ _ Hc) as Hs. unfold z_interpolation_grid.
  destruct (vec_last _ _ _ (so_te _ _ Hs)) as (e & E & V). rewrite E. cbn [bind].
  eexists; split; [reflexivity|]. pose proof (so_tc _ _ Hs) as Hv. cbn [zg_z zg_t_dep]. split.
  - split.
    + cbn [shp]. rewrite (vec_len _ _ _ Hv). reflexivity.
    + intros idx Hi; inb_inv. cbn [ent]. rewrite V. rewrite (proj2 Hv) by assumption. reflexivity.
  - split; [reflexivity|]. intros idx Hi; inb_inv. reflexivity.
Qed.

Lemma par_init_ok c g X Y center rotation : cube_on c g -> good_grid g -> cube_xy c g X Y ->
  exists self, par_init c center rotation = Ok self /\ pa_cube self = c /\
    xy_on self g (fun x y => rot_x rotation (X x y - fst center) (Y x y - snd center))
                 (fun x y => rot_y rotation (X x y - fst center) (Y x y - snd center)) /\
    z_interpolation_grid n_grid c = Ok (pa_zgrid self) /\
    pa_t_pars self = None /\ pa_log_p_t self = None /\ pa_log_p_x_t self = None /\ pa_t_dep self = None /\
    pa_log_p_z_tx self = None /\ pa_mu_v self = None /\ pa_sig_v self = None /\ pa_theta_lims self = None.
Proof.
  intros Hc Hg [HX HY]. unfold par_init.
  pose proof (scal_is (Fin (fst center))) as S1. pose proof (scal_is (Fin (snd center))) as S2.
  s_bop. s_bop. s_bop. s_bop.
  destruct (z_grid_ok n_grid c g Hc Hg) as (zg & Ez & _). rewrite Ez. cbn [bind].
  eexists; split; [reflexivity|]. split; [reflexivity|]. split.
  - split; cbn [pa_xxp pa_yyp].
    + eapply arr_is_ext; [eassumption|]. intros idx Hi. inb_inv. cbn [bidx map2 skipn List.length Nat.sub]. picks.
      rewrite !nsub_Fin. cbn [nneg]. rewrite !nmul_Fin, nadd_Fin. reflexivity.
    + eapply arr_is_ext; [eassumption|]. intros idx Hi. inb_inv. cbn [bidx map2 skipn List.length Nat.sub]. picks.
      rewrite !nsub_Fin. rewrite !nmul_Fin, nadd_Fin. reflexivity.
  - repeat split; assumption.
Qed.

Lemma cube_init_xy s g nx1 nx2 nvel x1 x2 v c :
  ssps_on s g -> (0 < nx1)%nat -> (0 < nx2)%nat -> (0 < nvel)%nat -> cube_init s nx1 nx2 nvel x1 x2 v = Ok c ->
  cube_on c (cube_grid g nx1 nx2 nvel x1 x2 v) /\
  cube_xy c (cube_grid g nx1 nx2 nvel x1 x2 v)
    (fun x y => mid (lin (fst x1) (snd x1) nx1) x) (fun x y => mid (lin (fst x2) (snd x2) nx2) y).
Proof.
  intros Hs H1 H2 H3 E. destruct (cube_init_ok s g nx1 nx2 nvel x1 x2 v Hs H1 H2 H3) as (c' & E' & Hc & S1 & S2 & He).
  rewrite E in E'. injection E' as <-. split; [assumption|]. split.
  - split; [exact S1|]. intros idx Hi; inb_inv. apply He; assumption.
  - split; [exact S2|]. intros idx Hi; inb_inv. apply He; assumption.
Qed.

(** rotations *)
Lemma sc1 a : cos a * cos a + sin a * sin a = 1.
Proof. pose proof (sin2_cos2 a). unfold Rsqr in *. lra. Qed.
Lemma rot_dist a x y x' y' :
  (rot_x a x y - rot_x a x' y') ^ 2 + (rot_y a x y - rot_y a x' y') ^ 2 = (x - x') ^ 2 + (y - y') ^ 2.
Proof.
  unfold rot_x, rot_y.
  transitivity ((cos a * cos a + sin a * sin a) * ((x - x') ^ 2 + (y - y') ^ 2)); [ring|rewrite sc1; ring].
Qed.
Lemma rot_major a r : rot_x a (r * cos (- a)) (r * sin (- a)) = r /\ rot_y a (r * cos (- a)) (r * sin (- a)) = 0.
Proof.
  unfold rot_x, rot_y. rewrite cos_neg, sin_neg. split; [|ring].
  transitivity (r * (cos a * cos a + sin a * sin a)); [ring|rewrite sc1; ring].
Qed.
Lemma rot_minor a r : rot_x a (r * cos (PI / 2 - a)) (r * sin (PI / 2 - a)) = 0 /\
  rot_y a (r * cos (PI / 2 - a)) (r * sin (PI / 2 - a)) = r.
Proof.
  unfold rot_x, rot_y. rewrite cos_shift, sin_shift. split; [ring|].
  transitivity (r * (cos a * cos a + sin a * sin a)); [ring|rewrite sc1; ring].
Qed.

(** C41: positions relative to the centre, in polar coordinates, turn by the rotation angle *)
Lemma geometry_claim c g X Y x0 y0 a : cube_on c g -> good_grid g -> cube_xy c g X Y ->
  exists self X' Y', par_init c (x0, y0) a = Ok self /\ xy_on self g X' Y' /\
    (forall i j k l, (i < nx g)%nat -> (j < ny g)%nat -> (k < nx g)%nat -> (l < ny g)%nat ->
      (X' i j - X' k l) ^ 2 + (Y' i j - Y' k l) ^ 2 = (X i j - X k l) ^ 2 + (Y i j - Y k l) ^ 2) /\
    (forall i j r th, (i < nx g)%nat -> (j < ny g)%nat ->
      X i j = x0 + r * cos (th - a) -> Y i j = y0 + r * sin (th - a) ->
      X' i j = r * cos th /\ Y' i j = r * sin th).
Proof.
  intros Hc Hg Hxy. destruct (par_init_ok c g X Y (x0, y0) a Hc Hg Hxy) as (self & E & _ & H & _).
  eexists; eexists; eexists. split; [exact E|]. split; [exact H|]. split.
  - intros i j k l Hi Hj Hk Hl. cbn [fst snd]. rewrite rot_dist. ring.
  - intros i j r th Hi Hj -> ->. cbn [fst snd]. unfold rot_x, rot_y. rewrite cos_minus, sin_minus.
    split.
    + transitivity (r * cos th * (cos a * cos a + sin a * sin a)); [ring|rewrite sc1; ring].
    + transitivity (r * sin th * (cos a * cos a + sin a * sin a)); [ring|rewrite sc1; ring].
Qed.

(** age interpolation *)
Definition t_pars_on (self : par) (s e : R) : Prop :=
  pa_t_pars self = Some (TPars (Fin s) (Fin e) (Fin (e - s))) /\ s < e.

Lemma interp_entry s e young old tau : s < e ->
  (if nlt (Fin e) (Fin tau) then Fin old
   else if nlt (Fin tau) (Fin s) then Fin young
   else nadd (Fin young) (nmul (ndiv (nsub (Fin old) (Fin young)) (Fin (e - s))) (nsub (Fin tau) (Fin s))))
  = Fin (at_age s e (young, old) tau).
Proof.
  intros H. cbn [nlt]. unfold at_age, Rltb. destruct (Rlt_dec e tau).
  - destruct (Rlt_dec tau s); [lra|reflexivity].
  - destruct (Rlt_dec tau s); [reflexivity|].
    rewrite !nsub_Fin, ndiv_Fin, nmul_Fin, nadd_Fin by lra. cbn [fst snd]. f_equal. field. lra.
Qed.

Lemma interp_ok self g s e young old : cube_on (pa_cube self) g -> t_pars_on self s e ->
  exists a, linear_interpolate_t self (Fin young) (Fin old) = Ok a /\
    vec a (nt g) (fun t => at_age s e (young, old) (mid (tE g) t)).
Proof.
  intros Hc [Hp Hse]. unfold linear_interpolate_t. rewrite Hp. cbn [attr bind tp_start tp_end tp_delta].
  eexists; split; [reflexivity|]. destruct (so_tc _ _ (co_ssps _ _ Hc)) as [S1 S2].
  split; [exact S1|]. intros i Hi. cbn [amap ent]. rewrite S2 by assumption. apply interp_entry; assumption.
Qed.

Lemma at_age_young s e yo tau : tau <= s -> s < e -> at_age s e yo tau = fst yo.
Proof.
  intros. unfold at_age. destruct (Rlt_dec tau s); [reflexivity|]. destruct (Rlt_dec e tau); [lra|].
  replace tau with s by lra. replace (s - s) with 0 by ring. unfold Rdiv; ring.
Qed.
Lemma at_age_old s e yo tau : e <= tau -> s < e -> at_age s e yo tau = snd yo.
Proof.
  intros. unfold at_age. destruct (Rlt_dec tau s); [lra|]. destruct (Rlt_dec e tau); [reflexivity|].
  replace tau with e by lra. field. lra.
Qed.
Lemma at_age_mid s e yo tau : s <= tau <= e -> at_age s e yo tau = fst yo + (snd yo - fst yo) * ((tau - s) / (e - s)).
Proof. intros. unfold at_age. destruct (Rlt_dec tau s); [lra|]. destruct (Rlt_dec e tau); [lra|reflexivity]. Qed.
(** a convex combination whose weight does not decrease with age *)
Definition age_w (s e tau : R) : R := if Rlt_dec tau s then 0 else if Rlt_dec e tau then 1 else (tau - s) / (e - s).
Lemma at_age_w s e yo tau : at_age s e yo tau = fst yo + (snd yo - fst yo) * age_w s e tau.
Proof. unfold at_age, age_w. destruct (Rlt_dec tau s); [ring|]. destruct (Rlt_dec e tau); ring. Qed.
Lemma age_w_01 s e tau : s < e -> 0 <= age_w s e tau <= 1.
Proof.
  intros. unfold age_w. destruct (Rlt_dec tau s); [lra|]. destruct (Rlt_dec e tau); [lra|].
  split; [apply Rmult_le_pos; [lra|left; apply Rinv_0_lt_compat; lra]|].
  apply Rmult_le_reg_r with (e - s); [lra|]. unfold Rdiv. rewrite Rmult_assoc, Rinv_l; lra.
Qed.
Lemma age_w_mono s e tau tau' : s < e -> tau <= tau' -> age_w s e tau <= age_w s e tau'.
Proof.
  intros H Ht. pose proof (age_w_01 s e tau H). pose proof (age_w_01 s e tau' H).
  unfold age_w in *. destruct (Rlt_dec tau s), (Rlt_dec tau' s), (Rlt_dec e tau), (Rlt_dec e tau'); try lra.
  apply Rmult_le_compat_r; [left; apply Rinv_0_lt_compat|]; lra.
Qed.
Lemma at_age_between s e yo tau : s < e ->
  Rmin (fst yo) (snd yo) <= at_age s e yo tau <= Rmax (fst yo) (snd yo).
Proof.
  intros H. rewrite at_age_w. pose proof (age_w_01 s e tau H).
  unfold Rmin, Rmax. destruct (Rle_dec (fst yo) (snd yo)); nra.
Qed.
Lemma at_age_mono s e yo tau tau' : s < e -> tau <= tau' -> fst yo <= snd yo ->
  at_age s e yo tau <= at_age s e yo tau'.
Proof. intros H H1 H2. rewrite !at_age_w. pose proof (age_w_mono s e tau tau' H H1). nra. Qed.
Lemma at_age_anti s e yo tau tau' : s < e -> tau <= tau' -> snd yo <= fst yo ->
  at_age s e yo tau' <= at_age s e yo tau.
Proof. intros H H1 H2. rewrite !at_age_w. pose proof (age_w_mono s e tau tau' H H1). nra. Qed.
Lemma at_age_pos s e yo tau : s < e -> 0 < fst yo -> 0 < snd yo -> 0 < at_age s e yo tau.
Proof.
  intros H H1 H2. pose proof (at_age_between s e yo tau H).
  pose proof (Rmin_glb_lt (fst yo) (snd yo) 0 H1 H2). lra.
Qed.
Lemma at_age_nonneg s e yo tau : s < e -> 0 <= fst yo -> 0 <= snd yo -> 0 <= at_age s e yo tau.
Proof.
  intros H H1 H2. pose proof (at_age_between s e yo tau H).
  pose proof (Rmin_glb (fst yo) (snd yo) 0 H1 H2). lra.
Qed.

Lemma age_claim self g s e young old : cube_on (pa_cube self) g -> t_pars_on self s e ->
  exists a f, linear_interpolate_t self (Fin young) (Fin old) = Ok a /\ vec a (nt g) f /\
    (forall t, (t < nt g)%nat -> mid (tE g) t <= s -> f t = young) /\
    (forall t, (t < nt g)%nat -> e <= mid (tE g) t -> f t = old) /\
    (forall t, (t < nt g)%nat -> s <= mid (tE g) t <= e -> (f t - young) * (e - s) = (old - young) * (mid (tE g) t - s)) /\
    (forall t, (t < nt g)%nat -> Rmin young old <= f t <= Rmax young old) /\
    (forall t t', (t < nt g)%nat -> (t' < nt g)%nat -> mid (tE g) t <= mid (tE g) t' ->
      (young <= old -> f t <= f t') /\ (old <= young -> f t' <= f t)).
Proof.
  intros Hc Hp. destruct (interp_ok self g s e young old Hc Hp) as (a & E & Ha). destruct Hp as [_ Hse].
  exists a; eexists; split; [exact E|]. split; [exact Ha|]. cbv beta. repeat split.
  - intros t Ht H. rewrite at_age_young by assumption. reflexivity.
  - intros t Ht H. rewrite at_age_old by assumption. reflexivity.
  - intros t Ht H. rewrite at_age_mid by assumption. cbn. field. lra.
  - apply (at_age_between s e (young, old)); assumption.
  - apply (at_age_between s e (young, old)); assumption.
  - intros Hyo. apply at_age_mono; assumption.
  - intros Hyo. apply at_age_anti; assumption.
Qed.

(** star formation history *)
Lemma increasing_lt n E i j : increasing n E -> (i < j)%nat -> (j <= n)%nat -> E i < E j.
Proof.
  intros H Hij. induction Hij as [|j Hij IH]; intros Hj.
  - apply H; lia.
  - eapply Rlt_trans; [apply IH; lia|apply H; lia].
Qed.
Lemma increasing_le n E i j : increasing n E -> (i <= j)%nat -> (j <= n)%nat -> E i <= E j.
Proof.
  intros H Hij Hj. destruct (Nat.eq_dec i j) as [->|]; [lra|]. left. eapply increasing_lt; [eassumption|lia|lia].
Qed.

Definition t_frac (g : grid) (t : nat) : R := (tE g t - tE g 0) / (tE g (nt g) - tE g 0).
Lemma t_span g : good_grid g -> 0 < tE g (nt g) - tE g 0.
Proof.
  intros Hg. pose proof (increasing_lt (nt g) (tE g) 0 (nt g) (gg_tE _ Hg) (gg_t _ Hg) (le_n _)). lra.
Qed.
Lemma t_frac_0 g : t_frac g 0 = 0.
Proof. unfold t_frac, Rdiv. ring. Qed.
Lemma t_frac_n g : good_grid g -> t_frac g (nt g) = 1.
Proof. intros Hg. pose proof (t_span g Hg). unfold t_frac. field. lra. Qed.
Lemma t_frac_01 g t : good_grid g -> (t <= nt g)%nat -> 0 <= t_frac g t <= 1.
Proof.
  intros Hg Ht. pose proof (t_span g Hg). unfold t_frac.
  pose proof (increasing_le _ _ 0 t (gg_tE _ Hg) ltac:(lia) Ht). pose proof (increasing_le _ _ t (nt g) (gg_tE _ Hg) Ht ltac:(lia)).
  split; [apply Rmult_le_pos; [lra|left; apply Rinv_0_lt_compat; lra]|].
  apply Rmult_le_reg_r with (tE g (nt g) - tE g 0); [lra|]. unfold Rdiv. rewrite Rmult_assoc, Rinv_l; lra.
Qed.
Lemma t_frac_mono g t : good_grid g -> (t < nt g)%nat -> t_frac g t < t_frac g (S t).
Proof.
  intros Hg Ht. pose proof (t_span g Hg). pose proof (gg_tE _ Hg t Ht). unfold t_frac.
  apply Rmult_lt_compat_r; [apply Rinv_0_lt_compat; lra|lra].
Qed.
Lemma sfh_nonneg g F t : good_grid g -> good_cdf F -> (t < nt g)%nat -> 0 <= sfh_mass g F t.
Proof.
  intros Hg (_ & _ & H) Ht. unfold sfh_mass. fold (t_frac g t). fold (t_frac g (S t)).
  pose proof (t_frac_mono g t Hg Ht). pose proof (t_frac_01 g t Hg ltac:(lia)). pose proof (t_frac_01 g (S t) Hg ltac:(lia)).
  pose proof (H (t_frac g t) (t_frac g (S t))). lra.
Qed.
Lemma sfh_total g F : good_grid g -> good_cdf F -> Sum (nt g) (sfh_mass g F) = 1.
Proof.
  intros Hg (H0 & H1 & _). transitivity (F (t_frac g (nt g)) - F (t_frac g 0)).
  { exact (Sum_telescope (nt g) (fun t => F (t_frac g t))). }
  rewrite t_frac_n, t_frac_0 by assumption. lra.
Qed.

Definition with_p_t (self : par) (s e : num) (a : arr num) : par :=
  Par (pa_cube self) (pa_xxp self) (pa_yyp self) (pa_zgrid self)
      (Some (TPars s e (nsub e s))) (Some a)
      (pa_log_p_x_t self) (pa_t_dep self) (pa_log_p_z_tx self) (pa_mu_v self) (pa_sig_v self) (pa_theta_lims self).

(** ages at which a fraction of the stars is younger *)
Definition age_of (g : grid) (Q : R -> R) (p : R) : R := Q p * (tE g (nt g) - tE g 0) + tE g 0.

Lemma guard_true a b : (1 < a \/ 1 < b) -> negb (Rltb 1 a || Rltb 1 b) = false.
Proof. intros [H|H]; apply Rltb_true in H; rewrite H; [reflexivity|rewrite Bool.orb_true_r; reflexivity]. Qed.

Lemma log_dt_ok' self g : cube_on (pa_cube self) g -> good_grid g ->
  exists a, construct_volume_element (pa_cube self) "t" = Ok a /\ arr_is a [nt g] (fun idx => Fin (wid (tE g) (hd 0%nat idx))).
Proof.
  intros Hc Hg. destruct (vol_ok _ _ Hc Hg (VSet true false false false) eq_refl) as (a & E & Ha).
  exists a; split; [exact E|]. eapply arr_is_ext; [exact Ha|]. intros idx Hi. cbn in Hi; inb_inv. cbn. f_equal. unfold vol; cbn; ring.
Qed.

Lemma set_p_t_ok L self g lmd phi se : cube_on (pa_cube self) g -> good_grid g ->
  0 < lmd * phi -> 0 < lmd * (1 - phi) -> (1 < lmd * phi \/ 1 < lmd * (1 - phi)) ->
  good_cdf (beta_cdf L (lmd * phi) (lmd * (1 - phi))) ->
  0 <= fst se <= 1 -> 0 <= snd se <= 1 ->
  exists a, set_p_t L self lmd phi se =
      Ok (with_p_t self (Fin (age_of g (beta_ppf L (lmd * phi) (lmd * (1 - phi))) (fst se)))
                        (Fin (age_of g (beta_ppf L (lmd * phi) (lmd * (1 - phi))) (snd se))) a) /\
    arr_is a [nt g] (fun idx => lg (sfh_mass g (beta_cdf L (lmd * phi) (lmd * (1 - phi))) (hd 0%nat idx) / wid (tE g) (hd 0%nat idx))).
Proof.
  intros Hc Hg Ha0 Hb0 Hab HF Hs He. unfold set_p_t. cbv zeta. rewrite guard_true by assumption.
  pose proof (so_te _ _ (co_ssps _ _ Hc)) as HE.
  destruct (vec_get _ _ _ 0 HE ltac:(lia)) as (e0 & E0 & V0). change (Z.of_nat 0) with 0%Z in E0.
  destruct (vec_last _ _ _ HE) as (e1 & E1 & V1).
  rewrite E0, E1. cbn [bind]. rewrite V0, V1. rewrite nsub_Fin.
  set (F := beta_cdf L (lmd * phi) (lmd * (1 - phi))) in *.
  set (Q := beta_ppf L (lmd * phi) (lmd * (1 - phi))) in *.
  pose proof (t_span g Hg) as Hsp.
  assert (Hok : beta_ok (lmd * phi) (lmd * (1 - phi)) (Fin (tE g (nt g) - tE g 0)) = true).
  { unfold beta_ok. cbn [nlt]. rewrite !(proj2 (Rltb_true _ _)) by assumption. reflexivity. }
  assert (Hppf : forall q, 0 <= q <= 1 ->
    beta_ppf_ L (lmd * phi) (lmd * (1 - phi)) (Fin (tE g 0)) (Fin (tE g (nt g) - tE g 0)) q = Fin (age_of g Q q)).
  { intros q Hq. unfold beta_ppf_. rewrite Hok. rewrite !(proj2 (Rleb_true _ _)) by lra. reflexivity. }
  rewrite !Hppf by assumption.
  assert (Hl : arr_is (amap (beta_logcdf L (lmd * phi) (lmd * (1 - phi)) (Fin (tE g 0)) (Fin (tE g (nt g) - tE g 0))) (par_edges_t (c_ssps (pa_cube self))))
     [S (nt g)] (fun idx => lg (F (t_frac g (hd 0%nat idx))))).
  { destruct HE as [HS HEn]. split.
    - cbn [amap shp]. rewrite HS. f_equal; lia.
    - intros idx Hi; inb_inv. cbn [amap ent hd]. rewrite HEn by lia. unfold beta_logcdf. rewrite Hok. reflexivity. }
  revert Hl. generalize (amap (beta_logcdf L (lmd * phi) (lmd * (1 - phi)) (Fin (tE g 0)) (Fin (tE g (nt g) - tE g 0))) (par_edges_t (c_ssps (pa_cube self)))).
  intros lc Hl. pose proof (tail0_is _ _ _ _ Hl ltac:(lia)) as Ht. pose proof (init0_is _ _ _ _ Hl) as Hi.
  cbn [Nat.sub] in Ht, Hi. rewrite Nat.sub_0_r in Ht, Hi.
  unfold logdiffexp. s_bop.
  destruct (log_dt_ok' self g Hc Hg) as (dt & Edt & Hdt). rewrite Edt. cbn [bind].
  s_map. s_bop. eexists; split; [reflexivity|]. eapply arr_is_ext; [eassumption|].
  intros idx Hi'. inb_inv. cbn [bidx map2 skipn List.length Nat.sub hd tl]. picks.
  pose proof (sfh_nonneg g F i Hg HF ltac:(assumption)) as Hn. unfold sfh_mass in Hn. fold (t_frac g i) in Hn. fold (t_frac g (S i)) in Hn.
  assert (P : forall k, (k <= nt g)%nat -> 0 <= F (t_frac g k)).
  { intros k Hk. destruct HF as (F0 & F1 & Fm). rewrite <- F0. pose proof (t_frac_01 g k Hg Hk). apply Fm; lra. }
  rewrite lse_b_diff; [|apply P; lia|apply P; lia].
  rewrite nlog_Fin, nsub_lg; [reflexivity|lra|apply (wid_pos _ _ _ (gg_tE _ Hg)); assumption].
Qed.
