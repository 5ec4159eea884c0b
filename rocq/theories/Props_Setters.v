(** * Props_Setters: claims C41-C48 and C74 about the construction and the
    setters of parametric components. *)
From Coq Require Import Reals Lra Lia List Bool Arith ZArith String Ascii.
From Verif Require Import Num NumLemmas Arr PyStr Cube Base Parametric GrowingDisk Stream Spec Repr ParSpec ParRepr
  ParSetSpec Build CubeGeom ParSetLemmas ParEnrich DiskLemmas StreamLemmas ParBuild ParClaims ParExample.
Import ListNotations.
Local Open Scope R_scope.

(** C41: component coordinates are a rigid motion of the cube coordinates; a
    pixel at distance r and angle th - a from the centre has component
    coordinates at distance r and angle th. *)
Theorem C41_rigid_motion : forall c g X Y x0 y0 a,
  cube_on c g -> good_grid g -> cube_xy c g X Y ->
  exists self X' Y', par_init c (x0, y0) a = Ok self /\ xy_on self g X' Y' /\
    (forall i j k l, (i < nx g)%nat -> (j < ny g)%nat -> (k < nx g)%nat -> (l < ny g)%nat ->
      (X' i j - X' k l) ^ 2 + (Y' i j - Y' k l) ^ 2 = (X i j - X k l) ^ 2 + (Y i j - Y k l) ^ 2) /\
    (forall i j r th, (i < nx g)%nat -> (j < ny g)%nat ->
      X i j = x0 + r * cos (th - a) -> Y i j = y0 + r * sin (th - a) ->
      X' i j = r * cos th /\ Y' i j = r * sin th).
Proof. exact geometry_claim. Qed.
Print Assumptions C41_rigid_motion.

(** cube coordinates of pixels of a constructed cube are pixel centres *)
Theorem C41_cube_coordinates : forall s g nx1 nx2 nvel x1 x2 v c,
  ssps_on s g -> (0 < nx1)%nat -> (0 < nx2)%nat -> (0 < nvel)%nat -> cube_init s nx1 nx2 nvel x1 x2 v = Ok c ->
  cube_on c (cube_grid g nx1 nx2 nvel x1 x2 v) /\
  cube_xy c (cube_grid g nx1 nx2 nvel x1 x2 v)
    (fun x y => mid (lin (fst x1) (snd x1) nx1) x) (fun x y => mid (lin (fst x2) (snd x2) nx2) y).
Proof. exact cube_init_xy. Qed.
Print Assumptions C41_cube_coordinates.

Example C41_example : cube_on excube exg /\ good_grid exg /\ cube_xy excube exg exX exY /\
  exists self X' Y', par_init excube (0, 1 / 2) (PI / 2) = Ok self /\ xy_on self exg X' Y' /\
    X' 0%nat 0%nat = 0 /\ Y' 0%nat 0%nat = 1 / 2.
Proof.
  split; [exact excube_on|]. split; [exact exg_good|]. split; [exact excube_xy|].
  destruct (C41_rigid_motion excube exg exX exY 0 (1 / 2) (PI / 2) excube_on exg_good excube_xy) as (self & X' & Y' & E & Hxy & _ & H).
  exists self, X', Y'. split; [exact E|]. split; [exact Hxy|].
  destruct (H 0%nat 0%nat (1 / 2) (PI / 2) ltac:(cbn; lia) ltac:(cbn; lia)) as [-> ->].
  - replace (PI / 2 - PI / 2) with 0 by ring. rewrite cos_0. unfold exX, mid. cbn [exg xE INR]. lra.
  - replace (PI / 2 - PI / 2) with 0 by ring. rewrite sin_0. unfold exY, mid. cbn [exg yE INR]. lra.
  - rewrite cos_PI2, sin_PI2. lra.
Qed.

(** C42: the star formation history is the binned beta cdf. *)
Theorem C42_star_formation_history : forall L self g lmd phi se,
  cube_on (pa_cube self) g -> good_grid g ->
  0 < lmd * phi -> 0 < lmd * (1 - phi) -> (1 < lmd * phi \/ 1 < lmd * (1 - phi)) ->
  good_cdf (beta_cdf L (lmd * phi) (lmd * (1 - phi))) -> 0 <= fst se <= 1 -> 0 <= snd se <= 1 ->
  exists self' p d, set_p_t L self lmd phi se = Ok self' /\
    par_get_p L self' "t" false false = Ok p /\ par_get_p L self' "t" true false = Ok d /\
    shp p = [nt g] /\ shp d = [nt g] /\
    (forall t, (t < nt g)%nat -> let M := sfh_mass g (beta_cdf L (lmd * phi) (lmd * (1 - phi))) t in
       ent p [t] = Fin M /\ ent d [t] = Fin (M / wid (tE g) t) /\ 0 <= M) /\
    Sum (nt g) (sfh_mass g (beta_cdf L (lmd * phi) (lmd * (1 - phi)))) = 1.
Proof. exact sfh_claim. Qed.
Print Assumptions C42_star_formation_history.

Theorem C42_value_error : forall L self g lmd phi se, cube_on (pa_cube self) g -> good_grid g ->
  (lmd * phi <= 1 /\ lmd * (1 - phi) <= 1 -> set_p_t L self lmd phi se = Err ValueError) /\
  (~ (lmd * phi <= 1 /\ lmd * (1 - phi) <= 1) -> exists self', set_p_t L self lmd phi se = Ok self').
Proof. exact set_p_t_value_error. Qed.
Print Assumptions C42_value_error.

(** but a shape parameter which is not positive is accepted and stores nan *)
Theorem C42_nan_shape : forall L self g lmd phi se, cube_on (pa_cube self) g -> good_grid g ->
  (1 < lmd * phi \/ 1 < lmd * (1 - phi)) -> (lmd * phi <= 0 \/ lmd * (1 - phi) <= 0) ->
  exists self' a, set_p_t L self lmd phi se = Ok self' /\ pa_log_p_t self' = Some a /\
    forall t, (t < nt g)%nat -> ent a [t] = NaN.
Proof. exact set_p_t_nan. Qed.
Print Assumptions C42_nan_shape.


(** Beta(2,1) on the age edges 0, 1, 3 *)
Example C42_example : exists self' p, set_p_t exL expar0 3 (2 / 3) (1 / 4, 3 / 4) = Ok self' /\
  par_get_p exL self' "t" false false = Ok p /\ ent p [0%nat] = Fin (1 / 9) /\ ent p [1%nat] = Fin (8 / 9).
Proof.
  destruct (C42_star_formation_history exL expar0 exg 3 (2 / 3) (1 / 4, 3 / 4) expar0_cube exg_good ltac:(lra) ltac:(lra) ltac:(lra)
    (exL_cdf _ _) ltac:(cbn; lra) ltac:(cbn; lra)) as (self' & p & d & E & Ep & _ & _ & _ & V & _).
  exists self', p. split; [exact E|]. split; [exact Ep|].
  destruct (V 0%nat ltac:(cbn; lia)) as (-> & _). destruct (V 1%nat ltac:(cbn; lia)) as (-> & _).
  unfold sfh_mass. cbn [exg nt tE exL beta_cdf INR]. split; f_equal; field.
Qed.
Example C42_error_example : set_p_t exL expar0 1 (1 / 2) (1 / 4, 3 / 4) = Err ValueError /\
  exists self' a, set_p_t exL expar0 2 2 (1 / 4, 3 / 4) = Ok self' /\ pa_log_p_t self' = Some a /\ ent a [0%nat] = NaN.
Proof.
  split; [apply (C42_value_error exL expar0 exg 1 (1 / 2) (1 / 4, 3 / 4) expar0_cube exg_good); lra|].
  destruct (C42_nan_shape exL expar0 exg 2 2 (1 / 4, 3 / 4) expar0_cube exg_good ltac:(lra) ltac:(lra)) as (s & a & E & Ea & V).
  exists s, a. split; [exact E|]. split; [exact Ea|]. apply V. cbn; lia.
Qed.

(** C43: quantities which vary with age are constant outside the ages set by
    set_p_t, within the age range of the grid, and linear between. *)
Theorem C43_age_interpolation : forall L self g f,
  cube_on (pa_cube self) g -> good_grid g -> sfh_ok L f ->
  exists self' s e, set_age L self f = Ok self' /\ tE g 0 <= s /\ s < e /\ e <= tE g (nt g) /\
    forall young old, exists a h, linear_interpolate_t self' (Fin young) (Fin old) = Ok a /\ vec a (nt g) h /\
    (forall t, (t < nt g)%nat -> mid (tE g) t <= s -> h t = young) /\
    (forall t, (t < nt g)%nat -> e <= mid (tE g) t -> h t = old) /\
    (forall t, (t < nt g)%nat -> s <= mid (tE g) t <= e -> (h t - young) * (e - s) = (old - young) * (mid (tE g) t - s)) /\
    (forall t, (t < nt g)%nat -> Rmin young old <= h t <= Rmax young old) /\
    (forall t t', (t < nt g)%nat -> (t' < nt g)%nat -> mid (tE g) t <= mid (tE g) t' ->
      (young <= old -> h t <= h t') /\ (old <= young -> h t' <= h t)).
Proof. exact age_start_end. Qed.
Print Assumptions C43_age_interpolation.
Theorem C43_needs_p_t : forall self a b, pa_t_pars self = None -> linear_interpolate_t self a b = Err AttributeError.
Proof. exact age_needs_p_t. Qed.
Print Assumptions C43_needs_p_t.

Example C43_example : sfh_ok exL exsfh /\
  linear_interpolate_t expar0 (Fin 1) (Fin 2) = Err AttributeError /\
  exists self' a y, set_age exL expar0 exsfh = Ok self' /\ linear_interpolate_t self' (Fin 1) (Fin 2) = Ok a /\
    ent a [1%nat] = Fin y /\ 1 <= y <= 2.
Proof.
  split; [exact exsfh_ok|]. split; [destruct expar0_ok as (X & Y & H); apply C43_needs_p_t; apply H|].
  destruct (C43_age_interpolation exL expar0 exg exsfh expar0_cube exg_good exsfh_ok) as (self' & s & e & E & _ & _ & _ & H).
  destruct (H 1 2) as (a & h & Ea & Va & _ & _ & _ & HB & _).
  exists self', a, (h 1%nat). split; [exact E|]. split; [exact Ea|]. split; [apply Va; cbn; lia|].
  specialize (HB 1%nat ltac:(cbn; lia)). rewrite Rmin_left, Rmax_right in HB by lra. exact HB.
Qed.

(** C44: spatial density of a GrowingDisk. *)
Theorem C44_disk_density : forall self g X Y s e,
  cube_on (pa_cube self) g -> good_grid g -> xy_on self g X Y -> t_pars_on self s e ->
  forall q rc al, posl q -> posl rc -> nonnegl al ->
  exists self' a p, disk_set_p_x_t self q rc al = Ok self' /\ pa_log_p_x_t self' = Some a /\ shp a = [nx g; ny g; nt g] /\
    (forall t x y, (t < nt g)%nat -> (x < nx g)%nat -> (y < ny g)%nat -> ent a [x; y; t] = nlog (Fin (p t x y)) /\ 0 < p t x y) /\
    (forall t, (t < nt g)%nat -> over_image g (p t) = 1) /\
    (forall t x y x' y', let at_t l := at_age s e l (mid (tE g) t) in
       p t x y * cored (at_t q) (at_t rc) (at_t al) (X x' y') (Y x' y') =
       p t x' y' * cored (at_t q) (at_t rc) (at_t al) (X x y) (Y x y) /\
       (ell (at_t q) (X x y) (Y x y) <= ell (at_t q) (X x' y') (Y x' y') -> p t x' y' <= p t x y) /\
       (0 < at_t al -> ell (at_t q) (X x y) (Y x y) < ell (at_t q) (X x' y') (Y x' y') -> p t x' y' < p t x y) /\
       (Rabs (X x y) = Rabs (X x' y') -> Rabs (Y x y) = Rabs (Y x' y') -> p t x y = p t x' y')).
Proof. exact disk_x_claim. Qed.
Print Assumptions C44_disk_density.
Theorem C44_invalid_limits : forall self q rc al,
  ~ (posl q /\ posl rc /\ nonnegl al) -> disk_set_p_x_t self q rc al = Err AssertionError.
Proof. exact disk_x_invalid. Qed.
Print Assumptions C44_invalid_limits.

Example C44_example : disk_set_p_x_t expar (1, 1) (0, 1) (1, 1) = Err AssertionError /\
  exists self' a y, disk_set_p_x_t expar (1, 1 / 2) (1, 2) (1, 2) = Ok self' /\ pa_log_p_x_t self' = Some a /\
    ent a [0%nat; 0%nat; 1%nat] = nlog (Fin y) /\ ent a [1%nat; 0%nat; 1%nat] = nlog (Fin y) /\ 0 < y.
Proof.
  split. { apply C44_invalid_limits. unfold posl; cbn. lra. }
  destruct expar_ok as (X & Y & s & e & _ & _ & Hxy & X0 & Y0 & X1 & Y1 & _ & Ht & _).
  destruct (C44_disk_density expar exg X Y s e expar_cube exg_good Hxy Ht (1, 1 / 2) (1, 2) (1, 2)) as (self' & a & p & E & Ea & _ & V & _ & H);
    [split; cbn; lra|split; cbn; lra|split; cbn; lra|].
  exists self', a, (p 1 0 0)%nat. split; [exact E|]. split; [exact Ea|].
  destruct (V 1 0 0)%nat as [V0 P0]; [cbn; lia|cbn; lia|cbn; lia|]. destruct (V 1 1 0)%nat as [V1 _]; [cbn; lia|cbn; lia|cbn; lia|].
  split; [exact V0|]. split; [|exact P0]. rewrite V1. f_equal. f_equal.
  destruct (H 1 1 0 0 0)%nat as (_ & _ & _ & HS). apply HS; rewrite ?X0, ?X1, ?Y0, ?Y1; [rewrite Rabs_Ropp|]; reflexivity.
Qed.

(** C45: velocity maps and depletion times of a GrowingDisk. *)
Theorem C45_mean_velocity : forall self g X Y s e,
  cube_on (pa_cube self) g -> xy_on self g X Y -> t_pars_on self s e ->
  forall q rmax vmax, posl q -> posl rmax -> one_sign vmax ->
  exists self' a f, disk_set_mu_v self q rmax vmax = Ok self' /\ pa_mu_v self' = Some a /\ shp a = [nt g; nx g; ny g] /\
    (forall t x y, (t < nt g)%nat -> (x < nx g)%nat -> (y < ny g)%nat -> ent a [t; x; y] = Fin (f t x y)) /\
    (forall t x y, let at_t l := at_age s e l (mid (tE g) t) in
       Rabs (f t x y) <= Rabs (at_t vmax) /\
       (X x y = at_t rmax -> Y x y = 0 -> f t x y = at_t vmax) /\
       (X x y = 0 -> f t x y = 0) /\
       (0 < at_t vmax -> 0 < X x y -> 0 < f t x y) /\
       (forall x' y', X x' y' = - X x y -> Rabs (Y x' y') = Rabs (Y x y) -> f t x' y' = - f t x y)).
Proof. exact disk_mu_claim. Qed.
Print Assumptions C45_mean_velocity.
Theorem C45_dispersion : forall self g X Y s e,
  cube_on (pa_cube self) g -> good_grid g -> xy_on self g X Y -> t_pars_on self s e -> 0 < max_abs g X ->
  forall q al vi vo smax smin, posl q -> nonnegl al -> posl vi -> posl vo ->
  exists self' a f, disk_set_sig_v self q al vi vo smax smin = Ok self' /\ pa_sig_v self' = Some a /\ shp a = [nt g; nx g; ny g] /\
    (forall t x y, (t < nt g)%nat -> (x < nx g)%nat -> (y < ny g)%nat -> ent a [t; x; y] = Fin (f t x y)) /\
    (forall t x y, let at_t l := at_age s e l (mid (tE g) t) in let r := ell (at_t q) (X x y) (Y x y) in
       Rmin (at_t vi) (at_t vo) <= f t x y <= Rmax (at_t vi) (at_t vo) /\
       (r = 0 -> 0 < at_t al -> f t x y = at_t vi) /\
       (max_abs g X <= r -> f t x y = at_t vo) /\
       (forall x' y', r <= ell (at_t q) (X x' y') (Y x' y') ->
          (at_t vi <= at_t vo -> f t x y <= f t x' y') /\ (at_t vo <= at_t vi -> f t x' y' <= f t x y))).
Proof. exact disk_sig_claim. Qed.
Print Assumptions C45_dispersion.
Theorem C45_depletion_time : forall self g X Y,
  cube_on (pa_cube self) g -> good_grid g -> xy_on self g X Y -> 0 < max_abs g X ->
  forall L q al a b lo hi, zgrid_on self g -> good_norm (norm_cdf L) -> tdep_args_ok q al a b lo hi ->
  exists self' td f, disk_set_t_dep L self q al a b lo hi = Ok self' /\ pa_t_dep self' = Some td /\ shp td = [nx g; ny g] /\
    (forall x y, (x < nx g)%nat -> (y < ny g)%nat -> ent td [x; y] = Fin (f x y)) /\
    (forall x y, let r := ell q (X x y) (Y x y) in
       Rmin a b <= f x y <= Rmax a b /\ lo <= f x y <= hi /\
       (r = 0 -> 0 < al -> f x y = a) /\ (max_abs g X <= r -> f x y = b) /\
       (forall x' y', r <= ell q (X x' y') (Y x' y') ->
          (a <= b -> f x y <= f x' y') /\ (b <= a -> f x' y' <= f x y))).
Proof. exact disk_tdep_claim. Qed.
Print Assumptions C45_depletion_time.
(** arguments outside these conditions are refused, except that rmax is not checked *)
Theorem C45_invalid_arguments : forall self L,
  (forall q rmax vmax, ~ (posl q /\ one_sign vmax) -> disk_set_mu_v self q rmax vmax = Err AssertionError) /\
  (forall q al vi vo smax smin, ~ (posl q /\ nonnegl al /\ posl vi /\ posl vo) ->
     disk_set_sig_v self q al vi vo smax smin = Err AssertionError) /\
  (forall q al a b lo hi, ~ tdep_args_ok q al a b lo hi -> disk_set_t_dep L self q al a b lo hi = Err AssertionError).
Proof.
  exact (fun self L => conj (disk_mu_invalid self) (conj (disk_sig_invalid self) (disk_t_dep_err self L))).
Qed.
Print Assumptions C45_invalid_arguments.
(** the arguments sigma_max and sigma_min of set_sig_v have no effect *)
Theorem C45_sigma_limits_ignored : forall self q al vi vo smax smin smax' smin',
  disk_set_sig_v self q al vi vo smax smin = disk_set_sig_v self q al vi vo smax' smin'.
Proof. exact sigma_limits_ignored. Qed.
Print Assumptions C45_sigma_limits_ignored.

Example C45_example : posl (1, 1) /\ posl (1 / 2, 1 / 2) /\ one_sign (-100, 0) /\
  disk_set_mu_v expar (1, 1) (1, 1) (-1, 1) = Err AssertionError /\
  exists self' a, disk_set_mu_v expar (1, 1) (1 / 2, 1 / 2) (-100, -100) = Ok self' /\ pa_mu_v self' = Some a /\
    ent a [1; 1; 0]%nat = Fin (-100) /\ ent a [1; 0; 0]%nat = Fin 100.
Proof.
  split; [split; cbn; lra|]. split; [split; cbn; lra|]. split; [right; cbn; lra|].
  split. { apply (proj1 (C45_invalid_arguments expar exL)). unfold one_sign, nonnegl; cbn. lra. }
  destruct expar_ok as (X & Y & s & e & _ & _ & Hxy & X0 & Y0 & X1 & Y1 & _ & Ht & _).
  destruct (C45_mean_velocity expar exg X Y s e expar_cube Hxy Ht (1, 1) (1 / 2, 1 / 2) (-100, -100)) as (self' & a & f & E & Ea & _ & V & H);
    [split; cbn; lra|split; cbn; lra|right; cbn; lra|].
  exists self', a. split; [exact E|]. split; [exact Ea|].
  destruct (H 1 1 0)%nat as (_ & HP & _ & _ & HA). cbv zeta in HP.
  assert (Hc : forall c tau, at_age s e (c, c) tau = c) by (intros c tau; rewrite at_age_w; cbn; ring).
  rewrite !Hc in HP. specialize (HP X1 Y1). specialize (HA 0 0)%nat.
  rewrite X0, X1, Y0, Y1 in HA. specialize (HA ltac:(reflexivity) ltac:(reflexivity)).
  split; rewrite V by (cbn; lia); f_equal; lra.
Qed.
Example C45_more_example :
  (exists self' a f, disk_set_sig_v expar (1, 1) (1, 2) (50, 60) (20, 10) 500 10 = Ok self' /\ pa_sig_v self' = Some a /\
     ent a [0; 0; 0]%nat = Fin f /\ f > 0) /\
  (exists self' a f, disk_set_t_dep exL expar (1 / 2) 1 3 2 (1 / 10) 10 = Ok self' /\ pa_t_dep self' = Some a /\
     ent a [0; 0]%nat = Fin f /\ 2 <= f <= 3).
Proof.
  destruct expar_ok as (X & Y & s & e & _ & _ & Hxy & X0 & Y0 & X1 & Y1 & Hz & Ht & Hm). split.
  - destruct (C45_dispersion expar exg X Y s e expar_cube exg_good Hxy Ht Hm (1, 1) (1, 2) (50, 60) (20, 10) 500 10) as (self' & a & f & E & Ea & _ & V & H);
      [split; cbn; lra|split; cbn; lra|split; cbn; lra|split; cbn; lra|].
    exists self', a, (f 0 0 0)%nat. split; [exact E|]. split; [exact Ea|]. split; [apply V; cbn; lia|].
    destruct (H 0 0 0)%nat as (HB & _). destruct Ht as [_ Hse].
    pose proof (at_age_pos s e (50, 60) (mid (tE exg) 0) Hse ltac:(cbn; lra) ltac:(cbn; lra)) as P1.
    pose proof (at_age_pos s e (20, 10) (mid (tE exg) 0) Hse ltac:(cbn; lra) ltac:(cbn; lra)) as P2.
    pose proof (Rmin_glb_lt _ _ _ P1 P2). lra.
  - destruct (C45_depletion_time expar exg X Y expar_cube exg_good Hxy Hm exL (1 / 2) 1 3 2 (1 / 10) 10 Hz exL_norm) as (self' & a & f & E & Ea & _ & V & H);
      [unfold tdep_args_ok; lra|].
    exists self', a, (f 0 0)%nat. split; [exact E|]. split; [exact Ea|]. split; [apply V; cbn; lia|].
    destruct (H 0 0)%nat as (HB & _). rewrite Rmin_right, Rmax_left in HB by lra. exact HB.
Qed.

(** C46: maps of a Stream. *)
Theorem C46_stream_density : forall L self g X Y,
  cube_on (pa_cube self) g -> good_grid g -> xy_on self g X Y ->
  forall th r sig n, good_norm (norm_cdf L) -> angles_ok th -> fst th <> snd th -> 0 < sig -> (0 < n)%nat ->
  exists self' a p, stream_set_p_x_t L self th r sig n = Ok self' /\ pa_log_p_x_t self' = Some a /\
    pa_theta_lims self' = Some th /\ shp a = [nx g; ny g; nt g] /\
    (forall t x y, (t < nt g)%nat -> (x < nx g)%nat -> (y < ny g)%nat -> ent a [x; y; t] = nlog (Fin (p x y)) /\ 0 < p x y) /\
    over_image g p = 1 /\
    (forall x y x' y', let pix x y := wid (xE g) x * wid (yE g) y in
      let M x y := Sum n (fun k => nbox (norm_cdf L) (track_x th r n k) sig (wid (xE g) x) (X x y) *
                                   nbox (norm_cdf L) (track_y th r n k) sig (wid (yE g) y) (Y x y)) in
      (x < nx g)%nat -> (y < ny g)%nat -> (x' < nx g)%nat -> (y' < ny g)%nat ->
      p x y * pix x y * M x' y' = p x' y' * pix x' y' * M x y).
Proof. exact stream_x_claim. Qed.
Print Assumptions C46_stream_density.
Theorem C46_invalid_angles : forall L self th r sig n, ~ angles_ok th -> stream_set_p_x_t L self th r sig n = Err AssertionError.
Proof. exact stream_x_invalid. Qed.
Print Assumptions C46_invalid_angles.
Theorem C46_mean_velocity : forall self g X Y,
  cube_on (pa_cube self) g -> xy_on self g X Y ->
  forall th v, pa_theta_lims self = Some th -> fst th <> snd th ->
  exists self' a f, stream_set_mu_v self v = Ok self' /\ pa_mu_v self' = Some a /\ shp a = [nt g; nx g; ny g] /\
    (forall t x y rho phi, (t < nt g)%nat -> (x < nx g)%nat -> (y < ny g)%nat ->
       0 < rho -> - PI < phi <= PI -> X x y = rho * cos phi -> Y x y = rho * sin phi ->
       ent a [t; x; y] = Fin (f phi)) /\
    (forall phi, let d := snd th - fst th in
       ((phi - fst th) * d <= 0 -> f phi = fst v) /\
       (0 <= (phi - snd th) * d -> f phi = snd v) /\
       (0 <= (phi - fst th) * d -> (phi - snd th) * d <= 0 -> (f phi - fst v) * d = (snd v - fst v) * (phi - fst th)) /\
       Rmin (fst v) (snd v) <= f phi <= Rmax (fst v) (snd v) /\
       (forall phi', phi <= phi' ->
         (0 <= (snd v - fst v) * d -> f phi <= f phi') /\ ((snd v - fst v) * d <= 0 -> f phi' <= f phi))).
Proof. exact stream_mu_claim. Qed.
Print Assumptions C46_mean_velocity.
Theorem C46_velocity_needs_track : forall self g X Y, xy_on self g X Y ->
  forall v, pa_theta_lims self = None -> stream_set_mu_v self v = Err AttributeError.
Proof. exact stream_mu_needs_track. Qed.
Print Assumptions C46_velocity_needs_track.
Theorem C46_dispersion : forall self g, cube_on (pa_cube self) g -> forall sg,
  exists self' a, stream_set_sig_v self sg = self' /\ pa_sig_v self' = Some a /\ shp a = [nt g; nx g; ny g] /\
  forall t x y, (t < nt g)%nat -> (x < nx g)%nat -> (y < ny g)%nat -> ent a [t; x; y] = Fin sg.
Proof. exact stream_sig_claim. Qed.
Print Assumptions C46_dispersion.

Example C46_example : angles_ok (0, PI / 2) /\
  stream_set_p_x_t exL expar (0, 4) (1, 2) (1 / 10) 3 = Err AssertionError /\
  exists self' self'' a, stream_set_p_x_t exL expar (PI / 2, 0) (1, 2) (1 / 10) 3 = Ok self' /\
    stream_set_mu_v self' (10, 20) = Ok self'' /\ pa_mu_v self'' = Some a /\ ent a [0; 1; 0]%nat = Fin 20 /\ ent a [0; 0; 0]%nat = Fin 10.
Proof.
  pose proof PI_RGT_0. pose proof PI_4.
  split; [split; cbn; lra|]. split.
  { apply C46_invalid_angles. unfold angles_ok; cbn [fst snd]. pose proof PI2_3_2. intros K.
    assert (PI < 4) by (destruct (Req_dec PI 4) as [Z|]; [|lra]; pose proof (PI_ineq 1); cbn in *; unfold tg_alt, PI_tg in *; cbn in *; lra). lra. }
  destruct expar_ok as (X & Y & s & e & _ & _ & Hxy & X0 & Y0 & X1 & Y1 & _ & Ht & _).
  destruct (C46_stream_density exL expar exg X Y expar_cube exg_good Hxy (PI / 2, 0) (1, 2) (1 / 10) 3 exL_norm) as (p' & a & p & E & Ea & Eth & _);
    [split; cbn; lra|cbn; lra|lra|lia|].
  assert (Hc' : cube_on (pa_cube p') exg /\ xy_on p' exg X Y).
  { revert E. unfold stream_set_p_x_t. rewrite angles_ok_true by (split; cbn; lra). cbn [bind].
    destruct (stream_log_p_x_t _ _ _ _ _ _); cbn [bind]; intros E; [|discriminate]. inversion E; subst p'. split; [exact expar_cube|exact Hxy]. }
  destruct Hc' as [Hc' Hxy'].
  destruct (C46_mean_velocity p' exg X Y Hc' Hxy' (PI / 2, 0) (10, 20) Eth ltac:(cbn; lra)) as (p'' & b & f & E2 & Eb & _ & V & HF).
  exists p', p'', b. split; [exact E|]. split; [exact E2|]. split; [exact Eb|]. split.
  - rewrite (V 0%nat 1%nat 0%nat (1 / 2) 0); [|cbn; lia|cbn; lia|cbn; lia|lra|lra|rewrite cos_0; lra|rewrite sin_0; lra].
    f_equal. apply (HF 0). cbn. lra.
  - rewrite (V 0%nat 0%nat 0%nat (1 / 2) PI); [|cbn; lia|cbn; lia|cbn; lia|lra|lra|rewrite cos_PI; lra|rewrite sin_PI; lra].
    f_equal. apply (HF PI). cbn. nra.
Qed.

(** C47: p(z|t,x) of the enrichment model integrates to one; with bins of equal
    width the bin probabilities are those of the normal distribution. *)
Theorem C47_metallicity : forall L self g (t_dep : arr num) (td : map2d),
  cube_on (pa_cube self) g -> good_grid g -> zgrid_on self g -> good_norm (norm_cdf L) ->
  shp t_dep = [nx g; ny g] -> (forall x y, (x < nx g)%nat -> (y < ny g)%nat -> ent t_dep [x; y] = Fin (td x y)) ->
  exists self' a p, set_p_z_tx L self t_dep = Ok self' /\ pa_log_p_z_tx self' = Some a /\ shp a = [nz g; nt g; nx g; ny g] /\
    (forall t x y k, (t < nt g)%nat -> (x < nx g)%nat -> (y < ny g)%nat -> (k < nz g)%nat ->
       ent a [k; t; x; y] = nlog (Fin (p t x y k)) /\ 0 < p t x y k) /\
    (forall t x y, (t < nt g)%nat -> Sum (nz g) (fun k => p t x y k * wid (zE g) k) = 1) /\
    (forall t x y, (t < nt g)%nat -> let N k := znorm g (norm_cdf L) (zm g (td x y) t) (ahat * Rpower (zm g (td x y) t) bhat) k in
       ((forall k, (k < nz g)%nat -> wid (zE g) k = wid (zE g) 0) ->
         forall k, (k < nz g)%nat -> p t x y k * wid (zE g) k = N k / Sum (nz g) N) /\
       (forall k l, (k < nz g)%nat -> (l < nz g)%nat ->
         (p t x y k * wid (zE g) k) * (N l * wid (zE g) l) = (p t x y l * wid (zE g) l) * (N k * wid (zE g) k)) /\
       (forall k l, (k < nz g)%nat -> (l < nz g)%nat -> wid (zE g) k <> wid (zE g) l ->
         (p t x y k * wid (zE g) k) * N l <> (p t x y l * wid (zE g) l) * N k)).
Proof. exact enrich_claim. Qed.
Print Assumptions C47_metallicity.
(** with unequal bins they are not proportional to the normal probabilities *)
Theorem C47_bin_probability_refuted :
  exists L self g t_dep (td : map2d) self' a p k l,
    cube_on (pa_cube self) g /\ good_grid g /\ good_norm (norm_cdf L) /\
    set_p_z_tx L self t_dep = Ok self' /\ pa_log_p_z_tx self' = Some a /\
    (forall j, (j < nz g)%nat -> ent a [j; 0; 0; 0]%nat = nlog (Fin (p j))) /\ (k < nz g)%nat /\ (l < nz g)%nat /\
    let N k := znorm g (norm_cdf L) (zm g (td 0 0)%nat 0) (ahat * Rpower (zm g (td 0 0)%nat 0) bhat) k in
    (p k * wid (zE g) k) * N l <> (p l * wid (zE g) l) * N k.
Proof. exact bin_probability_refuted. Qed.
Print Assumptions C47_bin_probability_refuted.

(** C48: the depletion time used is the nearest of the table. *)
Theorem C48_nearest : forall self g td, cube_on (pa_cube self) g -> good_grid g -> zgrid_on self g ->
  let i := idx_t_dep (pa_zgrid self) (Fin td) in
  exists T, (forall k, (k < n_grid)%nat -> ent (zg_t_dep (pa_zgrid self)) [k] = Fin (T k)) /\
    (forall k l, (k < l)%nat -> T k < T l) /\ T 0%nat = 1 / 10 /\ T (n_grid - 1)%nat = 10 /\
    (i < n_grid)%nat /\ (forall k, (k < n_grid)%nat -> Rabs (td - T i) <= Rabs (td - T k)) /\
    (1 / 10 <= td <= 10 -> exists k, (S k < n_grid)%nat /\ T k <= td <= T (S k) /\ Rabs (td - T i) <= (T (S k) - T k) / 2).
Proof. exact nearest_claim. Qed.
Print Assumptions C48_nearest.
(** depletion times from 10 to 13 are accepted and all behave as 10, although
    a longer depletion time makes every metallicity be reached later *)
Theorem C48_above_ten_refuted : forall L self g X Y q al td td',
  cube_on (pa_cube self) g -> good_grid g -> zgrid_on self g ->
  good_norm (norm_cdf L) -> xy_on self g X Y -> 0 < max_abs g X -> 0 < q -> 0 <= al -> 10 <= td < td' -> td' <= 13 ->
  exists p p' a a', disk_set_t_dep L self q al td td (1 / 10) 13 = Ok p /\ disk_set_t_dep L self q al td' td' (1 / 10) 13 = Ok p' /\
    pa_log_p_z_tx p = Some a /\ pa_log_p_z_tx p' = Some a' /\
    (forall t x y k, (t < nt g)%nat -> (x < nx g)%nat -> (y < ny g)%nat -> (k < nz g)%nat -> ent a' [k; t; x; y] = ent a [k; t; x; y]) /\
    (forall tH z, 0 < z <= z_max -> grid_t tH td' z < grid_t tH td z).
Proof. exact clamp_refuted. Qed.
Print Assumptions C48_above_ten_refuted.

Example C48_example : zgrid_on expar exg /\
  exists p p' a a', disk_set_t_dep exL expar 1 1 10 10 (1 / 10) 13 = Ok p /\ disk_set_t_dep exL expar 1 1 13 13 (1 / 10) 13 = Ok p' /\
    pa_log_p_z_tx p = Some a /\ pa_log_p_z_tx p' = Some a' /\ ent a' [1; 1; 1; 0]%nat = ent a [1; 1; 1; 0]%nat.
Proof.
  destruct expar_ok as (X & Y & s & e & _ & _ & Hxy & _ & _ & _ & _ & Hz & _ & Hm). split; [exact Hz|].
  destruct (C48_above_ten_refuted exL expar exg X Y 1 1 10 13 expar_cube exg_good Hz exL_norm Hxy Hm ltac:(lra) ltac:(lra) ltac:(lra) ltac:(lra))
    as (p & p' & a & a' & E & E' & Ea & Ea' & H & _).
  exists p, p', a, a'. repeat (split; [assumption|]). apply H; cbn; lia.
Qed.

(** C74: the table of mean metallicities. *)
Theorem C74_mean_metallicity : forall c g, cube_on c g -> good_grid g ->
  exists zg z, z_interpolation_grid n_grid c = Ok zg /\ shp (zg_z zg) = [n_grid; nt g] /\
    (forall i t, (i < n_grid)%nat -> (t < nt g)%nat -> ent (zg_z zg) [i; t] = Fin (z i t) /\ 0 < z i t <= z_max) /\
    (forall i t t', (t < nt g)%nat -> (t' < nt g)%nat -> mid (tE g) t <= mid (tE g) t' -> z i t' <= z i t) /\
    (forall i t zz, 0 < zz <= z_max ->
       mid (tE g) t = tE g (nt g) - grid_t_dep n_grid i * zz / (1 - ahat * rpow zz bhat) ->
       Rabs (z i t - zz) <= z_max / INR (n_grid - 1)) /\
    (forall i t, mid (tE g) t < tE g (nt g) - grid_t_dep n_grid i * z_max / (1 - ahat * rpow z_max bhat) -> z i t = z_max).
Proof. exact table_claim. Qed.
Print Assumptions C74_mean_metallicity.
Example C74_example : exists zg z0 z1, z_interpolation_grid n_grid excube = Ok zg /\
  ent (zg_z zg) [500; 0]%nat = Fin z0 /\ ent (zg_z zg) [500; 1]%nat = Fin z1 /\ 0 < z1 <= z0.
Proof.
  destruct (C74_mean_metallicity excube exg excube_on exg_good) as (zg & z & E & _ & V & A & _).
  assert (K : (500 < n_grid)%nat) by (apply Nat.ltb_lt; reflexivity).
  exists zg, (z 500 0)%nat, (z 500 1)%nat. split; [exact E|].
  destruct (V 500 0)%nat as [V0 _]; [exact K|cbn; lia|]. destruct (V 500 1)%nat as [V1 P1]; [exact K|cbn; lia|].
  split; [exact V0|]. split; [exact V1|]. split; [lra|]. apply A; [cbn; lia|cbn; lia|]. unfold mid. cbn [exg tE INR]. lra.
Qed.
