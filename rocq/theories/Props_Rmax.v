(** * Props_Rmax: claim C108, rotation curves of a GrowingDisk with any radius of maximum. *)
From Coq Require Import Reals Lra Lia List Bool Arith ZArith String Ascii.
From Verif Require Import Num NumLemmas Arr PyStr Cube Base Parametric GrowingDisk Spec Repr ParSpec ParRepr
  ParSetSpec Build CubeGeom ParSetLemmas ParEnrich DiskLemmas ParBuild ParClaims ParExample RmaxClaims RmaxNan.
Import ListNotations.
Local Open Scope R_scope.

(** rmax is not checked (C45_invalid_arguments): the map for any rmax.  It is
    finite off the ellipse r = - 2 rmax, infinite or nan on it, and nan at every
    pixel of an age with rmax = 0. *)
Theorem C108_map : forall self g X Y s e,
  cube_on (pa_cube self) g -> xy_on self g X Y -> t_pars_on self s e ->
  forall q rmax vmax, posl q -> one_sign vmax ->
  exists self' a, disk_set_mu_v self q rmax vmax = Ok self' /\ pa_mu_v self' = Some a /\ shp a = [nt g; nx g; ny g] /\
    forall t x y, (t < nt g)%nat -> (x < nx g)%nat -> (y < ny g)%nat ->
      let at_t l := at_age s e l (mid (tE g) t) in let r := ell (at_t q) (X x y) (Y x y) in
      (at_t rmax <> 0 -> r <> - (2 * at_t rmax) ->
         ent a [t; x; y] = Fin (at_t vmax * (27 * at_t rmax ^ 2 * X x y / (r + 2 * at_t rmax) ^ 3))) /\
      (at_t rmax = 0 -> ent a [t; x; y] = NaN) /\
      (at_t rmax <> 0 -> r = - (2 * at_t rmax) ->
         (0 < at_t vmax * X x y -> ent a [t; x; y] = PInf) /\ (at_t vmax * X x y < 0 -> ent a [t; x; y] = NInf) /\
         (at_t vmax * X x y = 0 -> ent a [t; x; y] = NaN)).
Proof. exact rmax_claim. Qed.
Print Assumptions C108_map.

(** with a negative radius the inner disk turns the other way, and at the radius
    itself it is 27 times too fast *)
Theorem C108_negative_radius : forall self g X Y s e,
  cube_on (pa_cube self) g -> xy_on self g X Y -> t_pars_on self s e ->
  forall q rmax vmax, posl q -> one_sign vmax ->
  exists self' a, disk_set_mu_v self q rmax vmax = Ok self' /\ pa_mu_v self' = Some a /\
    forall t x y, (t < nt g)%nat -> (x < nx g)%nat -> (y < ny g)%nat ->
      let at_t l := at_age s e l (mid (tE g) t) in at_t rmax < 0 ->
      (ell (at_t q) (X x y) (Y x y) < - (2 * at_t rmax) -> 0 < at_t vmax -> 0 < X x y ->
         exists u, ent a [t; x; y] = Fin u /\ u < 0) /\
      (X x y = - at_t rmax -> Y x y = 0 -> ent a [t; x; y] = Fin (- (27 * at_t vmax))).
Proof. exact negative_claim. Qed.
Print Assumptions C108_negative_radius.

(** so C45_mean_velocity is false without its condition on rmax *)
Theorem C108_bound_refuted : ~ forall self g X Y s e,
  cube_on (pa_cube self) g -> xy_on self g X Y -> t_pars_on self s e ->
  forall q rmax vmax, posl q -> one_sign vmax -> (forall tau, at_age s e rmax tau <> 0) ->
  forall self' a t x y u, disk_set_mu_v self q rmax vmax = Ok self' -> pa_mu_v self' = Some a ->
    (t < nt g)%nat -> (x < nx g)%nat -> (y < ny g)%nat -> ent a [t; x; y] = Fin u ->
    Rabs u <= Rabs (at_age s e vmax (mid (tE g) t)).
Proof.
  intros H. destruct expar_ok as (X & Y & s & e & _ & _ & Hxy & X0 & Y0 & X1 & Y1 & _ & Ht & _).
  assert (Hc : forall c tau, at_age s e (c, c) tau = c) by (intros c tau; rewrite at_age_w; cbn; ring).
  destruct (C108_negative_radius expar exg X Y s e expar_cube Hxy Ht (1, 1) (- (1 / 2), - (1 / 2)) (100, 100)) as (self' & a & E & Ea & K);
    [split; cbn; lra|left; split; cbn; lra|].
  destruct (K 1 1 0)%nat as [_ V]; [cbn; lia|cbn; lia|cbn; lia|rewrite Hc; lra|]. rewrite !Hc in V.
  specialize (V ltac:(rewrite X1; lra) Y1).
  pose proof (H expar exg X Y s e expar_cube Hxy Ht (1, 1) (- (1 / 2), - (1 / 2)) (100, 100) ltac:(split; cbn; lra) ltac:(left; split; cbn; lra)
    ltac:(intros tau; rewrite Hc; lra) self' a 1%nat 1%nat 0%nat _ E Ea ltac:(cbn; lia) ltac:(cbn; lia) ltac:(cbn; lia) V) as B.
  rewrite Hc in B. rewrite Rabs_Ropp, !Rabs_right in B by lra. lra.
Qed.
Print Assumptions C108_bound_refuted.

(** a zero radius at one age makes p(v|t,x) nan at that age and the whole of p(v)
    nan, and leaves the distributions without velocity as they were *)
Theorem C108_zero_radius : forall L self g m X Y s e,
  par_on L self g m -> good_grid g -> good_par g m -> xy_on self g X Y -> t_pars_on self s e ->
  forall q rmax vmax, posl q -> one_sign vmax ->
  forall t0, (t0 < nt g)%nat -> at_age s e rmax (mid (tE g) t0) = 0 ->
  exists self', disk_set_mu_v self q rmax vmax = Ok self' /\
    (forall density, exists a, p_v_tx L self' density false = Ok a /\ shp a = [nv g; nt g; nx g; ny g] /\
       forall v x y, (v < nv g)%nat -> (x < nx g)%nat -> (y < ny g)%nat -> ent a [v; t0; x; y] = NaN) /\
    (forall density, exists a, p_tvx L self' density false = Ok a /\ shp a = [nt g; nv g; nx g; ny g] /\
       forall v x y, (v < nv g)%nat -> (x < nx g)%nat -> (y < ny g)%nat -> ent a [t0; v; x; y] = NaN) /\
    (forall density, exists a, p_v L self' density false = Ok a /\ shp a = [nv g] /\ forall v, (v < nv g)%nat -> ent a [v] = NaN) /\
    (forall n, In n ["t"; "x"; "z"; "tx"; "tz"; "xz"; "txz"; "x_t"; "z_tx"]%string -> par_table L self' n = par_table L self n).
Proof. exact zero_radius_claim. Qed.
Print Assumptions C108_zero_radius.

(** a disk with a finite map, one that is infinite at a pixel, one that is nan *)
Example C108_case :
  (exists self' a, disk_set_mu_v expar (1, 1) (- (1 / 2), - (1 / 2)) (100, 100) = Ok self' /\ pa_mu_v self' = Some a /\
     ent a [1; 1; 0]%nat = Fin (-2700)) /\
  (exists self' a, disk_set_mu_v expar (1, 1) (- (1 / 4), - (1 / 4)) (100, 100) = Ok self' /\ pa_mu_v self' = Some a /\
     ent a [1; 1; 0]%nat = PInf /\ ent a [1; 0; 0]%nat = NInf) /\
  (exists self' a, disk_set_mu_v expar (1, 1) (0, 0) (100, 100) = Ok self' /\ pa_mu_v self' = Some a /\ ent a [1; 1; 0]%nat = NaN).
Proof.
  destruct expar_ok as (X & Y & s & e & _ & _ & Hxy & X0 & Y0 & X1 & Y1 & _ & Ht & _).
  assert (Hc : forall c tau, at_age s e (c, c) tau = c) by (intros c tau; rewrite at_age_w; cbn; ring).
  split; [|split].
  - destruct (C108_negative_radius expar exg X Y s e expar_cube Hxy Ht (1, 1) (- (1 / 2), - (1 / 2)) (100, 100)) as (self' & a & E & Ea & K);
      [split; cbn; lra|left; split; cbn; lra|]. exists self', a. split; [exact E|]. split; [exact Ea|].
    destruct (K 1 1 0)%nat as [_ V]; [cbn; lia|cbn; lia|cbn; lia|rewrite Hc; lra|]. rewrite !Hc in V.
    rewrite V by (rewrite ?X1; lra). f_equal. lra.
  - destruct (C108_map expar exg X Y s e expar_cube Hxy Ht (1, 1) (- (1 / 4), - (1 / 4)) (100, 100)) as (self' & a & E & Ea & _ & K);
      [split; cbn; lra|left; split; cbn; lra|]. exists self', a. split; [exact E|]. split; [exact Ea|].
    destruct (K 1 1 0)%nat as (_ & _ & V); [cbn; lia|cbn; lia|cbn; lia|]. destruct (K 1 0 0)%nat as (_ & _ & W); [cbn; lia|cbn; lia|cbn; lia|].
    cbv zeta in V, W. rewrite !Hc, X1, Y1, ell_major, Rabs_right in V by lra. rewrite !Hc, X0, Y0, ell_major, Rabs_left in W by lra.
    split; [apply V; lra|apply W; lra].
  - destruct (C108_map expar exg X Y s e expar_cube Hxy Ht (1, 1) (0, 0) (100, 100)) as (self' & a & E & Ea & _ & K);
      [split; cbn; lra|left; split; cbn; lra|]. exists self', a. split; [exact E|]. split; [exact Ea|].
    destruct (K 1 1 0)%nat as (_ & V & _); [cbn; lia|cbn; lia|cbn; lia|]. apply V. apply Hc.
Qed.
Example C108_zero_case : exists self self' a, build_disk exL excube (1, 1 / 2) 0 exsfh exdisk = Ok self /\
  disk_set_mu_v self (1, 1) (0, 0) (100, 100) = Ok self' /\ p_v exL self' true false = Ok a /\ ent a [1]%nat = NaN /\
  p_tx self' true false = p_tx self true false.
Proof.
  destruct (disk_built exL excube exg exX exY (1, 1 / 2) 0 exsfh excube_on exg_good excube_xy exsfh_ok exL_norm exdisk exdisk_ok)
    as (self & E & Ec & Hxy & Ht & Hon & Hm).
  { eapply Rlt_le_trans; [|apply (max_abs_ge exg _ 0 0); cbn; lia]. apply Rabs_pos_lt.
    unfold rot_x, exX, exY, mid. cbn [exg xE yE fst snd INR]. rewrite cos_0, sin_0. lra. }
  destruct (C108_zero_radius exL self exg _ _ _ _ _ Hon exg_good Hm Hxy Ht (1, 1) (0, 0) (100, 100)
     ltac:(split; cbn; lra) ltac:(left; split; cbn; lra) 0%nat) as (self' & E' & _ & _ & Hv & Hn); [cbn; lia|rewrite at_age_w; cbn; ring|].
  destruct (Hv true) as (a & Ea & _ & Na). exists self, self', a. split; [exact E|]. split; [exact E'|]. split; [exact Ea|].
  split; [apply Na; cbn; lia|]. pose proof (Hn "tx"%string ltac:(cbn; tauto)) as T. cbn in T. injection T as T. rewrite T. reflexivity.
Qed.
