(** * CalibClaims: lemmas for Props_Calib. *)
From Coq Require Import Reals Lra Lia List Bool Arith ZArith String Ascii.
From Verif Require Import Num NumLemmas Arr PyStr Cube Base Parametric Spec Repr ParSpec ParRepr ParSetSpec
  ParEnrich ParClaims Save SaveLemmas CalibSpec.
Import ListNotations.
Local Open Scope R_scope.

Lemma ln10_pos : 0 < ln 10.
Proof. rewrite <- ln_1. apply ln_increasing; lra. Qed.

Lemma calibrated_ok mu : calibrated mu (ahat * Rpower mu bhat).
Proof.
  pose proof ln10_pos as H. unfold calibrated, ahat, bhat. split.
  - apply Rmult_lt_0_compat; apply exp_pos.
  - rewrite ln_mult by apply exp_pos. unfold Rpower. rewrite !ln_exp. field. lra.
Qed.

Lemma table_top_ok : table_top z_max.
Proof.
  pose proof ln10_pos as H. exists (Rpower ahat (- 1 / bhat)). split; [apply exp_pos|]. split.
  - unfold ahat, bhat, Rpower. rewrite !ln_exp. field. lra.
  - unfold z_max. lra.
Qed.

Lemma calibration_claim L self g (t_dep : arr num) (td : map2d) :
  cube_on (pa_cube self) g -> good_grid g -> zgrid_on self g -> good_norm (norm_cdf L) ->
  shp t_dep = [nx g; ny g] -> (forall x y, (x < nx g)%nat -> (y < ny g)%nat -> ent t_dep [x; y] = Fin (td x y)) ->
  exists self' a p mu var, set_p_z_tx L self t_dep = Ok self' /\ pa_log_p_z_tx self' = Some a /\
    (forall t x y k, (t < nt g)%nat -> (x < nx g)%nat -> (y < ny g)%nat -> (k < nz g)%nat ->
       ent a [k; t; x; y] = nlog (Fin (p t x y k)) /\ 0 < p t x y k) /\
    (forall t x y, (t < nt g)%nat -> calibrated (mu t x y) (var t x y) /\
       mu t x y = zm g (td x y) t /\
       forall k l, (k < nz g)%nat -> (l < nz g)%nat ->
         p t x y k * wid (zE g) k * (znorm g (norm_cdf L) (mu t x y) (var t x y) l * wid (zE g) l) =
         p t x y l * wid (zE g) l * (znorm g (norm_cdf L) (mu t x y) (var t x y) k * wid (zE g) k)).
Proof.
  intros H1 H2 H3 H4 H5 H6. destruct (enrich_claim L self g t_dep td H1 H2 H3 H4 H5 H6) as (s & a & p & E & Ea & _ & Hp & _ & HN).
  exists s, a, p, (fun t x y => zm g (td x y) t), (fun t x y => ahat * Rpower (zm g (td x y) t) bhat).
  split; [exact E|]. split; [exact Ea|]. split; [exact Hp|]. intros t x y Ht. split; [apply calibrated_ok|]. split; [reflexivity|].
  destruct (HN t x y Ht) as (_ & H & _). exact H.
Qed.

Lemma calib_table_claim c g : cube_on c g -> good_grid g ->
  exists zg z top, z_interpolation_grid n_grid c = Ok zg /\ table_top top /\
    (forall i t, (i < n_grid)%nat -> (t < nt g)%nat -> ent (zg_z zg) [i; t] = Fin (z i t) /\ 0 < z i t <= top) /\
    (forall i t zz var, 0 < zz <= top -> calibrated zz var ->
       mid (tE g) t = tE g (nt g) - Rpower 10 (-1 + INR i * (2 / 999)) * zz / (1 - var) ->
       Rabs (z i t - zz) <= top / 999).
Proof.
  intros H1 H2. destruct (table_claim c g H1 H2) as (zg & z & E & _ & Hz & _ & Hs & _).
  exists zg, z, z_max. split; [exact E|]. split; [exact table_top_ok|]. split; [exact Hz|].
  intros i t zz var Hzz Hc Hm.
  assert (N : INR (n_grid - 1) = 999) by (unfold n_grid; rewrite INR_IZR_INZ; f_equal).
  assert (V : var = ahat * rpow zz bhat).
  { unfold rpow. destruct (Rlt_dec 0 zz) as [_|C]; [|lra]. destruct Hc as [V0 V1], (calibrated_ok zz) as [W0 W1].
    apply ln_inv; [exact V0|exact W0|]. rewrite <- W1 in V1. pose proof ln10_pos.
    apply (Rmult_eq_reg_r (/ ln 10)); [exact V1|]. apply Rinv_neq_0_compat. lra. }
  rewrite <- N. apply Hs; [exact Hzz|]. rewrite Hm, V. unfold grid_t_dep. rewrite N. do 4 f_equal. f_equal. f_equal. lra.
Qed.

(** ** names *)
Lemma ends_npz_iff s : ends_npz s = true <-> has_npz s.
Proof.
  induction s as [|c s IH]; cbn [ends_npz].
  - split; [discriminate|]. intros [[|c r] H]; discriminate H.
  - destruct (String.eqb (String c s) ".npz") eqn:E.
    + apply String.eqb_eq in E. split; [|reflexivity]. intros _. exists ""%string. exact E.
    + rewrite IH. split.
      * intros [r ->]. exists (String c r). reflexivity.
      * intros [[|c' r] H]; cbn in H; [rewrite H in E; discriminate E|]. injection H as _ ->. exists r. reflexivity.
Qed.

Lemma npz_file_claim f self n fname yobs d : npz_args self yobs = Ok n ->
  exists name, save_numpy f self fname yobs (Some d) = (Fs (fs_dirs (mkdir f d)) ((name, FNpz n) :: fs_files f), Ok tt) /\
    has_npz name /\ (has_npz (d ++ fname) -> name = d ++ fname)%string /\
    (~ has_npz (d ++ fname) -> name = d ++ fname ++ ".npz")%string.
Proof.
  intros En. exists (npz_name (d ++ fname)). split.
  { unfold save_numpy, write. rewrite En. unfold mkdir. destruct (isdir f d); reflexivity. }
  unfold npz_name. destruct (ends_npz (d ++ fname)) eqn:E.
  - apply ends_npz_iff in E. split; [exact E|]. split; [reflexivity|contradiction].
  - split; [exists (d ++ fname)%string; reflexivity|]. split.
    + intros H. apply ends_npz_iff in H. congruence.
    + intros _. clear. induction d as [|c d IH]; cbn; [reflexivity|f_equal; exact IH].
Qed.
