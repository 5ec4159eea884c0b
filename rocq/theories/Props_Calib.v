(** * Further claims C47, C72 and C74: the calibration with its numbers written
    out and the names of saved files. *)
From Coq Require Import Reals Lra Lia List Bool Arith ZArith String Ascii.
From Verif Require Import Num NumLemmas Arr PyStr Cube Base Parametric Spec Repr ParSpec ParRepr ParSetSpec
  Build ParEnrich ParClaims ParExample Mixture MixSpec MixExample Save SaveLemmas CalibSpec CalibClaims.
Import ListNotations.
Local Open Scope R_scope.

(** ** C47 *)
(** the variance used at mean metallicity mu has log10 equal to -0.689 + 0.899 log10 mu *)
Theorem C47_calibration : forall L self g (t_dep : arr num) (td : map2d),
  cube_on (pa_cube self) g -> good_grid g -> zgrid_on self g -> good_norm (norm_cdf L) ->
  shp t_dep = [nx g; ny g] -> (forall x y, (x < nx g)%nat -> (y < ny g)%nat -> ent t_dep [x; y] = Fin (td x y)) ->
  exists self' a p mu var, set_p_z_tx L self t_dep = Ok self' /\ pa_log_p_z_tx self' = Some a /\
    (forall t x y k, (t < nt g)%nat -> (x < nx g)%nat -> (y < ny g)%nat -> (k < nz g)%nat ->
       ent a [k; t; x; y] = nlog (Fin (p t x y k)) /\ 0 < p t x y k) /\
    (forall t x y, (t < nt g)%nat -> calibrated (mu t x y) (var t x y) /\
       mu t x y = zm g (td x y) t /\
       forall k l, (k < nz g)%nat -> (l < nz g)%nat ->
         p t x y k * wid (zE g) k * (znorm g (norm_cdf L) (mu t x y) (var t x y) l * wid (zE g) l) =
         p t x y l * wid (zE g) l * (znorm g (norm_cdf L) (mu t x y) (var t x y) k * wid (zE g) k)).
Proof. exact calibration_claim. Qed.
Print Assumptions C47_calibration.
Example C47_calibration_case : exists self' mu var, set_p_z_tx exL expar (Arr [nx exg; ny exg] (fun _ => Fin 5)) = Ok self' /\
  calibrated (mu 0%nat) (var 0%nat) /\ mu 0%nat = zm exg 5 0.
Proof.
  destruct expar_ok as (X & Y & s & e & _ & _ & Hxy & _ & _ & _ & _ & Hz & _ & Hm).
  destruct (C47_calibration exL expar exg (Arr [nx exg; ny exg] (fun _ => Fin 5)) (fun _ _ => 5) expar_cube exg_good Hz exL_norm
    eq_refl (fun _ _ _ _ => eq_refl)) as (s' & a & p & mu & var & E & _ & _ & H).
  exists s', (fun t => mu t 0%nat 0%nat), (fun t => var t 0%nat 0%nat). split; [exact E|].
  destruct (H 0%nat 0%nat 0%nat ltac:(cbn; lia)) as (H1 & H2 & _). split; [exact H1|exact H2].
Qed.

(** ** C74 *)
(** the table solves the enrichment equation with that variance relation, for
    depletion times from 0.1 in steps of 2/999 dex *)
Theorem C74_calibrated_table : forall c g, cube_on c g -> good_grid g ->
  exists zg z top, z_interpolation_grid n_grid c = Ok zg /\ table_top top /\
    (forall i t, (i < n_grid)%nat -> (t < nt g)%nat -> ent (zg_z zg) [i; t] = Fin (z i t) /\ 0 < z i t <= top) /\
    (forall i t zz var, 0 < zz <= top -> calibrated zz var ->
       mid (tE g) t = tE g (nt g) - Rpower 10 (-1 + INR i * (2 / 999)) * zz / (1 - var) ->
       Rabs (z i t - zz) <= top / 999).
Proof. exact calib_table_claim. Qed.
Print Assumptions C74_calibrated_table.
Example C74_calibrated_table_case : exists zg top, z_interpolation_grid n_grid excube = Ok zg /\ table_top top /\
  exists z, ent (zg_z zg) [7; 1]%nat = Fin z /\ 0 < z <= top.
Proof.
  destruct (C74_calibrated_table excube exg excube_on exg_good) as (zg & z & top & E & T & V & _).
  exists zg, top. split; [exact E|]. split; [exact T|]. exists (z 7%nat 1%nat). apply V; [unfold n_grid; lia|cbn; lia].
Qed.

(** ** C72 *)
(** save_numpy writes one file; its name has the extension .npz, which is
    appended only when the given name lacks it *)
Theorem C72_npz_name : forall f self n fname yobs d, npz_args self yobs = Ok n ->
  exists name, save_numpy f self fname yobs (Some d) = (Fs (fs_dirs (mkdir f d)) ((name, FNpz n) :: fs_files f), Ok tt) /\
    has_npz name /\ (has_npz (d ++ fname) -> name = d ++ fname)%string /\
    (~ has_npz (d ++ fname) -> name = d ++ fname ++ ".npz")%string.
Proof. exact npz_file_claim. Qed.
Print Assumptions C72_npz_name.
Example C72_npz_name_case : exists n, npz_args (mixture_saved exSmix (Some (scal (Fin 1)))) None = Ok n /\
  save_numpy (Fs [] []) (mixture_saved exSmix (Some (scal (Fin 1)))) "a.npz" None (Some "out/"%string) =
    (Fs ["out/"] [("out/a.npz", FNpz n)], Ok tt)%string /\
  save_numpy (Fs [] []) (mixture_saved exSmix (Some (scal (Fin 1)))) "a.np" None (Some "out/"%string) =
    (Fs ["out/"] [("out/a.np.npz", FNpz n)], Ok tt)%string.
Proof.
  destruct exSmix_on as [cs Hon].
  destruct (mixture_saved_claim exSmix exg cs expts Hon exg_good (Fs [] []) 3%nat "a" None (scal (Fin 1)) "out/" eq_refl)
    as (n & E & _). exists n.
  assert (En : npz_args (mixture_saved exSmix (Some (scal (Fin 1)))) None = Ok n).
  { unfold save_numpy in E. destruct (npz_args (mixture_saved exSmix (Some (scal (Fin 1)))) None) as [m|e]; [|discriminate E].
    injection E as ->. reflexivity. }
  split; [exact En|]. unfold save_numpy. rewrite En. split; reflexivity.
Qed.
