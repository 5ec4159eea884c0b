(** * Stream: popkinmocks/components/stream.py.

    The attributes nsmp, p_x_pars and mu_v_lims, kept for the record, are in
    Recs.v; lists as objects are in Args.v. *)
From Coq Require Import Reals List Bool Arith ZArith String Ascii.
From Verif Require Import Num Arr PyStr Cube Base Parametric GrowingDisk.
Import ListNotations.
Local Open Scope string_scope.

(** the assertions of lines 50-51 *)
Definition stream_angles_ok (theta_lims : R * R) : res unit :=
  _ <- py_assert (Rleb (- PI) (Rmin (fst theta_lims) (snd theta_lims))) ;;
  py_assert (Rleb (Rmax (fst theta_lims) (snd theta_lims)) PI).

(** lines 68-75 and 76-83 for one coordinate: log probability of each pixel's
    interval of length d, given each sample of the track *)
Definition stream_coord (L : stats_lib) (xx : arr num) (d : num) (mu_smp : arr num) (sig : R) : res (arr num) :=
  x3 <- getitem [IAll; IAll; INew] xx ;;
  hi <- bop nadd x3 (scal (ndiv d (Fin 2))) ;;
  lo <- bop nsub x3 (scal (ndiv d (Fin 2))) ;;
  chi <- norm_logcdf L mu_smp (scal (Fin sig)) hi ;;
  clo <- norm_logcdf L mu_smp (scal (Fin sig)) lo ;;
  logdiffexp chi clo.

(** set_p_x_t, lines 53-90: the array which line 91 stores *)
Definition stream_log_p_x_t (L : stats_lib) (self : par) (theta_lims mu_r_lims : R * R) (sig : R) (nsmp : nat)
    : res (arr num) :=
  let c := pa_cube self in
  let theta0 := fst theta_lims in
  let theta1 := snd theta_lims in
  let theta_smp := linspace theta0 theta1 nsmp in
  let mu_r_smp := amap (fun th =>
    nadd (Fin (fst mu_r_lims)) (nmul (Fin (snd mu_r_lims - fst mu_r_lims))
      (ndiv (nsub th (Fin theta0)) (Fin (theta1 - theta0))))) theta_smp in
  mu_x_smp <- bop nmul mu_r_smp (amap ncos theta_smp) ;;
  mu_y_smp <- bop nmul mu_r_smp (amap nsin theta_smp) ;;
  t <- get_variable_values c "t" ;;
  log_p_x <- stream_coord L (pa_xxp self) (c_dx c) mu_x_smp sig ;;
  log_p_y <- stream_coord L (pa_yyp self) (c_dy c) mu_y_smp sig ;;
  log_p_xy <- bop nadd log_p_x log_p_y ;;
  log_p_xy <- logsumexp log_p_xy [-1]%Z ;;
  log_normalisation <- logsumexp_all log_p_xy ;;
  log_p_xy <- iop nsub log_p_xy log_normalisation ;;
  log_p_xy <- iop nsub log_p_xy (log_dxdy self) ;;
  b <- broadcast_to log_p_xy (len0 t :: shp log_p_xy) ;;
  moveaxis b [0]%Z [-1]%Z.

(** set_p_x_t, lines 28-91, when it succeeds *)
Definition stream_set_p_x_t (L : stats_lib) (self : par) (theta_lims mu_r_lims : R * R) (sig : R) (nsmp : nat) : res par :=
  _ <- stream_angles_ok theta_lims ;;
  a <- stream_log_p_x_t L self theta_lims mu_r_lims sig nsmp ;;
  Ok (put_log_p_x_t (put_theta_lims self theta_lims) a).

(** set_t_dep, lines 93-101 *)
Definition stream_set_t_dep (L : stats_lib) (self : par) (t_dep : R) : res par :=
  set_p_z_tx L self (full [c_nx (pa_cube self); c_ny (pa_cube self)] (nmul (Fin t_dep) (Fin 1))).

(** lines 111-123 for one angle; the three assignments in their order *)
Definition stream_mu (mu_v_lo mu_v_hi min_th max_th : R) (th : num) : num :=
  let mu := Fin 0 in
  let mu := if nle th (Fin min_th) then Fin mu_v_lo else mu in
  let mu := if nle (Fin max_th) th then Fin mu_v_hi else mu in
  if (nlt (Fin min_th) th && nlt th (Fin max_th))%bool
  then nadd (nmul (ndiv (nsub th (Fin min_th)) (Fin (max_th - min_th))) (Fin (mu_v_hi - mu_v_lo))) (Fin mu_v_lo)
  else mu.

(** set_mu_v, lines 103-127 *)
Definition stream_set_mu_v (self : par) (mu_v_lims : R * R) : res par :=
  th <- bop narctan2 (pa_yyp self) (pa_xxp self) ;;
  lims <- attr (pa_theta_lims self) ;;
  let lo_hi := if Rltb (fst lims) (snd lims) then mu_v_lims else (snd mu_v_lims, fst mu_v_lims) in
  let mu_v := amap (stream_mu (fst lo_hi) (snd lo_hi)
                      (Rmin (fst lims) (snd lims)) (Rmax (fst lims) (snd lims))) th in
  t <- get_variable_values (pa_cube self) "t" ;;
  mu_v <- broadcast_to mu_v (len0 t :: shp mu_v) ;;
  Ok (put_mu_v self mu_v).

(** set_sig_v, lines 129-138 *)
Definition stream_set_sig_v (self : par) (sig_v : R) : par :=
  put_sig_v self (full [snd (par_dims (c_ssps (pa_cube self))); c_nx (pa_cube self); c_ny (pa_cube self)]
                       (nmul (Fin sig_v) (Fin 1))).
