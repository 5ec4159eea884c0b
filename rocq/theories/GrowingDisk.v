(** * GrowingDisk: popkinmocks/components/growing_disk.py.

    Limits are pairs (young, old) of real numbers.  The dictionaries of
    parameters kept for the record and the attribute p_x_t are in Recs.v. *)
From Coq Require Import Reals List Bool Arith ZArith String Ascii.
From Verif Require Import Num Arr PyStr Cube Base Parametric.
Import ListNotations.
Local Open Scope string_scope.

(** np.all(lims > 0.0), np.all(lims >= 0.0) *)
Definition all_pos (l : R * R) : bool := (Rltb 0 (fst l) && Rltb 0 (snd l))%bool.
Definition all_nonneg (l : R * R) : bool := (Rleb 0 (fst l) && Rleb 0 (snd l))%bool.

(** self.linear_interpolate_t over the limits, with axes [:, np.newaxis, np.newaxis] added *)
Definition interp_t3 (self : par) (l : R * R) : res (arr num) :=
  a <- linear_interpolate_t self (Fin (fst l)) (Fin (snd l)) ;;
  getitem [IAll; INew; INew] a.

(** rr2 = self.xxp ** 2 + (self.yyp / q) ** 2; rr = rr2 ** 0.5 (lines 61-62, 102-103, 165-166, 214-215) *)
Definition ell_radius (self : par) (q : arr num) : res (arr num) :=
  yq <- bop ndiv (pa_yyp self) q ;;
  rr2 <- bop nadd (amap (fun a => npow a 2) (pa_xxp self)) (amap (fun a => npow a 2) yq) ;;
  Ok (amap nsqrt rr2).

(** set_p_x_t, lines 30-68; np.rollaxis(a, 0, 3) of a 3-d array moves axis 0 to the end *)
Definition disk_set_p_x_t (self : par) (q_lims rc_lims alpha_lims : R * R) : res par :=
  _ <- py_assert (all_pos q_lims) ;;
  _ <- py_assert (all_pos rc_lims) ;;
  _ <- py_assert (all_nonneg alpha_lims) ;;
  q <- interp_t3 self q_lims ;;
  rc <- interp_t3 self rc_lims ;;
  alpha <- interp_t3 self alpha_lims ;;
  rr <- ell_radius self q ;;
  r <- bop nadd rr rc ;;
  log_rho <- bop (fun a r => nmul (nneg a) (nlog r)) alpha r ;;
  w <- bop nadd log_rho (log_dxdy self) ;;
  log_normalisation <- logsumexp w [1; 2]%Z ;;
  log_rho <- bop nsub (T log_rho) log_normalisation ;;
  log_p_x_t <- moveaxis (T log_rho) [0]%Z [-1]%Z ;;
  Ok (put_log_p_x_t self log_p_x_t).

(** np.max(np.abs(self.xxp)) *)
Definition max_abs_x1 (self : par) : res num :=
  if has_zero (shp (pa_xxp self)) then Err ValueError
  else Ok (amax (map (fun idx => nabs (ent (pa_xxp self) idx)) (all_idx (shp (pa_xxp self))))).

(** value_in + delta * (rr / max_abs_x1) ** alpha *)
Definition power_law (v_in v_out rr m alpha : num) : num :=
  nadd v_in (nmul (nsub v_out v_in) (npowr (ndiv rr m) alpha)).

(** set_t_dep, lines 70-114 *)
Definition disk_set_t_dep (L : stats_lib) (self : par)
    (q alpha t_dep_in t_dep_out t_dep_min t_dep_max : R) : res par :=
  _ <- py_assert (Rltb 0 q) ;;
  _ <- py_assert (Rleb 0 alpha) ;;
  _ <- py_assert (Rleb (1 / 10) t_dep_min) ;;
  _ <- py_assert (Rleb t_dep_max 13) ;;
  _ <- py_assert (Rleb t_dep_min t_dep_in && Rleb t_dep_in t_dep_max)%bool ;;
  _ <- py_assert (Rleb t_dep_min t_dep_out && Rleb t_dep_out t_dep_max)%bool ;;
  rr <- ell_radius self (scal (Fin q)) ;;
  m <- max_abs_x1 self ;;
  let t_dep := amap (fun r => power_law (Fin t_dep_in) (Fin t_dep_out) r m (Fin alpha)) rr in
  let t_dep := amap (fun a =>
    if (if Rleb t_dep_in t_dep_out then nlt (Fin t_dep_out) a else nlt a (Fin t_dep_out))
    then Fin t_dep_out else a) t_dep in
  set_p_z_tx L self t_dep.

(** np.arctan2(y, x); with no signed zero, arctan2(0, x) is pi for every x < 0 *)
Definition arctan2 (y x : R) : R :=
  if Rlt_dec 0 x then atan (y / x)
  else if Rlt_dec x 0 then (if Rle_dec 0 y then atan (y / x) + PI else atan (y / x) - PI)%R
  else if Rlt_dec 0 y then (PI / 2)%R
  else if Rlt_dec y 0 then (- (PI / 2))%R
  else 0%R.
Definition narctan2 (y x : num) : num :=
  match y, x with Fin y, Fin x => Fin (arctan2 y x) | _, _ => NaN end.
Definition ncos (a : num) : num := match a with Fin x => Fin (cos x) | _ => NaN end.
Definition nsin (a : num) : num := match a with Fin x => Fin (sin x) | _ => NaN end.

(** set_mu_v, lines 116-169 *)
Definition disk_set_mu_v (self : par) (q_lims rmax_lims vmax_lims : R * R) : res par :=
  _ <- py_assert (all_pos q_lims) ;;
  _ <- py_assert ((Rleb 0 (fst vmax_lims) && Rleb 0 (snd vmax_lims)) ||
                  (Rleb (fst vmax_lims) 0 && Rleb (snd vmax_lims) 0))%bool ;;
  q <- interp_t3 self q_lims ;;
  rmax <- interp_t3 self rmax_lims ;;
  vmax <- interp_t3 self vmax_lims ;;
  let rc := amap (nmul (Fin 2)) rmax in
  s <- bop nadd rmax rc ;;
  k <- bop (fun v s => nmul v (npow s 3)) vmax s ;;
  k <- bop ndiv k rmax ;;
  yq <- bop ndiv (pa_yyp self) q ;;
  th <- bop narctan2 yq (pa_xxp self) ;;
  rr <- ell_radius self q ;;
  kr <- bop nmul k rr ;;
  d <- bop nadd rr rc ;;
  f <- bop (fun a d => ndiv a (npow d 3)) kr d ;;
  mu_v <- bop nmul f (amap ncos th) ;;
  Ok (put_mu_v self mu_v).

(** set_sig_v, lines 171-239.  The loop over ages acts on the whole array at
    once; sigma_max and sigma_min are accepted but never used. *)
Definition disk_set_sig_v (self : par) (q_lims alpha_lims sig_v_in_lims sig_v_out_lims : R * R)
    (sigma_max sigma_min : R) : res par :=
  _ <- py_assert (all_pos q_lims) ;;
  _ <- py_assert (all_nonneg alpha_lims) ;;
  _ <- py_assert (all_pos sig_v_in_lims) ;;
  _ <- py_assert (all_pos sig_v_out_lims) ;;
  q <- interp_t3 self q_lims ;;
  alpha <- interp_t3 self alpha_lims ;;
  sig_v_in <- interp_t3 self sig_v_in_lims ;;
  sig_v_out <- interp_t3 self sig_v_out_lims ;;
  rr <- ell_radius self q ;;
  m <- max_abs_x1 self ;;
  io <- bop pair sig_v_in sig_v_out ;;
  ra <- bop pair rr alpha ;;
  sigma <- bop (fun io ra => power_law (fst io) (snd io) (fst ra) m (snd ra)) io ra ;;
  sigma <- bop (fun io a =>
    if (if nlt (fst io) (snd io) then nlt (snd io) a else nlt a (snd io))
    then snd io else a) io sigma ;;
  Ok (put_sig_v self sigma).
