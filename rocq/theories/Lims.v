(** * Lims: limits that are a single number or any number of values.

    The setters of GrowingDisk.v and Stream.v take limits as pairs.  Here they are
    what a caller may hand over: a Python number, or a list or tuple (or 1-d array)
    of numbers.  Nested lists are left out. *)
From Coq Require Import Reals List Bool Arith ZArith String Ascii.
From Verif Require Import Num Arr PyStr Cube Base Parametric GrowingDisk Stream Life.
Import ListNotations.
Local Open Scope string_scope.
Local Open Scope list_scope.

Inductive lims := Single (x : R) | Several (l : list R).
Definition entries (l : lims) : list R := match l with Single x => [x] | Several l => l end.

(** np.all(lims > 0.0), np.all(lims >= 0.0), np.all(lims <= 0.0); of no entries True *)
Definition all_pos_v (l : lims) : bool := forallb (Rltb 0) (entries l).
Definition all_nonneg_v (l : lims) : bool := forallb (Rleb 0) (entries l).
Definition all_nonpos_v (l : lims) : bool := forallb (fun x => Rleb x 0) (entries l).

(** f( *lims) for a function f of two arguments (an array of no axes cannot be iterated) *)
Definition star (l : lims) : res (R * R) :=
  match l with Several [a; b] => Ok (a, b) | _ => Err TypeError end.
(** a, b = lims *)
Definition unpack (l : lims) : res (R * R) :=
  match l with Several [a; b] => Ok (a, b) | Several _ => Err ValueError | Single _ => Err TypeError end.

(** ** ParametricComponent.set_p_t, parametric.py lines 101-127: the two quantiles
    are unpacked in line 109, after the test of line 102 *)
Definition v_p_t (L : stats_lib) (self : par) (lmd phi : R) (cdf_start_end : lims) : res par :=
  if negb (Rltb 1 (lmd * phi) || Rltb 1 (lmd * (1 - phi))) then Err ValueError else
  se <- unpack cdf_start_end ;;
  set_p_t L self lmd phi se.

(** ** GrowingDisk *)
(** q = self.linear_interpolate_t( *q_lims) with the two axes added *)
Definition v_interp (self : par) (l : lims) : res (arr num) := p <- star l ;; interp_t3 self p.

(** set_p_x_t, growing_disk.py lines 46-55: the checks, then the interpolations in
    their order; after these all limits are pairs and the rest is as in
    GrowingDisk.v *)
Definition v_disk_p_x_t (self : par) (q_lims rc_lims alpha_lims : lims) : res par :=
  _ <- py_assert (all_pos_v q_lims) ;;
  _ <- py_assert (all_pos_v rc_lims) ;;
  _ <- py_assert (all_nonneg_v alpha_lims) ;;
  _ <- v_interp self q_lims ;;
  _ <- v_interp self rc_lims ;;
  _ <- v_interp self alpha_lims ;;
  q <- star q_lims ;; rc <- star rc_lims ;; alpha <- star alpha_lims ;;
  disk_set_p_x_t self q rc alpha.

(** set_mu_v, lines 143-155 *)
Definition v_disk_mu_v (self : par) (q_lims rmax_lims vmax_lims : lims) : res par :=
  _ <- py_assert (all_pos_v q_lims) ;;
  _ <- py_assert (all_nonneg_v vmax_lims || all_nonpos_v vmax_lims)%bool ;;
  _ <- v_interp self q_lims ;;
  _ <- v_interp self rmax_lims ;;
  _ <- v_interp self vmax_lims ;;
  q <- star q_lims ;; rmax <- star rmax_lims ;; vmax <- star vmax_lims ;;
  disk_set_mu_v self q rmax vmax.

(** set_sig_v, lines 196-208 *)
Definition v_disk_sig_v (self : par) (q_lims alpha_lims sig_v_in_lims sig_v_out_lims : lims)
    (sigma_max sigma_min : R) : res par :=
  _ <- py_assert (all_pos_v q_lims) ;;
  _ <- py_assert (all_nonneg_v alpha_lims) ;;
  _ <- py_assert (all_pos_v sig_v_in_lims) ;;
  _ <- py_assert (all_pos_v sig_v_out_lims) ;;
  _ <- v_interp self q_lims ;;
  _ <- v_interp self alpha_lims ;;
  _ <- v_interp self sig_v_in_lims ;;
  _ <- v_interp self sig_v_out_lims ;;
  q <- star q_lims ;; alpha <- star alpha_lims ;; vi <- star sig_v_in_lims ;; vo <- star sig_v_out_lims ;;
  disk_set_sig_v self q alpha vi vo sigma_max sigma_min.

(** ** Stream: the component and its attribute theta_lims, as it was handed over
    (pa_theta_lims of the component is not used) *)
Definition v_stream : Type := par * option lims.

(** np.min, np.max of a list with at least one entry *)
Definition lmin (x : R) (l : list R) : R := fold_left Rmin l x.
Definition lmax (x : R) (l : list R) : R := fold_left Rmax l x.
(** stream.py lines 50-51; np.min of no entries is a ValueError *)
Definition v_angles (theta_lims : lims) : res unit :=
  match entries theta_lims with
  | [] => Err ValueError
  | x :: l => _ <- py_assert (Rleb (- PI) (lmin x l)) ;; py_assert (Rleb (lmax x l) PI)
  end.

(** set_p_x_t, lines 50-91: theta_lims is stored in line 52 and unpacked in line 54,
    mu_r_lims is unpacked in line 57 *)
Definition v_stream_p_x_t (L : stats_lib) (self : v_stream) (theta_lims mu_r_lims : lims) (sig : R) (nsmp : nat)
    : v_stream * res unit :=
  match v_angles theta_lims with
  | Err e => (self, Err e)
  | Ok _ =>
      match (th <- unpack theta_lims ;; r <- unpack mu_r_lims ;; stream_log_p_x_t L (fst self) th r sig nsmp) with
      | Ok a => ((put_log_p_x_t (fst self) a, Some theta_lims), Ok tt)
      | Err e => ((fst self, Some theta_lims), Err e)
      end
  end.

(** self.theta_lims[0] < self.theta_lims[1], line 112 *)
Definition ascending (l : lims) : res bool :=
  match l with
  | Single _ => Err TypeError
  | Several (a :: b :: _) => Ok (Rltb a b)
  | Several _ => Err IndexError
  end.
(** set_mu_v, lines 110-127 *)
Definition v_stream_mu_v (self : v_stream) (mu_v_lims : lims) : res par :=
  th <- bop narctan2 (pa_yyp (fst self)) (pa_xxp (fst self)) ;;
  lims <- attr (snd self) ;;
  up <- ascending lims ;;
  v <- unpack mu_v_lims ;;
  let lo_hi := if (up : bool) then v else (snd v, fst v) in
  mm <- match entries lims with [] => Err ValueError | x :: l => Ok (lmin x l, lmax x l) end ;;
  let mu_v := amap (stream_mu (fst lo_hi) (snd lo_hi) (fst mm) (snd mm)) th in
  t <- get_variable_values (pa_cube (fst self)) "t" ;;
  mu_v <- broadcast_to mu_v (len0 t :: shp mu_v) ;;
  Ok (put_mu_v (fst self) mu_v).

(** ** the setters called one after another *)
Inductive v_disk_call :=
| VPt (lmd phi : R) (cdf_start_end : lims)
| VPxt (q_lims rc_lims alpha_lims : lims)
| VTdep (q alpha t_dep_in t_dep_out t_dep_min t_dep_max : R)
| VMu (q_lims rmax_lims vmax_lims : lims)
| VSig (q_lims alpha_lims sig_v_in_lims sig_v_out_lims : lims) (sigma_max sigma_min : R).
Definition v_disk_step (L : stats_lib) (self : par) (c : v_disk_call) : par * res unit :=
  finish self
    match c with
    | VPt lmd phi se => v_p_t L self lmd phi se
    | VPxt q rc al => v_disk_p_x_t self q rc al
    | VTdep q al a b lo hi => disk_set_t_dep L self q al a b lo hi
    | VMu q r v => v_disk_mu_v self q r v
    | VSig q al vi vo smax smin => v_disk_sig_v self q al vi vo smax smin
    end.

Inductive v_stream_call :=
| WPt (lmd phi : R) (cdf_start_end : lims)
| WPxt (theta_lims mu_r_lims : lims) (sig : R) (nsmp : nat)
| WTdep (t_dep : R)
| WMu (mu_v_lims : lims)
| WSig (sig_v : R).
(** a setter that stores nothing unless it succeeds *)
Definition v_finish (self : v_stream) (r : res par) : v_stream * res unit :=
  match r with Ok p => ((p, snd self), Ok tt) | Err e => (self, Err e) end.
Definition v_stream_step (L : stats_lib) (self : v_stream) (c : v_stream_call) : v_stream * res unit :=
  match c with
  | WPt lmd phi se => v_finish self (v_p_t L (fst self) lmd phi se)
  | WPxt th r sig n => v_stream_p_x_t L self th r sig n
  | WTdep td => v_finish self (stream_set_t_dep L (fst self) td)
  | WMu v => v_finish self (v_stream_mu_v self v)
  | WSig s => v_finish self (Ok (stream_set_sig_v (fst self) s))
  end.
Definition v_disk_after (L : stats_lib) (self : par) (h : list v_disk_call) : par :=
  fold_left (fun p c => fst (v_disk_step L p c)) h self.
Definition v_stream_after (L : stats_lib) (self : v_stream) (h : list v_stream_call) : v_stream :=
  fold_left (fun p c => fst (v_stream_step L p c)) h self.
