(** * Recs: what a GrowingDisk or a Stream keeps for the record.

    The setters of Life.v with the attributes which Parametric.v, GrowingDisk.v
    and Stream.v leave out: the dictionaries of parameters and the exponentials
    p_t, p_x_t and p_z_tx.  None of them is read by the package.  An attribute
    not yet assigned is [None]. *)
From Coq Require Import Reals List Bool Arith.
From Verif Require Import Num Arr PyStr Cube Base Parametric GrowingDisk Stream Life.
Import ListNotations.

(** np.digitize(x, bins) for increasing bins: the number of bins at or below x;
    nan sorts behind them all (the check that bins are monotonic left out) *)
Definition digitize (bins : arr num) (x : num) : nat :=
  if is_nan x then List.length (to_list bins)
  else List.length (filter (fun b => nle b x) (to_list bins)).

(** self.t_pars, parametric.py lines 112-119, apart from t_start, t_end and
    delta_t which are in [pa_t_pars] *)
Record t_note := TNote { tn_lmd : R; tn_phi : R; tn_idx : nat * nat }.
Definition note_t (self : par) (lmd phi : R) : option t_note :=
  option_map (fun tp => let edges := par_edges_t (c_ssps (pa_cube self)) in
                        TNote lmd phi (digitize edges (tp_start tp), digitize edges (tp_end tp)))
             (pa_t_pars self).
(** np.exp of an attribute which may not be there *)
Definition exp_attr (o : option (arr num)) : option (arr num) := option_map (amap nexp) o.

(** ** GrowingDisk *)
Record disk_recs := DiskRecs {
  dr_self : par;
  dr_t_pars : option t_note;
  dr_p_t : option (arr num);
  dr_x_t_pars : option ((R * R) * (R * R) * (R * R));              (* q_lims, rc_lims, alpha_lims *)
  dr_p_x_t : option (arr num);
  dr_t_dep_pars : option (R * R * R * R);                          (* q, alpha, t_dep_in, t_dep_out *)
  dr_p_z_tx : option (arr num);
  dr_mu_v_pars : option ((R * R) * (R * R) * (R * R));             (* q_lims, rmax_lims, vmax_lims *)
  dr_sig_v_pars : option ((R * R) * (R * R) * (R * R) * (R * R))   (* q_lims, alpha_lims, sig_v_in_lims, sig_v_out_lims *)
}.
Definition disk_recs_new (self : par) : disk_recs := DiskRecs self None None None None None None None None.

(** what an accepted call assigns besides what is in [par]: parametric.py lines
    112-126 and 291-293, growing_disk.py lines 59-68, 112-114, 168-169 and
    233-239.  As in Life.v, a call which raises assigns nothing. *)
Definition disk_note (s : disk_recs) (p : par) (c : disk_call) : disk_recs :=
  match s with
  | DiskRecs _ t pt x px z pz mu sig =>
      match c with
      | DPt lmd phi _ => DiskRecs p (note_t p lmd phi) (exp_attr (pa_log_p_t p)) x px z pz mu sig
      | DPxt q rc al => DiskRecs p t pt (Some (q, rc, al)) (exp_attr (pa_log_p_x_t p)) z pz mu sig
      | DTdep q al t_in t_out _ _ => DiskRecs p t pt x px (Some (q, al, t_in, t_out)) (exp_attr (pa_log_p_z_tx p)) mu sig
      | DMu q r v => DiskRecs p t pt x px z pz (Some (q, r, v)) sig
      | DSig q al vi vo _ _ => DiskRecs p t pt x px z pz mu (Some (q, al, vi, vo))
      end
  end.
Definition disk_rec_step (L : stats_lib) (s : disk_recs) (c : disk_call) : disk_recs * res unit :=
  match disk_step L (dr_self s) c with
  | (p, Ok tt) => (disk_note s p c, Ok tt)
  | (_, Err e) => (s, Err e)
  end.
Definition disk_recs_after (L : stats_lib) (s : disk_recs) (h : list disk_call) : disk_recs :=
  fold_left (fun s c => fst (disk_rec_step L s c)) h s.

(** calling the setters again with what was recorded, the rest by default:
    set_p_t(lmd=..., phi=...), parametric.py line 83; set_p_x_t, set_t_dep,
    set_mu_v and set_sig_v of the dictionaries, growing_disk.py lines 30, 70-78,
    116 and 171-179 *)
Definition again_p_t (n : t_note) : disk_call := DPt (tn_lmd n) (tn_phi n) (5 / 100, 95 / 100)%R.
Definition again_p_x_t (r : (R * R) * (R * R) * (R * R)) : disk_call :=
  match r with (q, rc, al) => DPxt q rc al end.
Definition again_t_dep (r : R * R * R * R) : disk_call :=
  match r with (q, al, t_in, t_out) => DTdep q al t_in t_out (1 / 10)%R 13%R end.
Definition again_mu_v (r : (R * R) * (R * R) * (R * R)) : disk_call :=
  match r with (q, rmax, vmax) => DMu q rmax vmax end.
Definition again_sig_v (r : (R * R) * (R * R) * (R * R) * (R * R)) : disk_call :=
  match r with (q, al, vi, vo) => DSig q al vi vo 500%R 10%R end.
Definition opt_call {A B} (f : A -> B) (o : option A) : list B := match o with Some a => [f a] | None => [] end.
Definition disk_again (s : disk_recs) : list disk_call :=
  opt_call again_p_t (dr_t_pars s) ++ opt_call again_p_x_t (dr_x_t_pars s) ++ opt_call again_t_dep (dr_t_dep_pars s) ++
  opt_call again_mu_v (dr_mu_v_pars s) ++ opt_call again_sig_v (dr_sig_v_pars s).

(** ** Stream: theta_lims is in [par] *)
Record stream_recs := StreamRecs {
  sr_self : par;
  sr_t_pars : option t_note;
  sr_p_t : option (arr num);
  sr_nsmp : option nat;
  sr_p_x_pars : option ((R * R) * (R * R) * R * nat);   (* theta_lims, mu_r_lims, sig, nsmp *)
  sr_p_z_tx : option (arr num);
  sr_mu_v_lims : option (R * R)
}.
Definition stream_recs_new (self : par) : stream_recs := StreamRecs self None None None None None None.

(** parametric.py lines 112-126 and 291-293, stream.py lines 52-66 and 124.
    set_p_x_t assigns nsmp and p_x_pars before anything of it can fail but the
    two assertions (np.linspace of no samples is an empty array). *)
Definition stream_rec_step (L : stats_lib) (s : stream_recs) (c : stream_call) : stream_recs * res unit :=
  match s with
  | StreamRecs self t pt n px pz mu =>
      let (p, r) := stream_step L self c in
      match c with
      | SPxt th mu_r sig nsmp =>
          match stream_angles_ok th with
          | Ok _ => (StreamRecs p t pt (Some nsmp) (Some (th, mu_r, sig, nsmp)) pz mu, r)
          | Err _ => (s, r)
          end
      | SPt lmd phi _ =>
          match r with
          | Ok _ => (StreamRecs p (note_t p lmd phi) (exp_attr (pa_log_p_t p)) n px pz mu, r)
          | Err _ => (s, r)
          end
      | STdep _ =>
          match r with
          | Ok _ => (StreamRecs p t pt n px (exp_attr (pa_log_p_z_tx p)) mu, r)
          | Err _ => (s, r)
          end
      | SMu v =>
          match r with Ok _ => (StreamRecs p t pt n px pz (Some v), r) | Err _ => (s, r) end
      | SSig _ => (StreamRecs p t pt n px pz mu, r)
      end
  end.
Definition stream_recs_after (L : stats_lib) (s : stream_recs) (h : list stream_call) : stream_recs :=
  fold_left (fun s c => fst (stream_rec_step L s c)) h s.

(** set_p_x_t of the dictionary p_x_pars and set_mu_v(stream.mu_v_lims) *)
Definition again_track (r : (R * R) * (R * R) * R * nat) : stream_call :=
  match r with (th, mu_r, sig, nsmp) => SPxt th mu_r sig nsmp end.
Definition again_lims (v : R * R) : stream_call := SMu v.
