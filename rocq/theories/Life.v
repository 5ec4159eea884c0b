(** * Life: histories of setter calls on a GrowingDisk or a Stream.

    A call returns the component after the call together with what the caller
    sees: success or an exception, which the caller may catch and carry on.
    Queries do not change a component (Props_Heap.v), so a history is the list
    of its setter calls. *)
From Coq Require Import Reals List Bool.
From Verif Require Import Num Arr PyStr Cube Base Parametric GrowingDisk Stream.
Import ListNotations.

(** the setters with their arguments: parametric.py lines 83-126 and
    growing_disk.py lines 30-239 *)
Inductive disk_call :=
| DPt (lmd phi : R) (cdf_start_end : R * R)
| DPxt (q_lims rc_lims alpha_lims : R * R)
| DTdep (q alpha t_dep_in t_dep_out t_dep_min t_dep_max : R)
| DMu (q_lims rmax_lims vmax_lims : R * R)
| DSig (q_lims alpha_lims sig_v_in_lims sig_v_out_lims : R * R) (sigma_max sigma_min : R).

(** parametric.py lines 83-126 and stream.py lines 28-138 *)
Inductive stream_call :=
| SPt (lmd phi : R) (cdf_start_end : R * R)
| SPxt (theta_lims mu_r_lims : R * R) (sig : R) (nsmp : nat)
| STdep (t_dep : R)
| SMu (mu_v_lims : R * R)
| SSig (sig_v : R).

(** a call whose assignments are not reached when it raises: those of set_p_t
    and of the setters of GrowingDisk are, with nothing that can fail (for a
    cube with a grid, LifeLemmas.v) after the first of them *)
Definition finish (self : par) (r : res par) : par * res unit :=
  match r with Ok p => (p, Ok tt) | Err e => (self, Err e) end.

Definition disk_step (L : stats_lib) (self : par) (c : disk_call) : par * res unit :=
  finish self
    match c with
    | DPt lmd phi se => set_p_t L self lmd phi se
    | DPxt q rc al => disk_set_p_x_t self q rc al
    | DTdep q al a b lo hi => disk_set_t_dep L self q al a b lo hi
    | DMu q r v => disk_set_mu_v self q r v
    | DSig q al vi vo smax smin => disk_set_sig_v self q al vi vo smax smin
    end.

(** Stream.set_p_x_t, stream.py lines 50-91: the angles are stored in line 52,
    before everything that can fail except the two assertions *)
Definition stream_step_p_x_t (L : stats_lib) (self : par) (theta_lims mu_r_lims : R * R) (sig : R) (nsmp : nat)
    : par * res unit :=
  match stream_angles_ok theta_lims with
  | Err e => (self, Err e)
  | Ok _ =>
      let self := put_theta_lims self theta_lims in
      finish self (a <- stream_log_p_x_t L self theta_lims mu_r_lims sig nsmp ;; Ok (put_log_p_x_t self a))
  end.

Definition stream_step (L : stats_lib) (self : par) (c : stream_call) : par * res unit :=
  match c with
  | SPt lmd phi se => finish self (set_p_t L self lmd phi se)
  | SPxt th r sig n => stream_step_p_x_t L self th r sig n
  | STdep td => finish self (stream_set_t_dep L self td)
  | SMu v => finish self (stream_set_mu_v self v)
  | SSig s => finish self (Ok (stream_set_sig_v self s))
  end.

(** the component after a history *)
Definition disk_after (L : stats_lib) (self : par) (h : list disk_call) : par :=
  fold_left (fun p c => fst (disk_step L p c)) h self.
Definition stream_after (L : stats_lib) (self : par) (h : list stream_call) : par :=
  fold_left (fun p c => fst (stream_step L p c)) h self.
