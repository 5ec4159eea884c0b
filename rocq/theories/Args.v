(** * Args: arguments left out of setter calls, and lists handed to a Stream.

    [None] is an argument left out.  The defaults of a GrowingDisk are tuples and
    numbers and its setters copy their arguments (np.array), so values suffice.
    The defaults theta_lims, mu_r_lims and mu_v_lims of a Stream are lists, made
    once when the class is, and set_p_x_t keeps the list theta_lims it is given:
    lists are objects here, numbered, with two entries each (other lengths are
    left out).  p_x_pars and mu_v_lims, which keep lists too, are never read. *)
From Coq Require Import Reals List Bool Arith.
From Verif Require Import Num Arr PyStr Cube Base Parametric GrowingDisk Stream Life.
Import ListNotations.

Definition or_else {A} (o : option A) (d : A) : A := match o with Some a => a | None => d end.

(** ** GrowingDisk: parametric.py line 83, growing_disk.py lines 30, 70-78, 116-118 and 171-179 *)
Inductive disk_kw :=
| KPt (lmd phi : option R) (cdf_start_end : option (R * R))
| KPxt (q_lims rc_lims alpha_lims : option (R * R))
| KTdep (q alpha t_dep_in t_dep_out t_dep_min t_dep_max : option R)
| KMu (q_lims rmax_lims vmax_lims : option (R * R))
| KSig (q_lims alpha_lims sig_v_in_lims sig_v_out_lims : option (R * R)) (sigma_max sigma_min : option R).

(** a left out lmd or phi is None, and None * x is a TypeError (line 59) *)
Definition pt_args (lmd phi : option R) : res (R * R) :=
  match lmd, phi with Some l, Some p => Ok (l, p) | _, _ => Err TypeError end.
Definition disk_fill (k : disk_kw) : res disk_call :=
  match k with
  | KPt lmd phi se => lp <- pt_args lmd phi ;; Ok (DPt (fst lp) (snd lp) (or_else se (5 / 100, 95 / 100)%R))
  | KPxt q rc al => Ok (DPxt (or_else q (5 / 10, 1 / 10)%R) (or_else rc (5 / 10, 1 / 10)%R) (or_else al (5 / 10, 2)%R))
  | KTdep q al a b lo hi =>
      Ok (DTdep (or_else q (1 / 10)%R) (or_else al (15 / 10)%R) (or_else a (5 / 10)%R) (or_else b 6%R)
                (or_else lo (1 / 10)%R) (or_else hi 13%R))
  | KMu q r v => Ok (DMu (or_else q (5 / 10, 5 / 10)%R) (or_else r (1 / 10, 1)%R) (or_else v (50, 250)%R))
  | KSig q al vi vo hi lo =>
      Ok (DSig (or_else q (5 / 10, 1 / 10)%R) (or_else al (15 / 10, 25 / 10)%R) (or_else vi (50, 250)%R)
               (or_else vo (10, 50)%R) (or_else hi 500%R) (or_else lo 10%R))
  end.
Definition disk_kw_step (L : stats_lib) (self : par) (k : disk_kw) : par * res unit :=
  match disk_fill k with Ok c => disk_step L self c | Err e => (self, Err e) end.
Definition disk_kw_after (L : stats_lib) (self : par) (h : list disk_kw) : par :=
  fold_left (fun p k => fst (disk_kw_step L p k)) h self.

(** ** Stream: parametric.py line 83, stream.py lines 28-30, 93, 103 and 129 *)
Inductive stream_kw :=
| TPt (lmd phi : option R) (cdf_start_end : option (R * R))
| TPxt (theta_lims mu_r_lims : option nat) (sig : option R) (nsmp : option nat)   (* lists by number *)
| TTdep (t_dep : option R)
| TMu (mu_v_lims : option nat)
| TSig (sig_v : option R).

(** the default lists: theta_lims and mu_r_lims of set_p_x_t (line 29), mu_v_lims of
    set_mu_v (line 103) *)
Definition theta_default : nat := 0.
Definition mu_r_default : nat := 1.
Definition mu_v_default : nat := 2.

(** the lists and the streams; a stream holds the list it keeps as theta_lims *)
Record world := World {
  w_list : nat -> R * R;
  w_stream : nat -> par * option nat
}.
Definition put {A} (f : nat -> A) (i : nat) (a : A) : nat -> A := fun j => if Nat.eqb j i then a else f j.

(** the call with the entries that the lists have now *)
Definition stream_fill (lists : nat -> R * R) (k : stream_kw) : res stream_call :=
  match k with
  | TPt lmd phi se => lp <- pt_args lmd phi ;; Ok (SPt (fst lp) (snd lp) (or_else se (5 / 100, 95 / 100)%R))
  | TPxt th r sig n =>
      Ok (SPxt (lists (or_else th theta_default)) (lists (or_else r mu_r_default)) (or_else sig (3 / 100)%R) (or_else n 75))
  | TTdep td => Ok (STdep (or_else td 3%R))
  | TMu v => Ok (SMu (lists (or_else v mu_v_default)))
  | TSig s => Ok (SSig (or_else s 100%R))
  end.
(** self with the entries which its list theta_lims has now *)
Definition look (lists : nat -> R * R) (s : par * option nat) : par :=
  match snd s with Some r => put_theta_lims (fst s) (lists r) | None => fst s end.
(** line 52: the list itself is kept, if its angles are valid (lines 50-51) *)
Definition keeps (lists : nat -> R * R) (k : stream_kw) (held : option nat) : option nat :=
  match k with
  | TPxt th _ _ _ =>
      match stream_angles_ok (lists (or_else th theta_default)) with Ok _ => Some (or_else th theta_default) | Err _ => held end
  | _ => held
  end.

(** what may happen: a list is given other entries, by whoever holds it (the
    caller, or through stream.theta_lims); a setter of stream i is called *)
Inductive event :=
| Edit (r : nat) (v : R * R)
| Call (i : nat) (k : stream_kw).
Definition world_step (L : stats_lib) (w : world) (e : event) : world * res unit :=
  match e with
  | Edit r v => (World (put (w_list w) r v) (w_stream w), Ok tt)
  | Call i k =>
      match stream_fill (w_list w) k with
      | Err e => (w, Err e)
      | Ok c =>
          let (p, out) := stream_step L (look (w_list w) (w_stream w i)) c in
          (World (w_list w) (put (w_stream w) i (p, keeps (w_list w) k (snd (w_stream w i)))), out)
      end
  end.
Definition world_after (L : stats_lib) (w : world) (h : list event) : world :=
  fold_left (fun w e => fst (world_step L w e)) h w.

(** a world of new streams; the default lists as written in stream.py *)
Definition default_lists (r : nat) : R * R :=
  match r with O => (0, PI / 2)%R | 1 => (7 / 10, 1 / 10)%R | 2 => (-100, 100)%R | _ => (0, 0)%R end.
Definition new_world (lists : nat -> R * R) (s0 : nat -> par) : world := World lists (fun i => (s0 i, None)).
