(** * LimsSpec: words for claim C109. *)
From Coq Require Import Reals List.
From Verif Require Import Num Arr Cube Parametric GrowingDisk Stream Life Lims.
Import ListNotations.
Local Open Scope R_scope.

(** limits of two values, and the calls with them *)
Definition of_pair (p : R * R) : lims := Several [fst p; snd p].
Definition two (l : lims) : Prop := exists p, l = of_pair p.
Definition v_of (c : disk_call) : v_disk_call :=
  match c with
  | DPt lmd phi se => VPt lmd phi (of_pair se)
  | DPxt q rc al => VPxt (of_pair q) (of_pair rc) (of_pair al)
  | DTdep q al a b lo hi => VTdep q al a b lo hi
  | DMu q r v => VMu (of_pair q) (of_pair r) (of_pair v)
  | DSig q al vi vo hi lo => VSig (of_pair q) (of_pair al) (of_pair vi) (of_pair vo) hi lo
  end.
Definition w_of (c : stream_call) : v_stream_call :=
  match c with
  | SPt lmd phi se => WPt lmd phi (of_pair se)
  | SPxt th r sig n => WPxt (of_pair th) (of_pair r) sig n
  | STdep td => WTdep td
  | SMu v => WMu (of_pair v)
  | SSig s => WSig s
  end.

(** all values of limits *)
Definition each (P : R -> Prop) (l : lims) : Prop := forall x, In x (entries l) -> P x.
(** the checks of the setters of a disk, and whether they are given pairs *)
Definition disk_checks (c : v_disk_call) : Prop :=
  match c with
  | VPxt q rc al => each (Rlt 0) q /\ each (Rlt 0) rc /\ each (Rle 0) al
  | VMu q _ v => each (Rlt 0) q /\ (each (Rle 0) v \/ each (fun x => x <= 0) v)
  | VSig q al vi vo _ _ => each (Rlt 0) q /\ each (Rle 0) al /\ each (Rlt 0) vi /\ each (Rlt 0) vo
  | _ => True
  end.
Definition disk_pairs (c : v_disk_call) : Prop :=
  match c with
  | VPxt q rc al => two q /\ two rc /\ two al
  | VMu q r v => two q /\ two r /\ two v
  | VSig q al vi vo _ _ => two q /\ two al /\ two vi /\ two vo
  | _ => True
  end.

(** a component but for pa_theta_lims, which Lims.v keeps beside it *)
Definition but_theta (p : par) : par :=
  Par (pa_cube p) (pa_xxp p) (pa_yyp p) (pa_zgrid p) (pa_t_pars p) (pa_log_p_t p) (pa_log_p_x_t p) (pa_t_dep p)
      (pa_log_p_z_tx p) (pa_mu_v p) (pa_sig_v p) None.
Definition same_stream (w : v_stream) (p : par) : Prop :=
  but_theta (fst w) = but_theta p /\ snd w = option_map of_pair (pa_theta_lims p).

(** what is wrong with limits that should be unpacked into two *)
Definition unpack_error (l : lims) : exn := match l with Single _ => TypeError | Several _ => ValueError end.

Definition least (x : R) (l : list R) : Prop := In x l /\ forall y, In y l -> x <= y.
Definition greatest (x : R) (l : list R) : Prop := In x l /\ forall y, In y l -> y <= x.
