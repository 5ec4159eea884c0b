(** * RecSpec: what the records of a component should say (claim C105).

    The arguments of the last accepted call of each setter, as LifeSpec.v
    remembers them. *)
From Coq Require Import Reals List Bool Arith.
From Verif Require Import Num Spec Life LifeSpec.
Import ListNotations.

(** ** disks *)
Definition said_p_x_t (k : disk_known) :=
  match dk_x k with Some (_, DPxt q rc al) => Some (q, rc, al) | _ => None end.
Definition said_t_dep (k : disk_known) :=
  match dk_z k with Some (DTdep q al t_in t_out _ _) => Some (q, al, t_in, t_out) | _ => None end.
Definition said_mu_v (k : disk_known) :=
  match dk_mu k with Some (_, DMu q r v) => Some (q, r, v) | _ => None end.
Definition said_sig_v (k : disk_known) :=
  match dk_sig k with Some (_, DSig q al vi vo _ _) => Some (q, al, vi, vo) | _ => None end.
Definition said_p_t (k : disk_known) :=
  match dk_t k with Some (DPt lmd phi _) => Some (lmd, phi) | _ => None end.

(** nothing is out of date: set_p_t has not been called since *)
Definition in_order (k : disk_known) : Prop :=
  forall o, In o [dk_x k; dk_mu k; dk_sig k] -> option_map fst o = dk_t k \/ o = None.
(** set_p_t was last called with the default quantiles *)
Definition default_quantiles (k : disk_known) : Prop :=
  match dk_t k with Some (DPt _ _ se) => se = (5 / 100, 95 / 100)%R | _ => True end.

(** ** streams: the last call of set_p_x_t with valid angles, successful or not *)
Fixpoint last_track (h : list stream_call) : option ((R * R) * (R * R) * R * nat) :=
  match h with
  | [] => None
  | c :: h' =>
      match last_track h' with
      | Some r => Some r
      | None => match c with
                | SPxt th mu_r sig n => if valid_angles th then Some (th, mu_r, sig, n) else None
                | _ => None
                end
      end
  end.
Definition s_said_p_t (k : stream_known) :=
  match sk_t k with Some (SPt lmd phi _) => Some (lmd, phi) | _ => None end.
Definition said_lims (k : stream_known) :=
  match sk_mu k with Some (_, SMu v) => Some v | _ => None end.

(** bin i of increasing edges holds x *)
Definition holds (edges : nat -> R) (i : nat) (x : R) : Prop := (edges i <= x < edges (S i))%R.
