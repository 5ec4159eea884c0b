(** * LifeSpec: what a history of setter calls should amount to (claim C54). *)
From Coq Require Import Reals List Bool.
From Verif Require Import Num Spec Life.
Import ListNotations.
Local Open Scope R_scope.

(** ** which setters a distribution needs *)
Inductive setter := Kt | Kx | Kz | Kmu | Ksig.

(** the factors p(t), p(x|t), p(z|t,x), p(v|t,x) of the joint which enter a
    marginal over S.  The mass-weighted p(t) is the first factor by itself;
    every other marginal integrates over positions as well; metallicities and
    velocities enter only the marginals that mention them, except that light
    weights depend on metallicity. *)
Definition needs_marg (lw : bool) (S : vset) (k : setter) : bool :=
  match k with
  | Kt => true
  | Kx => (lw || has_v S || has_x S || has_z S)%bool
  | Kz => (lw || has_z S)%bool
  | Kmu | Ksig => has_v S
  end.

(** mass-weighted p(x|t), p(z|t,x) and p(v|t,x) are factors by themselves; other
    conditionals need what the joint and the marginal need *)
Definition needs_cond (lw : bool) (A C : vset) (k : setter) : bool :=
  match lw, A, C with
  | false, VSet false false true false, VSet true false false false =>
      match k with Kx => true | _ => false end
  | false, VSet false false false true, VSet true false true false =>
      match k with Kz => true | _ => false end
  | false, VSet false true false false, VSet true false true false =>
      match k with Kmu | Ksig => true | _ => false end
  | _, _, _ => (needs_marg lw (union A C) k || needs_marg lw C k)%bool
  end.

(** ** validity of arguments *)
Definition both_pos (l : R * R) : bool := (Rltb 0 (fst l) && Rltb 0 (snd l))%bool.
Definition both_ge0 (l : R * R) : bool := (Rleb 0 (fst l) && Rleb 0 (snd l))%bool.
Definition both_le0 (l : R * R) : bool := (Rleb (fst l) 0 && Rleb (snd l) 0)%bool.
Definition between (x lo hi : R) : bool := (Rleb lo x && Rleb x hi)%bool.

(** the beta distribution has at most one mode at the ends *)
Definition valid_sfh (lmd phi : R) : bool := (Rltb 1 (lmd * phi) || Rltb 1 (lmd * (1 - phi)))%bool.
Definition disk_valid (c : disk_call) : bool :=
  match c with
  | DPt lmd phi _ => valid_sfh lmd phi
  | DPxt q rc al => (both_pos q && both_pos rc && both_ge0 al)%bool
  | DTdep q al a b lo hi =>
      (Rltb 0 q && Rleb 0 al && Rleb (1 / 10) lo && Rleb hi 13 && between a lo hi && between b lo hi)%bool
  | DMu q r v => (both_pos q && (both_ge0 v || both_le0 v))%bool
  | DSig q al vi vo _ _ => (both_pos q && both_ge0 al && both_pos vi && both_pos vo)%bool
  end.
Definition valid_angles (th : R * R) : bool := (between (fst th) (- PI) PI && between (snd th) (- PI) PI)%bool.

(** ** what is remembered of a history of a disk: the last accepted call of each
    setter and, for the three setters which vary their parameters with age, the
    call of set_p_t which was in force *)
Record disk_known := DiskKnown {
  dk_t : option disk_call;
  dk_x : option (disk_call * disk_call);
  dk_z : option disk_call;
  dk_mu : option (disk_call * disk_call);
  dk_sig : option (disk_call * disk_call)
}.
Definition disk_nothing := DiskKnown None None None None None.

(** a call is accepted when its arguments are valid and set_p_t has been
    accepted before if it is to vary anything with age *)
Definition uses_age (c : disk_call) : bool :=
  match c with DPt _ _ _ | DTdep _ _ _ _ _ _ => false | _ => true end.
Definition disk_sees (k : disk_known) (c : disk_call) : res unit :=
  if disk_valid c then
    if uses_age c then match dk_t k with Some _ => Ok tt | None => Err AttributeError end else Ok tt
  else match c with DPt _ _ _ => Err ValueError | _ => Err AssertionError end.

Definition disk_learn (k : disk_known) (c : disk_call) : disk_known :=
  match disk_sees k c, dk_t k with
  | Err _, _ => k
  | Ok _, age =>
    match c, age with
    | DPt _ _ _, _ => DiskKnown (Some c) (dk_x k) (dk_z k) (dk_mu k) (dk_sig k)
    | DTdep _ _ _ _ _ _, _ => DiskKnown (dk_t k) (dk_x k) (Some c) (dk_mu k) (dk_sig k)
    | DPxt _ _ _, Some f => DiskKnown (dk_t k) (Some (f, c)) (dk_z k) (dk_mu k) (dk_sig k)
    | DMu _ _ _, Some f => DiskKnown (dk_t k) (dk_x k) (dk_z k) (Some (f, c)) (dk_sig k)
    | DSig _ _ _ _ _ _, Some f => DiskKnown (dk_t k) (dk_x k) (dk_z k) (dk_mu k) (Some (f, c))
    | _, None => k
    end
  end.
Definition disk_history (h : list disk_call) : disk_known := fold_left disk_learn h disk_nothing.

Definition is_some {A} (o : option A) : bool := match o with Some _ => true | None => false end.
Definition disk_done (k : disk_known) (s : setter) : bool :=
  match s with
  | Kt => is_some (dk_t k) | Kx => is_some (dk_x k) | Kz => is_some (dk_z k)
  | Kmu => is_some (dk_mu k) | Ksig => is_some (dk_sig k)
  end.

(** the shortest history with the same memory *)
Definition pair_calls (o : option (disk_call * disk_call)) : list disk_call :=
  match o with Some (f, c) => [f; c] | None => [] end.
Definition one_call {A} (o : option A) : list A := match o with Some c => [c] | None => [] end.
Definition disk_replay (k : disk_known) : list disk_call :=
  pair_calls (dk_x k) ++ pair_calls (dk_mu k) ++ pair_calls (dk_sig k) ++ one_call (dk_z k) ++ one_call (dk_t k).

(** which setter a call is of *)
Definition disk_setter (c : disk_call) : setter :=
  match c with
  | DPt _ _ _ => Kt | DPxt _ _ _ => Kx | DTdep _ _ _ _ _ _ => Kz | DMu _ _ _ => Kmu | DSig _ _ _ _ _ _ => Ksig
  end.
Definition stream_setter (c : stream_call) : setter :=
  match c with
  | SPt _ _ _ => Kt | SPxt _ _ _ _ => Kx | STdep _ => Kz | SMu _ => Kmu | SSig _ => Ksig
  end.

(** ** of a stream: nothing depends on age, but set_mu_v uses the angles of the
    call of set_p_x_t in force, which set_p_x_t stores even when it fails for
    want of points on the track *)
Record stream_known := StreamKnown {
  sk_t : option stream_call;
  sk_x : option stream_call;
  sk_angles : option (R * R);
  sk_z : option stream_call;
  sk_mu : option ((R * R) * stream_call);
  sk_sig : option stream_call
}.
Definition stream_nothing := StreamKnown None None None None None None.

Definition stream_sees (k : stream_known) (c : stream_call) : res unit :=
  match c with
  | SPt lmd phi _ => if valid_sfh lmd phi then Ok tt else Err ValueError
  | SPxt th _ _ n =>
      if valid_angles th then match n with O => Err ValueError | S _ => Ok tt end else Err AssertionError
  | SMu _ => match sk_angles k with Some _ => Ok tt | None => Err AttributeError end
  | STdep _ | SSig _ => Ok tt
  end.
Definition stream_learn (k : stream_known) (c : stream_call) : stream_known :=
  match c with
  | SPt lmd phi _ =>
      if valid_sfh lmd phi
      then StreamKnown (Some c) (sk_x k) (sk_angles k) (sk_z k) (sk_mu k) (sk_sig k) else k
  | SPxt th _ _ n =>
      if valid_angles th
      then StreamKnown (sk_t k) (match n with O => sk_x k | S _ => Some c end) (Some th) (sk_z k) (sk_mu k) (sk_sig k)
      else k
  | STdep _ => StreamKnown (sk_t k) (sk_x k) (sk_angles k) (Some c) (sk_mu k) (sk_sig k)
  | SMu _ =>
      match sk_angles k with
      | Some th => StreamKnown (sk_t k) (sk_x k) (sk_angles k) (sk_z k) (Some (th, c)) (sk_sig k)
      | None => k
      end
  | SSig _ => StreamKnown (sk_t k) (sk_x k) (sk_angles k) (sk_z k) (sk_mu k) (Some c)
  end.
Definition stream_history (h : list stream_call) : stream_known := fold_left stream_learn h stream_nothing.

Definition stream_done (k : stream_known) (s : setter) : bool :=
  match s with
  | Kt => is_some (sk_t k) | Kx => is_some (sk_x k) | Kz => is_some (sk_z k)
  | Kmu => is_some (sk_mu k) | Ksig => is_some (sk_sig k)
  end.

(** [Ok] with some array when everything needed is done, AttributeError otherwise *)
Definition all_done (needs done : setter -> bool) : bool :=
  forallb (fun k => implb (needs k) (done k)) [Kt; Kx; Kz; Kmu; Ksig].
