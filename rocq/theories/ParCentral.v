(** * ParCentral: calls of the methods get_central_moment_v… of a parametric
    component, popkinmocks/components/parametric.py lines 746-763, 860-876,
    902-919, 942-958, 984-1004, 1030-1048, 1072-1090 and 1115-1131.

    get_central_moment (base.py, lines 284-314) looks up get_mean_<dist> and
    get_noncentral_moment_<dist> only, so these methods are reached by calling
    them. *)
From Coq Require Import Reals List Bool Arith ZArith String Ascii.
From Verif Require Import Num Arr PyStr Cube Base Moments Parametric Mixture ParMoments.
Import ListNotations.
Local Open Scope string_scope.

(** a method whose parameters are j and light_weighted *)
Definition without_mu (f : nat -> bool -> res (arr num)) (j : nat) (mu : option (arr num)) (lw : bool) : res (arr num) :=
  match mu with None => f j lw | Some _ => Err TypeError end.
(** a method whose parameters are j, mu and light_weighted; mu has no default *)
Definition with_mu (f : nat -> arr num -> bool -> res (arr num)) (j : nat) (mu : option (arr num)) (lw : bool) : res (arr num) :=
  match mu with None => Err TypeError | Some c => f j c lw end.

(** self.get_central_moment_<dist>(j, light_weighted=lw), with mu = None, or
    self.get_central_moment_<dist>(j, mu=c, light_weighted=lw), with mu = Some c *)
Definition call_central (L : stats_lib) (f2m1 : num) (self : par) (dist : string) (j : nat) (mu : option (arr num)) (lw : bool)
  : res (arr num) :=
  match lookup
    [ ("v_tx", without_mu (fun j _ => central_v_tx f2m1 self j)); ("v_x", without_mu (central_v_x L f2m1 self));
      ("v_t", without_mu (central_v_t L f2m1 self)); ("v", with_mu (central_v L f2m1 self));
      ("v_txz", without_mu (fun j _ => central_v_txz f2m1 self j)); ("v_tz", with_mu (central_v_tz L f2m1 self));
      ("v_xz", with_mu (central_v_xz L f2m1 self)); ("v_z", with_mu (central_v_z L f2m1 self)) ] dist with
  | Some f => f j mu lw
  | None => Err AttributeError
  end.
