(** * ParCentralSpec: which methods get_central_moment_v… have a parameter mu. *)
From Coq Require Import Reals List Bool String.
From Verif Require Import Num Arr Spec MomSpec.
Import ListNotations.

(** the distributions for which mu has to be given, though the documentation
    does not list it among the arguments *)
Definition needs_mu (C : vset) : bool :=
  negb (has_t C || has_x C || has_z C) || has_z C && negb (has_t C && has_x C).
(** a call with the arguments which the method has *)
Definition accepted (C : vset) (mu : option (arr num)) : Prop := needs_mu C = true <-> mu <> None.
