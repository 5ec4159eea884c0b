(** * EvalSpec: flux of a datacube, and histories with evaluations (claims C76-C78). *)
From Coq Require Import Reals List Bool.
From Verif Require Import Num Spec LifeSpec ParEval.
Import ListNotations.
Local Open Scope R_scope.

(** the distribution of positions *)
Definition just_x : vset := VSet false false true false.
(** flux of a pixel, and of the whole datacube *)
Definition pixel_flux (n : nat) (y : nat -> nat -> nat -> R) (i j : nat) : R := Sum n (fun w => y w i j).
Definition all_flux (n nx ny : nat) (y : nat -> nat -> nat -> R) : R := Sum nx (fun i => Sum ny (fun j => pixel_flux n y i j)).

(** setters of the distribution of ages, positions and metallicities; all five *)
Definition needs_dist (k : setter) : bool := match k with Kt | Kx | Kz => true | _ => false end.
Definition needs_all (k : setter) : bool := true.

(** the setter calls of a history *)
Fixpoint setters {C} (h : list (call C)) : list C :=
  match h with [] => [] | CSet c :: h => c :: setters h | CEval _ :: h => setters h end.
