(** * Regroup: the same mixture written differently. *)
From Coq Require Import Reals List Permutation.
Import ListNotations.
Local Open Scope R_scope.

(** Lists of things with weights which differ by the order of the entries and
    by several entries of one thing being taken together, their weights added. *)
Inductive regroup {A : Type} : list (A * R) -> list (A * R) -> Prop :=
| rg_order l l' : Permutation l l' -> regroup l l'
| rg_merge a u v l : regroup ((a, u) :: (a, v) :: l) ((a, u + v) :: l)
| rg_sym l l' : regroup l l' -> regroup l' l
| rg_trans l l' l'' : regroup l l' -> regroup l' l'' -> regroup l l''.
