(** * PertSpec: how far two distributions are apart (claim C107).  No arrays here,
    but for what it is to read one. *)
From Coq Require Import Reals List Bool.
From Verif Require Import Num Arr Spec MomSpec.
Import ListNotations.
Local Open Scope R_scope.

(** the sum of the differences over the bins of S, the other coordinates being
    those of bin [i] *)
Definition apart (g : grid) (S : vset) (i : bin) (r r' : bin -> R) : R :=
  sum_over g S i (fun j => Rabs (r j - r' j)).

(** the numbers in an array with the coordinates of S *)
Definition reads (g : grid) (a : arr num) (S : vset) (r : bin -> R) : Prop :=
  forall i, in_grid g i -> ent a (coords S i) = Fin (r i).
(** and in that of the distribution of A given C, in the column of bin [i] *)
Definition reads_given (g : grid) (a : arr num) (A C : vset) (i : bin) (r : bin -> R) : Prop :=
  forall j, In j (bins_over g A i) -> ent a (coords A j ++ coords C i)%list = Fin (r j).

(** from the centre of the first bin to that of the last *)
Definition span (g : grid) (k : coord) : R := mid (cedge g k) (cn g k - 1) - mid (cedge g k) 0.
