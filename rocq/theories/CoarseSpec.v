(** * CoarseSpec: a grid whose bins are runs of consecutive bins of another. *)
From Coq Require Import Reals List Bool Arith.
From Verif Require Import Num Spec.
Import ListNotations.
Local Open Scope R_scope.

(** where the coarse bins of each coordinate start: coarse bin [k] holds the
    fine bins [s k], ..., [s (k + 1) - 1] *)
Record cuts := Cuts { st : nat -> nat; sv : nat -> nat; sx : nat -> nat; sy : nat -> nat; sz : nat -> nat }.

(** the coarse edges [E'] are edges of the fine axis, the outer ones the same *)
Record merges (n : nat) (E : nat -> R) (n' : nat) (E' : nat -> R) (s : nat -> nat) : Prop := {
  mg_first : s 0%nat = 0%nat;
  mg_last : s n' = n;
  mg_rise : forall k, (k < n')%nat -> (s k < s (S k))%nat;
  mg_edge : forall k, (k <= n')%nat -> E' k = E (s k)
}.
Record coarser (g g' : grid) (c : cuts) : Prop := {
  co_t : merges (nt g) (tE g) (nt g') (tE g') (st c); co_v : merges (nv g) (vE g) (nv g') (vE g') (sv c);
  co_x : merges (nx g) (xE g) (nx g') (xE g') (sx c); co_y : merges (ny g) (yE g) (ny g') (yE g') (sy c);
  co_z : merges (nz g) (zE g) (nz g') (zE g') (sz c)
}.

(** the fine bins of coarse bin [k] *)
Definition run (s : nat -> nat) (k : nat) : list nat := seq (s k) (s (S k) - s k).
(** the fine bins of coarse bin [i] in the variables of S; the coordinates of
    other variables are 0 *)
Definition run_if (b : bool) (s : nat -> nat) (k : nat) : list nat := if b then run s k else [0%nat].
Definition fine_bins (c : cuts) (S : vset) (i : bin) : list bin :=
  flat_map (fun t => flat_map (fun v => flat_map (fun x => flat_map (fun y =>
    map (Bin t v x y) (run_if (has_z S) (sz c) (bz i)))
    (run_if (has_x S) (sy c) (by_ i))) (run_if (has_x S) (sx c) (bx i)))
    (run_if (has_v S) (sv c) (bv i))) (run_if (has_t S) (st c) (bt i)).
Definition fine_sum (c : cuts) (S : vset) (i : bin) (F : bin -> R) : R := sumR (map F (fine_bins c S i)).

(** the coarse joint probabilities are sums of the fine ones *)
Definition merged (g' : grid) (c : cuts) (P P' : joint) : Prop :=
  forall i, in_grid g' i ->
    P' (bt i) (bv i) (bx i) (by_ i) (bz i) = fine_sum c all_vars i (fun j => P (bt j) (bv j) (bx j) (by_ j) (bz j)).

(** merged bins share their template light *)
Definition shared_light (g g' : grid) (c : cuts) : Prop :=
  forall t z j k, (t < nt g')%nat -> (z < nz g')%nat -> In j (run (st c) t) -> In k (run (sz c) z) -> Lw g j k = Lw g' t z.

(** the density with these probabilities *)
Definition coarse_density (g g' : grid) (c : cuts) (f : joint) : joint := fun t v x y z =>
  fine_sum c all_vars (Bin t v x y z) (fun j => mass g f (bt j) (bv j) (bx j) (by_ j) (bz j)) /
  (wid (tE g') t * wid (vE g') v * wid (xE g') x * wid (yE g') y * wid (zE g') z).
