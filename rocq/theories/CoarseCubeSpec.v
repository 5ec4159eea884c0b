(** * CoarseCubeSpec: coarser grids with the same velocities. *)
From Coq Require Import Reals List Bool Arith.
From Verif Require Import Num Spec DatacubeSpec CoarseSpec.
Import ListNotations.

(** no bins are merged *)
Definition same_bins (n : nat) (s : nat -> nat) : Prop := forall k, (k <= n)%nat -> s k = k.
(** merged bins share their template spectra *)
Definition shared_spectra (g' : grid) (c : cuts) (n : nat) (S S' : spectra) : Prop :=
  forall t z j k w, (t < nt g')%nat -> (z < nz g')%nat -> In j (run (st c) t) -> In k (run (sz c) z) -> (w < n)%nat ->
    S j k w = S' t z w.
(** the fine pixels of a coarse pixel *)
Definition fine_pixels (c : cuts) (i j : nat) : list (nat * nat) := list_prod (run (sx c) i) (run (sy c) j).
