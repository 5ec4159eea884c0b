(** * Spec: what the distributions and moments should be.

    This file knows nothing about arrays, strings, logarithms or axes.  A galaxy
    lives on a grid of bins in age t, velocity v, position (x,y) and metallicity
    z; a joint probability assigns a real number to each 5-tuple of bin numbers;
    everything else is a finite sum. *)
From Coq Require Import Reals List Bool String.
From Verif Require Import Num.
Import ListNotations.
Local Open Scope R_scope.

(** ** the grid *)
Record grid := Grid {
  nt : nat; nv : nat; nx : nat; ny : nat; nz : nat;      (* numbers of bins *)
  tE : nat -> R; vE : nat -> R; xE : nat -> R; yE : nat -> R; zE : nat -> R; (* bin edges *)
  Lw : nat -> nat -> R                                   (* light of the (t,z) template *)
}.

(** width and midpoint of bin [i] *)
Definition wid (E : nat -> R) (i : nat) : R := E (S i) - E i.
Definition mid (E : nat -> R) (i : nat) : R := (E i + E (S i)) / 2.

Definition increasing (n : nat) (E : nat -> R) : Prop :=
  forall i, (i < n)%nat -> E i < E (S i).

(** at least one bin of positive width per variable; non-negative light *)
Record good_grid (g : grid) : Prop := {
  gg_t : (0 < nt g)%nat; gg_v : (0 < nv g)%nat; gg_x : (0 < nx g)%nat;
  gg_y : (0 < ny g)%nat; gg_z : (0 < nz g)%nat;
  gg_tE : increasing (nt g) (tE g); gg_vE : increasing (nv g) (vE g);
  gg_xE : increasing (nx g) (xE g); gg_yE : increasing (ny g) (yE g);
  gg_zE : increasing (nz g) (zE g);
  gg_L : forall t z, (t < nt g)%nat -> (z < nz g)%nat -> 0 <= Lw g t z
}.

(** a bin of the 5-dimensional grid *)
Record bin := Bin { bt : nat; bv : nat; bx : nat; by_ : nat; bz : nat }.
Definition in_grid (g : grid) (i : bin) : Prop :=
  (bt i < nt g /\ bv i < nv g /\ bx i < nx g /\ by_ i < ny g /\ bz i < nz g)%nat.

(** ** sets of variables; x stands for the two position coordinates *)
Record vset := VSet { has_t : bool; has_v : bool; has_x : bool; has_z : bool }.
Definition nonempty (S : vset) : bool := has_t S || has_v S || has_x S || has_z S.
Definition disjoint (A B : vset) : bool :=
  negb (has_t A && has_t B || has_v A && has_v B || has_x A && has_x B || has_z A && has_z B).
Definition union (A B : vset) : vset :=
  VSet (has_t A || has_t B) (has_v A || has_v B) (has_x A || has_x B) (has_z A || has_z B).
Definition subset (A B : vset) : bool :=
  implb (has_t A) (has_t B) && implb (has_v A) (has_v B) &&
  implb (has_x A) (has_x B) && implb (has_z A) (has_z B).

(** the string a user writes for a set of variables: alphabetical order *)
Definition name (S : vset) : string :=
  ((if has_t S then "t" else "") ++ (if has_v S then "v" else "") ++
   (if has_x S then "x" else "") ++ (if has_z S then "z" else ""))%string.
(** and for a conditional distribution of A given C *)
Definition cname (A C : vset) : string := (name A ++ "_" ++ name C)%string.

Definition opt (b : bool) (l : list nat) : list nat := if b then l else [].
(** the coordinates of bin [i] in the variables of [S], in string order *)
Definition coords (S : vset) (i : bin) : list nat :=
  opt (has_t S) [bt i] ++ opt (has_v S) [bv i] ++ opt (has_x S) [bx i; by_ i] ++ opt (has_z S) [bz i].
(** the numbers of bins of the variables of [S], in string order *)
Definition dims (S : vset) (g : grid) : list nat :=
  opt (has_t S) [nt g] ++ opt (has_v S) [nv g] ++ opt (has_x S) [nx g; ny g] ++ opt (has_z S) [nz g].

(** ** distributions *)
Definition joint := nat -> nat -> nat -> nat -> nat -> R.

(** keep the coordinate or sum it out *)
Definition over (kept : bool) (n i : nat) (f : nat -> R) : R := if kept then f i else Sum n f.

(** marginal probability of the S-coordinates of bin [i] under joint [P] *)
Definition marg (g : grid) (P : joint) (S : vset) (i : bin) : R :=
  over (has_t S) (nt g) (bt i) (fun t =>
  over (has_v S) (nv g) (bv i) (fun v =>
  over (has_x S) (nx g) (bx i) (fun x =>
  over (has_x S) (ny g) (by_ i) (fun y =>
  over (has_z S) (nz g) (bz i) (fun z => P t v x y z))))).

(** total of a joint *)
Definition total (g : grid) (P : joint) : R :=
  Sum (nt g) (fun t => Sum (nv g) (fun v => Sum (nx g) (fun x =>
  Sum (ny g) (fun y => Sum (nz g) (fun z => P t v x y z))))).

(** volume of the S-part of bin [i] *)
Definition ifw (b : bool) (w : R) : R := if b then w else 1.
Definition vol (g : grid) (S : vset) (i : bin) : R :=
  ifw (has_t S) (wid (tE g) (bt i)) * ifw (has_v S) (wid (vE g) (bv i)) *
  ifw (has_x S) (wid (xE g) (bx i) * wid (yE g) (by_ i)) *
  ifw (has_z S) (wid (zE g) (bz i)).

(** probability in each bin of a density *)
Definition mass (g : grid) (f : joint) : joint := fun t v x y z =>
  f t v x y z * (wid (tE g) t * wid (vE g) v * wid (xE g) x * wid (yE g) y * wid (zE g) z).

(** light-weighted version of a joint probability *)
Definition lit (g : grid) (P : joint) : joint := fun t v x y z => P t v x y z * Lw g t z.
Definition light (g : grid) (P : joint) : joint := fun t v x y z =>
  lit g P t v x y z / total g (lit g P).

(** the joint bin probabilities which a query refers to *)
Definition prob (g : grid) (f : joint) (light_weighted : bool) : joint :=
  if light_weighted then light g (mass g f) else mass g f.

(** a density is non-negative on the grid *)
Definition nonneg (g : grid) (f : joint) : Prop :=
  forall t v x y z, (t < nt g)%nat -> (v < nv g)%nat -> (x < nx g)%nat -> (y < ny g)%nat -> (z < nz g)%nat -> 0 <= f t v x y z.

(** light weighting is defined: there is some light *)
Definition lw_ok (g : grid) (f : joint) (lw : bool) : Prop :=
  lw = true -> 0 < total g (lit g (mass g f)).

(** sum a function of bins over the coordinates in S *)
Definition sum_if (b : bool) (n i : nat) (f : nat -> R) : R := if b then Sum n f else f i.
Definition sum_over (g : grid) (S : vset) (i : bin) (F : bin -> R) : R :=
  sum_if (has_t S) (nt g) (bt i) (fun t => sum_if (has_v S) (nv g) (bv i) (fun v =>
  sum_if (has_x S) (nx g) (bx i) (fun x => sum_if (has_x S) (ny g) (by_ i) (fun y =>
  sum_if (has_z S) (nz g) (bz i) (fun z => F (Bin t v x y z)))))).

Definition all_vars : vset := VSet true true true true.
Definition no_vars : vset := VSet false false false false.

(** the list of all bins that agree with [i] outside S *)
Definition range_if (b : bool) (n i : nat) : list nat := if b then seq 0 n else [i].
Definition bins_over (g : grid) (S : vset) (i : bin) : list bin :=
  flat_map (fun t => flat_map (fun v => flat_map (fun x => flat_map (fun y =>
    map (Bin t v x y) (range_if (has_z S) (nz g) (bz i)))
    (range_if (has_x S) (ny g) (by_ i))) (range_if (has_x S) (nx g) (bx i)))
    (range_if (has_v S) (nv g) (bv i))) (range_if (has_t S) (nt g) (bt i)).

(** changing one variable of a set, one coordinate of a bin *)
Definition with_t b (S : vset) := VSet b (has_v S) (has_x S) (has_z S).
Definition with_v b (S : vset) := VSet (has_t S) b (has_x S) (has_z S).
Definition with_x b (S : vset) := VSet (has_t S) (has_v S) b (has_z S).
Definition with_z b (S : vset) := VSet (has_t S) (has_v S) (has_x S) b.
Definition set_t t (i : bin) := Bin t (bv i) (bx i) (by_ i) (bz i).
Definition set_v v (i : bin) := Bin (bt i) v (bx i) (by_ i) (bz i).
Definition set_xy x y (i : bin) := Bin (bt i) (bv i) x y (bz i).
Definition set_z z (i : bin) := Bin (bt i) (bv i) (bx i) (by_ i) z.
