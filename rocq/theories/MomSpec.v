(** * MomSpec: what moments should be.  No arrays here. *)
From Coq Require Import Reals List Bool String.
From Verif Require Import Num Spec.
Import ListNotations.
Local Open Scope R_scope.

(** the five scalar coordinates; x1 and x2 belong to the variable x *)
Inductive coord := Ct | Cv | Cx1 | Cx2 | Cz.

Definition cvar (k : coord) : vset :=
  match k with
  | Ct => VSet true false false false
  | Cv => VSet false true false false
  | Cx1 | Cx2 => VSet false false true false
  | Cz => VSet false false false true
  end.

(** bin edges, bin number and number of bins of a coordinate *)
Definition cedge (g : grid) (k : coord) : nat -> R :=
  match k with Ct => tE g | Cv => vE g | Cx1 => xE g | Cx2 => yE g | Cz => zE g end.
Definition cidx (k : coord) (i : bin) : nat :=
  match k with Ct => bt i | Cv => bv i | Cx1 => bx i | Cx2 => by_ i | Cz => bz i end.
Definition cn (g : grid) (k : coord) : nat :=
  match k with Ct => nt g | Cv => nv g | Cx1 => nx g | Cx2 => ny g | Cz => nz g end.
(** the value of the coordinate at bin [i]: the bin centre *)
Definition cmid (g : grid) (k : coord) (i : bin) : R := mid (cedge g k) (cidx k i).

(** the string of the distribution of A given C; no conditioners allowed *)
Definition dname (A C : vset) : string := if nonempty C then cname A C else name A.

(** expectation of the function [h] of the A-variables, given the C-variables
    of bin [i], under the joint probabilities [P] *)
Definition Ex (g : grid) (P : joint) (A C : vset) (h : bin -> R) (i : bin) : R :=
  sum_over g A i (fun j => h j * marg g P (union A C) j) / marg g P C i.

(** conditional mean and j-th moment about [m] of coordinate k *)
Definition Mean (g : grid) (P : joint) (k : coord) (C : vset) (i : bin) : R :=
  Ex g P (cvar k) C (cmid g k) i.
Definition Moment (g : grid) (P : joint) (k : coord) (C : vset) (j : nat) (m : R) (i : bin) : R :=
  Ex g P (cvar k) C (fun b => (cmid g k b - m) ^ j) i.
Definition Variance (g : grid) (P : joint) (k : coord) (C : vset) (i : bin) : R :=
  Moment g P k C 2 (Mean g P k C i) i.
(** conditional covariance of coordinates a and b *)
Definition Covar (g : grid) (P : joint) (a b : coord) (C : vset) (i : bin) : R :=
  Ex g P (union (cvar a) (cvar b)) C
     (fun j => (cmid g a j - Mean g P a C i) * (cmid g b j - Mean g P b C i)) i.

(** where the moment of coordinate k given C is found in the returned array:
    x1 and x2 are stacked along a leading axis of size two *)
Definition mdims (k : coord) (C : vset) (g : grid) : list nat :=
  match k with Cx1 | Cx2 => 2%nat :: dims C g | _ => dims C g end.
Definition mcoords (k : coord) (C : vset) (i : bin) : list nat :=
  match k with Cx1 => 0%nat :: coords C i | Cx2 => 1%nat :: coords C i | _ => coords C i end.

(** pairs of coordinates of different variables, in the order t, v, x, z *)
Definition crank (k : coord) : nat := match k with Ct => 0 | Cv => 1 | Cx1 | Cx2 => 2 | Cz => 3 end.
Definition before (a b : coord) : bool := Nat.ltb (crank a) (crank b).
(** which of the pair decides the layout of the result: the x coordinate if any *)
Definition xkey (a b : coord) : coord := match a with Cx1 | Cx2 => a | _ => b end.

(** cumulative probability of coordinate k (t, v or z) given C, below edge n *)
Definition at_ (k : coord) (n : nat) (i : bin) : bin :=
  match k with
  | Ct => Bin n (bv i) (bx i) (by_ i) (bz i)
  | Cv => Bin (bt i) n (bx i) (by_ i) (bz i)
  | Cx1 => Bin (bt i) (bv i) n (by_ i) (bz i)
  | Cx2 => Bin (bt i) (bv i) (bx i) n (bz i)
  | Cz => Bin (bt i) (bv i) (bx i) (by_ i) n
  end.
Definition cdf (g : grid) (P : joint) (k : coord) (C : vset) (i : bin) (n : nat) : R :=
  Sum n (fun m => marg g P (union (cvar k) C) (at_ k m i) / marg g P C i).
(** what get_l_dispersion computes: only widths of bins enter *)
Definition Ldisp (g : grid) (P : joint) (k : coord) (C : vset) (i : bin) : R :=
  Sum (cn g k) (fun n => wid (cedge g k) n *
    ((cdf g P k C i n + cdf g P k C i (S n)) / 2 - cdf g P k C i n * cdf g P k C i (S n))).
