(** * ThinSpec: which values a thinning factor keeps. *)
From Coq Require Import Reals List Bool Arith ZArith.
From Verif Require Import Num MilesSpec MilesLemmas MilesLemmas2.
Import ListNotations.
Local Open Scope R_scope.

(** [x] is the k-th largest of the distinct values of [l], counted from 0 *)
Definition nth_largest (l : list R) (x : R) (k : nat) : Prop :=
  exists u, distinct_sorted (map Ropp l) u /\ (k < List.length u)%nat /\ nth k u 0 = - x.

(** None keeps every value, a positive factor k every k-th counted from the
    smallest, a negative one every |k|-th counted from the largest *)
Definition picked (k : option Z) (l : list R) (x : R) : Prop :=
  match k with
  | None => In x l
  | Some k => ((0 < k)%Z /\ exists i, nth_smallest l x (i * Z.abs_nat k)) \/
              ((k < 0)%Z /\ exists i, nth_largest l x (i * Z.abs_nat k))
  end.

(** [K] consists of the files of [fs] whose age and metallicity are kept *)
Definition thinned_by (ka kz : option Z) (fs K : list mfile) : Prop :=
  kept (fun f => picked ka (map file_t fs) (file_t f) /\ picked kz (map file_z fs) (file_z f)) fs K.
