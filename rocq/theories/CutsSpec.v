(** * CutsSpec: the pixels of a template set. *)
From Coq Require Import Reals List Arith.
From Verif Require Import Num Arr ReadMiles MilesSpec MilesLemmas3.
Import ListNotations.
Local Open Scope R_scope.

(** [l] lists the pixels of [m]: the wavelength and the values of the [p] templates *)
Definition pixels (m : miles) (p : nat) (l : list (R * list num)) : Prop :=
  exists x, m_X m = Some x /\ shp x = [List.length (lmd m); p] /\
    combine (lmd m) (rows x (List.length (lmd m)) p) = l.

(** a limit which is absent or the wavelength of some pixel of [l] *)
Definition at_pixel (a : option R) (l : list (R * list num)) : Prop :=
  match a with None => True | Some v => In v (map fst l) end.
(** a lower limit does not exceed an upper one *)
Definition ordered (lo hi : option R) : Prop :=
  match lo, hi with Some a, Some b => a <= b | _, _ => True end.
