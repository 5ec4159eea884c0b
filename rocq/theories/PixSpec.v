(** * PixSpec: pixels evenly spaced in velocity (C115). *)
From Coq Require Import Reals List.
Import ListNotations.
Local Open Scope R_scope.

(** wavelength of pixel i when the first is at lo and neighbours are dv km/s apart *)
Definition pixel (lo dv : R) (i : nat) : R := lo * exp (INR i * dv / 299792).
(** a is the least, the greatest of l *)
Definition least (l : list R) (a : R) : Prop := In a l /\ forall b, In b l -> a <= b.
Definition greatest (l : list R) (a : R) : Prop := In a l /\ forall b, In b l -> b <= a.
