(** * IndepSpec: independence of variables. *)
From Coq Require Import Reals List Bool.
From Verif Require Import Num Spec.
Import ListNotations.
Local Open Scope R_scope.

(** under P, the variables in A are independent of those in B, given those in C:
    p(A,B,C) p(C) = p(A,C) p(B,C) *)
Definition indep (g : grid) (P : joint) (A B C : vset) : Prop :=
  forall i, in_grid g i ->
    marg g P (union A (union B C)) i * marg g P C i = marg g P (union A C) i * marg g P (union B C) i.

(** a function of the variables in S only *)
Definition function_of (S : vset) (h : bin -> R) : Prop := forall i j, coords S i = coords S j -> h i = h j.

(** a density which is a product: one factor knows the variables in A and C, the
    other all variables but those in A *)
Definition others (A : vset) : vset := VSet (negb (has_t A)) (negb (has_v A)) (negb (has_x A)) (negb (has_z A)).
Definition factored (g : grid) (f : joint) (A C : vset) (u w : bin -> R) : Prop :=
  function_of (union A C) u /\ function_of (others A) w /\
  forall t v x y z, in_grid g (Bin t v x y z) -> f t v x y z = u (Bin t v x y z) * w (Bin t v x y z).
