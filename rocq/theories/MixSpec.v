(** * MixSpec: what a mixture should be, independently of the model.

    A mixture is a list of densities with weights. *)
From Coq Require Import Reals List Bool Arith.
From Verif Require Import Num Spec Base Repr Moments Mixture.
Import ListNotations.
Local Open Scope R_scope.

Definition parts := list (joint * R).

(** the density of the mixture: sum over members of weight times density *)
Definition mixf (l : parts) : joint := fun t v x y z =>
  sumR (map (fun q => snd q * fst q t v x y z) l).

(** density and weight of member k *)
Definition pf (l : parts) (k : nat) : joint := fst (nth k l ((fun _ _ _ _ _ => 0), 0)).
Definition pw (l : parts) (k : nat) : R := snd (nth k l ((fun _ _ _ _ _ => 0), 0)).

(** the share of member k in the bin probabilities of the mixture: weight times
    mass; for light, the light from member k over all the light *)
Definition share (g : grid) (l : parts) (lw : bool) (k : nat) : joint := fun t v x y z =>
  if lw then pw l k * lit g (mass g (pf l k)) t v x y z / total g (lit g (mass g (mixf l)))
  else pw l k * mass g (pf l k) t v x y z.

(** a mixture of base components on grid [g] with densities and weights [l] *)
Record mix_on (self : mixture) (g : grid) (comps : list component) (l : parts) : Prop := {
  mo_cube : cube_on (mx_cube self) g;
  mo_members : mx_members self = map comp_member comps;
  mo_weights : mx_weights self = map (fun q => Fin (snd q)) l;
  mo_len : List.length comps = List.length l;
  mo_ne : l <> [];
  mo_comp : forall k c q, nth_error comps k = Some c -> nth_error l k = Some q ->
    comp_on c g (fst q) /\ nonneg g (fst q) /\ 0 < snd q
}.
