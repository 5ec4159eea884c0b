(** * MixListSpec: a mixture of base components whose list has been changed. *)
From Coq Require Import Reals List Bool Arith.
From Verif Require Import Num Spec Base Repr Mixture MixList.
Import ListNotations.
Local Open Scope R_scope.

(** it was given the weights [ws] when it was made; its list now has components
    with the densities [fs] *)
Record edited (s : lmix) (g : grid) (ws : list R) (cs : list component) (fs : list joint) : Prop := {
  ed_cube : cube_on (lm_cube s) g;
  ed_list : lm_list s = map comp_member cs;
  ed_weights : lm_weights s = map Fin ws;
  ed_n : lm_n s = List.length ws;
  ed_pos : forall w, In w ws -> 0 < w;
  ed_len : List.length cs = List.length fs;
  ed_comp : forall k c f, nth_error cs k = Some c -> nth_error fs k = Some f -> comp_on c g f /\ nonneg g f
}.

(** weight and density number [q] *)
Definition wt (ws : list R) (q : nat) : R := nth q ws 0.
Definition df (fs : list joint) (q : nat) : joint := nth q fs (fun _ _ _ _ _ => 0).
