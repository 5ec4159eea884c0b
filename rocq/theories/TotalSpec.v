(** * TotalSpec: averages, over the bins of some variables, of entries of
    returned arrays. *)
From Coq Require Import Reals List Bool.
From Verif Require Import Num Arr Spec MomSpec.
Import ListNotations.
Local Open Scope R_scope.

(** the bins which differ from i in the B-variables only and where P has mass,
    all but the variables in S summed out *)
Definition occupied (g : grid) (P : joint) (B S : vset) (i : bin) : list bin :=
  filter (fun j => if Rlt_dec 0 (marg g P S j) then true else false) (bins_over g B i).

(** average of T over those bins, weighted by the entries of a returned
    get_p(B|C) *)
Definition averaged (g : grid) (P : joint) (B C : vset) (p : arr num) (T : bin -> num) (i : bin) : num :=
  nsum (map (fun j => nmul (T j) (ent p (coords B j ++ coords C j))) (occupied g P B (union B C) i)).
