(** * BinExample: spectra of seven pixels. *)
From Coq Require Import Reals List Arith String.
From Verif Require Import Num Arr PyStr ReadMiles MilesClaims.
Import ListNotations.
Local Open Scope R_scope.

(** seven pixels of which the fifth is lit *)
Definition exbin : miles := Miles (Names [] [] [] [] [] [] []) None None 1 1 [] [] 0 0 [1; 2; 3; 4; 5; 6; 7]
  (Some (Arr [7; 1]%nat (fun idx => match idx with [i; c] => Fin (if Nat.eqb i 4 then 1 else 0) | _ => NaN end))).
Lemma exbin_are : spectra_are exbin 7 1 (fun i _ => if Nat.eqb i 4 then 1 else 0).
Proof. split; [reflexivity|]. eexists. split; [reflexivity|]. split; [reflexivity|]. intros; reflexivity. Qed.
