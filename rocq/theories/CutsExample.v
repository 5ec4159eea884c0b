(** * CutsExample: templates of three pixels. *)
From Coq Require Import Reals Lra Lia List Bool Arith String.
From Verif Require Import Num NumLemmas Arr PyStr ReadMiles MilesSpec MilesLemmas MilesLemmas3 CutsSpec CutsClaims.
Import ListNotations.
Local Open Scope R_scope.

Definition excut : miles := Miles (Names [] [] [] [] [] [] []) None None 1 1 [] [] 0 0 [1; 2; 3]
  (Some (Arr [3; 1]%nat (fun idx => match idx with [i; c] => Fin (INR i) | _ => NaN end))).
Definition expix : list (R * list num) := [(1, [Fin (INR 0)]); (2, [Fin (INR 1)]); (3, [Fin (INR 2)])].
Lemma excut_pixels : pixels excut 1 expix.
Proof. eexists. split; [reflexivity|]. split; reflexivity. Qed.
Lemma excut_ok lo hi : (forall a, lo = Some a -> 1 <= a) -> (forall b, hi = Some b -> b <= 3) ->
  exists m' l', truncate_wavelengths excut lo hi = Ok m' /\ pixels m' 1 l' /\
    kept (fun r => in_request lo hi (fst r)) expix l'.
Proof.
  intros Ha Hb. destruct excut_pixels as (x & Hx & Hs & Ec).
  destruct (truncate_ok excut lo hi x 1) as (m' & x' & E & _).
  - discriminate. - exact Hx. - exact Hs.
  - intros (a & Ea & B). specialize (Ha a Ea). specialize (B 1). cbn in B. lra.
  - intros (b & Eb & B). specialize (Hb b Eb). specialize (B 3). cbn in B. lra.
  - destruct (one_cut excut 1 expix lo hi m' excut_pixels E) as (l' & P & K). exists m', l'. auto.
Qed.
