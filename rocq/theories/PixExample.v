(** * PixExample: an SSP object for the example of C115. *)
From Coq Require Import Reals Lra Lia List Bool Arith ZArith.
From Verif Require Import Num NumLemmas Arr PyStr Cube ReadMiles Ssps SspFlow Spec Repr SharingLemmas DatacubeSpec DatacubeExample SharingClaims FluxUnits
  PixSpec PixClaims.
Import ListNotations.
Local Open Scope R_scope.

(** one template with flux 1 at all wavelengths *)
Definition ex_full : mgrid :=
  MGrid 1 default_lmd (arr1 [Fin 0; Fin 1] NaN) (arr1 [Fin 0; Fin 1] NaN) (arr1 [Fin 0.5] NaN) (arr1 [Fin 0.5] NaN) (1, 1)%nat (index_table 1 1) 1
    (arr1 [Fin 1] NaN) (arr1 [Fin 1] NaN) (Arr [List.length default_lmd; 1]%nat (fun _ => Fin 1)) [] [] [] [].
Definition ex_fullg : grid := Grid 1 1 1 1 1 INR INR INR INR INR (fun _ _ => Sum (List.length default_lmd) (fun _ => 1)).
Lemma ex_full_object : ssp_object ex_full ex_fullg (List.length default_lmd) (fun l z t => 1).
Proof.
  destruct wavelengths_claim as (L & _). constructor.
  - split; try reflexivity.
    all: split; [reflexivity|]; intros i Hi; destruct i as [|[|i]]; try (cbn in Hi; lia); cbn; unfold mid, wid; cbn; f_equal; lra.
  - cbn [ex_full g_lmd]. lia.
  - exact default_lmd_sorted.
  - exact default_lmd_pos.
  - reflexivity.
Qed.
