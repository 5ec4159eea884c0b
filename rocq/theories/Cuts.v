(** * Cuts: truncate_wavelengths called several times. *)
From Coq Require Import Reals List.
From Verif Require Import Num Arr PyStr ReadMiles.
Import ListNotations.

(** calls of truncate_wavelengths(lmd_min, lmd_max), read_miles.py lines 169-180,
    one after another; the first that raises ends the sequence *)
Definition cut_all (m : miles) (rs : list (option R * option R)) : res miles :=
  fold_left (fun r q => m <- r ;; truncate_wavelengths m (fst q) (snd q)) rs (Ok m).
