(** * Props_Bin: claim C112, bin_pixels with any real factor, and twice. *)
From Coq Require Import Reals Lra Lia List Bool Arith ZArith String.
From Verif Require Import Num NumLemmas Arr ArrLemmas PyStr ReadMiles MilesSpec MilesLemmas MilesLemmas2 MilesLemmas3 MilesClaims Bin BinClaims BinExample.
Import ListNotations.
Local Open Scope R_scope.

(** C112: a factor is rounded down: with integer part k other than 1 it acts as k. *)
Theorem C112_rounded : forall m x k, INR k <= x < INR k + 1 -> (k <> 1)%nat -> bin_any m x = bin_pixels m k.
Proof. exact floor_claim. Qed.
Print Assumptions C112_rounded.
(** whole factors: the binning of C36; 1 changes nothing *)
Theorem C112_naturals : forall m k, bin_any m (INR k) = bin_pixels m k.
Proof. exact naturals_bin_claim. Qed.
Print Assumptions C112_naturals.
Theorem C112_one : forall m, bin_any m 1 = Ok m.
Proof. exact one_claim. Qed.
Print Assumptions C112_one.

(** C112, refuted: "a factor rounded down to 1 changes nothing": every pixel is dropped. *)
Theorem C112_rounded_to_one_refuted : forall m x n p X, spectra_are m n p X -> (0 < p)%nat -> 1 < x < 2 ->
  exists m', bin_any m x = Ok m' /\ lmd m' = [] /\ spectra_are m' 0 p (fun _ _ => 0).
Proof. exact between_claim. Qed.
Print Assumptions C112_rounded_to_one_refuted.

(** C112: factors between -1 and 1 raise ZeroDivisionError, those up to -1 ValueError;
    spectra never loaded AttributeError. *)
Theorem C112_errors : forall m x n p X, spectra_are m n p X ->
  (-1 < x < 1 -> bin_any m x = Err ZeroDivisionError) /\ (x <= -1 -> bin_any m x = Err ValueError).
Proof. exact bad_claim. Qed.
Print Assumptions C112_errors.
Theorem C112_not_loaded : forall m x, m_X m = None -> x <> 1 -> bin_any m x = Err AttributeError.
Proof. exact not_loaded_claim. Qed.
Print Assumptions C112_not_loaded.

(** C112: which pixels a bin holds after binning by k and then by j. *)
Theorem C112_twice : forall m k j n p X, spectra_are m n p X -> (2 <= k)%nat -> (2 <= j)%nat -> (0 < p)%nat ->
  (n mod k <> 0)%nat -> ((n / k) mod j <> 0)%nat ->
  exists m' X', bin_all m [INR k; INR j] = Ok m' /\ spectra_are m' (n / (k * j)) p X' /\
    forall i c, (i < n / (k * j))%nat -> (c < p)%nat ->
      X' i c = Sum j (fun a => Sum k (fun b => X (b * (n / k) + a * (n / (k * j)) + i)%nat c)).
Proof. exact twice_claim. Qed.
Print Assumptions C112_twice.
(** C112, refuted: "binning by k and then by j is binning by k*j": there is always a
    pixel whose light the first keeps and the second loses. *)
Theorem C112_twice_refuted : forall m k j n p X, spectra_are m n p X -> (2 <= k)%nat -> (2 <= j)%nat -> (0 < p)%nat ->
  (n mod k <> 0)%nat -> ((n / k) mod j <> 0)%nat -> (0 < n / (k * j))%nat ->
  (forall i c, X i c = if Nat.eqb i ((k - 1) * (n / k) + (j - 1) * (n / (k * j)) + (n / (k * j) - 1)) then 1 else 0) ->
  exists m' m'' X' X'' n'', bin_all m [INR k; INR j] = Ok m' /\ spectra_are m' (n / (k * j)) p X' /\
    bin_any m (INR (k * j)) = Ok m'' /\ spectra_are m'' n'' p X'' /\
    X' (n / (k * j) - 1)%nat O = 1 /\ forall i c, (i < n'')%nat -> (c < p)%nat -> X'' i c = 0.
Proof. exact twice_refuted_claim. Qed.
Print Assumptions C112_twice_refuted.

Example C112_case : (exists m', bin_any exbin 1.5 = Ok m' /\ lmd m' = []) /\ bin_any exbin 0.5 = Err ZeroDivisionError /\
  bin_any exbin (-2) = Err ValueError /\ bin_any exbin 2.5 = bin_pixels exbin 2.
Proof.
  split; [|split; [|split]].
  - destruct (C112_rounded_to_one_refuted exbin 1.5 7 1 _ exbin_are) as (m' & E & El & _); [lia|lra|]. exists m'. auto.
  - apply (proj1 (C112_errors exbin 0.5 7 1 _ exbin_are)). lra.
  - apply (proj2 (C112_errors exbin (-2) 7 1 _ exbin_are)). lra.
  - apply C112_rounded; [cbn; lra|lia].
Qed.
Example C112_twice_case : exists m' m'' X' X'' n'', bin_all exbin [INR 2; INR 2] = Ok m' /\ spectra_are m' 1 1 X' /\
  bin_any exbin (INR 4) = Ok m'' /\ spectra_are m'' n'' 1 X'' /\
  X' O O = 1 /\ forall i c, (i < n'')%nat -> (c < 1)%nat -> X'' i c = 0.
Proof.
  apply (C112_twice_refuted exbin 2 2 7 1 _ exbin_are); try lia; [cbn; lia|cbn; lia|cbn; lia|]. intros; reflexivity.
Qed.
