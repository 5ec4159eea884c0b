(** * Props_Cuts: claim C113, truncate_wavelengths called several times. *)
From Coq Require Import Reals Lra Lia List Bool Arith ZArith String.
From Verif Require Import Num NumLemmas Arr ArrLemmas PyStr ReadMiles MilesSpec MilesLemmas MilesLemmas2 MilesLemmas3 MilesClaims Cuts CutsSpec CutsClaims CutsExample.
Import ListNotations.
Local Open Scope R_scope.

(** C113: a sequence of truncations of which none raises keeps exactly the pixels inside
    every request, in order. *)
Theorem C113_sequence : forall rs m p l m', pixels m p l -> cut_all m rs = Ok m' ->
  exists l', pixels m' p l' /\ kept (fun r => Forall (fun q => in_request (fst q) (snd q) (fst r)) rs) l l'.
Proof. exact sequence_claim. Qed.
Print Assumptions C113_sequence.
(** C113: so the order of the requests, and repeating one, does not matter when none raises. *)
Theorem C113_order : forall m p l rs rs' m1 m2, pixels m p l -> (forall q, In q rs <-> In q rs') ->
  cut_all m rs = Ok m1 -> cut_all m rs' = Ok m2 -> exists l', pixels m1 p l' /\ pixels m2 p l'.
Proof. exact order_cuts_claim. Qed.
Print Assumptions C113_order.

(** C113: a request at wavelengths of pixels can be repeated and changes nothing more. *)
Theorem C113_again : forall m p l lo hi m', pixels m p l -> at_pixel lo l -> at_pixel hi l -> ordered lo hi ->
  truncate_wavelengths m lo hi = Ok m' -> lmd m' <> [] ->
  exists m'' l', truncate_wavelengths m' lo hi = Ok m'' /\ pixels m' p l' /\ pixels m'' p l'.
Proof. exact again_claim. Qed.
Print Assumptions C113_again.
(** C113, refuted: "a request that succeeded can be repeated": with a limit between
    pixels it raises ValueError the second time. *)
Theorem C113_again_refuted : forall m p l lo hi m', pixels m p l -> truncate_wavelengths m lo hi = Ok m' ->
  ~ at_pixel lo l \/ ~ at_pixel hi l ->
  truncate_wavelengths m' lo hi = Err ValueError.
Proof. exact again_refuted_claim. Qed.
Print Assumptions C113_again_refuted.

(** C113: a request between two pixels is not refused; it leaves no pixels, and every later
    truncation raises ValueError. *)
Theorem C113_nothing_left : forall m p l lo hi m', pixels m p l -> truncate_wavelengths m lo hi = Ok m' ->
  (forall v, In v (map fst l) -> ~ in_request lo hi v) ->
  pixels m' p [] /\ forall lo' hi', truncate_wavelengths m' lo' hi' = Err ValueError.
Proof. exact nothing_left_claim. Qed.
Print Assumptions C113_nothing_left.

(** C113: binned templates cannot be truncated at a wavelength of the unbinned ones. *)
Theorem C113_after_binning : forall m k n p X a b lo hi, spectra_are m n p X -> (2 <= k)%nat -> (0 < p)%nat ->
  (forall v, In v (lmd m) -> a <= v <= b) -> b < INR k * a -> lo <= b ->
  exists m', bin_pixels m k = Ok m' /\ truncate_wavelengths m' (Some lo) hi = Err ValueError.
Proof. exact after_binning_claim. Qed.
Print Assumptions C113_after_binning.

(** wavelengths 1, 2, 3: the request 1.5 to 3 succeeds once and then raises *)
Example C113_case : exists m', truncate_wavelengths excut (Some 1.5) (Some 3) = Ok m' /\
  truncate_wavelengths m' (Some 1.5) (Some 3) = Err ValueError /\ pixels m' 1 [(2, [Fin (INR 1)]); (3, [Fin (INR 2)])].
Proof.
  destruct (excut_ok (Some 1.5) (Some 3)) as (m' & l' & E & P & K).
  - intros a Ea; injection Ea as <-; lra. - intros b Eb; injection Eb as <-; lra.
  - exists m'. split; [exact E|]. split.
    + apply (C113_again_refuted excut 1 expix _ _ m' excut_pixels E). left. cbn. lra.
    + replace [(2, [Fin (INR 1)]); (3, [Fin (INR 2)])] with l'; [exact P|].
      apply (kept_fun _ _ _ K). unfold expix, in_request.
      apply kept_no; [cbn; lra|]. apply kept_yes; [cbn; lra|]. apply kept_yes; [cbn; lra|]. constructor.
Qed.
(** between two pixels *)
Example C113_nothing_case : exists m', truncate_wavelengths excut (Some 1.2) (Some 1.8) = Ok m' /\ pixels m' 1 [] /\
  truncate_wavelengths m' None None = Err ValueError.
Proof.
  destruct (excut_ok (Some 1.2) (Some 1.8)) as (m' & l' & E & P & K).
  - intros a Ea; injection Ea as <-; lra. - intros b Eb; injection Eb as <-; lra.
  - exists m'. split; [exact E|].
    destruct (C113_nothing_left excut 1 expix _ _ m' excut_pixels E) as [A B].
    + intros v Hv. cbn in Hv. unfold in_request. lra.
    + split; [exact A|apply B].
Qed.
(** a request at pixels, twice *)
Example C113_again_case : exists m' m'', truncate_wavelengths excut (Some 2) None = Ok m' /\ truncate_wavelengths m' (Some 2) None = Ok m'' /\
  cut_all excut [(Some 2, None); (Some 2, None)] = Ok m''.
Proof.
  destruct (excut_ok (Some 2) None) as (m' & l' & E & P & K).
  - intros a Ea; injection Ea as <-; lra. - discriminate.
  - destruct (C113_again excut 1 expix (Some 2) None m' excut_pixels) as (m'' & l'' & E' & _).
    + cbn; lra. + exact I. + exact I. + exact E.
    + rewrite (pixels_lmd _ _ _ P). assert (In (2, [Fin (INR 1)]) l').
      { apply (kept_in _ _ _ K). split; [cbn; tauto|]. unfold in_request; cbn; lra. }
      destruct l'; [contradiction|discriminate].
    + exists m', m''. split; [exact E|]. split; [exact E'|]. rewrite cut_cons. cbn [fst snd]. rewrite E. cbn [bind].
      rewrite cut_cons. cbn [fst snd]. rewrite E'. reflexivity.
Qed.
