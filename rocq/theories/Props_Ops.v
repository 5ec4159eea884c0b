(** * Props_Ops: claim C114, histories of truncation, binning and reset. *)
From Coq Require Import Reals Lra Lia List Bool Arith ZArith String.
From Verif Require Import Num NumLemmas Arr ArrLemmas PyStr ReadMiles MilesSpec MilesLemmas MilesLemmas2 MilesLemmas3 MilesClaims MilesExample Thin ThinSpec ThinClaims Bin BinClaims BinExample Ops OpsClaims.
Import ListNotations.
Local Open Scope R_scope.

(** C114: whatever is called on a constructed object, failing calls included, the directory
    and everything but wavelengths and spectra stay as they were, and reset then gives the
    constructed object back. *)
Theorem C114_reset : forall d md al zl ka kz d' m h, init_any d md al zl ka kz = (d', Ok m) ->
  exists m2, run_ops (d', m) h = (d, m2) /\ same_grid m m2 /\ op_step (d, m2) Reset = ((d, m), Ok tt).
Proof. exact history_claim. Qed.
Print Assumptions C114_reset.
(** C114: so the calls before a reset are forgotten. *)
Theorem C114_forgotten : forall d md al zl ka kz d' m h h', init_any d md al zl ka kz = (d', Ok m) ->
  run_ops (d', m) (h ++ Reset :: h')%list = run_ops (d, m) h'.
Proof. exact forgotten_claim. Qed.
Print Assumptions C114_forgotten.
(** C114: a truncation that raises changes nothing. *)
Theorem C114_failed_truncation : forall m lo hi e, snd (cut_step m lo hi) = Err e -> fst (cut_step m lo hi) = m.
Proof. exact failed_cut_claim. Qed.
Print Assumptions C114_failed_truncation.
(** C114: with at least one template a binning raises only for factors below 1, and then
    changes nothing. *)
Theorem C114_failed_binning : forall m k n p X e, spectra_are m n p X -> (0 < p)%nat -> snd (bin_step m k) = Err e ->
  fst (bin_step m k) = m /\ k < 1.
Proof. exact failed_bin_claim. Qed.
Print Assumptions C114_failed_binning.

(** a constructed object, truncated, binned with a factor that raises and one that does not *)
Example C114_case : exists m m2, init_any (exdisk exfiles) (Some "M"%string) None None None (Some (-1)%Z) = (exdisk exfiles, Ok m) /\
  run_ops (exdisk exfiles, m) [Cut (Some 4000) (Some 5000); BinBy 0.5; BinBy 1.5] = (exdisk exfiles, m2) /\
  op_step (exdisk exfiles, m2) Reset = ((exdisk exfiles, m), Ok tt).
Proof.
  destruct (uncached_claim (exdisk exfiles) exfiles "M"%string None (Some (-1)%Z) exfiles) as (_ & m & x & E & _).
  - exact exholds. - discriminate. - reflexivity. - left; reflexivity. - right; right; reflexivity. - left; discriminate.
  - exact exkept_default. - discriminate. - exact exfull. - apply exreadable.
  - destruct (C114_reset _ _ _ _ _ _ _ _ [Cut (Some 4000) (Some 5000); BinBy 0.5; BinBy 1.5] E) as (m2 & R & _ & S).
    exists m, m2. auto.
Qed.
Example C114_failed_case : bin_step exbin 0.5 = (exbin, Err ZeroDivisionError).
Proof.
  assert (E : bin_any exbin 0.5 = Err ZeroDivisionError) by (apply (proj1 (bad_claim exbin 0.5 7 1 _ exbin_are)); lra).
  assert (S : snd (bin_step exbin 0.5) = Err ZeroDivisionError).
  { unfold bin_step. rewrite E. cbn [m_X exbin]. cbn [shp]. destruct (0 <? py_int 0.5)%Z; [|reflexivity]. destruct (sum_blocks _ _); reflexivity. }
  destruct (C114_failed_binning exbin 0.5 7 1 _ _ exbin_are ltac:(lia) S) as [F _].
  destruct (bin_step exbin 0.5) as [a b]. cbn [fst snd] in *. congruence.
Qed.
