(** * MixListExample: concrete mixtures whose list has been changed. *)
From Coq Require Import Reals Lra Lia List Bool Arith ZArith String Ascii.
From Verif Require Import Num NumLemmas Arr PyStr Cube Base Spec SpecLemmas Repr Build
  Moments MomSpec Mixture MixSpec MixClaims MixExample MixList MixListSpec MixListClaims.
Import ListNotations.
Local Open Scope R_scope.

(** all in the first age bin; spread evenly *)
Definition lfA : joint := fun t _ _ _ _ => if Nat.eqb t 0 then 1 / 24 else 0.
Definition lfB : joint := fun _ _ _ _ _ => 1 / 72.
Definition lcA : component := comp_of exg lfA.
Definition lcB : component := comp_of exg lfB.
Ltac l_num := unfold lfA, lfB, df, wt; cbn [nth]; ex_num; cbn; try lra; try field.

Lemma lA_on : comp_on lcA exg lfA /\ nonneg exg lfA.
Proof.
  split; [apply comp_of_on; [apply exg_uniform_x|apply exg_uniform_y]|].
  intros t v x y z _ _ _ _ _. unfold lfA. destruct (Nat.eqb t 0); lra.
Qed.
Lemma lB_on : comp_on lcB exg lfB /\ nonneg exg lfB.
Proof.
  split; [apply comp_of_on; [apply exg_uniform_x|apply exg_uniform_y]|].
  intros t v x y z _ _ _ _ _. unfold lfB. lra.
Qed.
Lemma lA_one : total exg (prob exg lfA false) = 1.
Proof. l_num. Qed.
Lemma lB_one : total exg (prob exg lfB false) = 1.
Proof. l_num. Qed.

(** made with two components, weights 1/4 and 3/4 *)
Definition lmade : lmix := LMix (cube_of exg) [comp_member lcA; comp_member lcB] 2 [Fin (1 / 4); Fin (3 / 4)].
Lemma lmade_init : lmix_init (cube_of exg) [comp_member lcA; comp_member lcB] [Fin (1 / 4); Fin (3 / 4)] = Ok lmade.
Proof.
  pose proof (init_ok_claim (cube_of exg) [comp_member lcA; comp_member lcB] [Fin (1 / 4); Fin (3 / 4)] eq_refl) as K.
  assert (W : weights_ok [Fin (1 / 4); Fin (3 / 4)]).
  { exists [1 / 4; 3 / 4]. split; [reflexivity|]. split.
    - intros r [<-|[<-|[]]]; lra.
    - unfold sumR. cbn. replace (1 / 4 + (3 / 4 + 0) - 1) with 0 by field. rewrite Rabs_R0. lra. }
  specialize (K W). unfold mixture_init, lmix_init in *.
  destruct (py_assert (Nat.eqb _ _)); [|discriminate K]. cbn [bind] in *.
  destruct (py_assert (forallb _ _)); [|discriminate K]. cbn [bind] in *.
  destruct (py_assert (isclose1 _)); [|discriminate K]. cbn [bind] in *. reflexivity.
Qed.

Lemma edited_case ws cs fs (Hw : forall w, In w ws -> 0 < w) (Hl : List.length cs = List.length fs)
  (Hc : forall k c f, nth_error cs k = Some c -> nth_error fs k = Some f -> comp_on c exg f /\ nonneg exg f) :
  edited (LMix (cube_of exg) (map comp_member cs) (List.length ws) (map Fin ws)) exg ws cs fs.
Proof. constructor; auto. apply cube_of_on; [apply exg_uniform_x|apply exg_uniform_y]. Qed.

(** the second component deleted *)
Definition lshort : lmix := edit_list lmade [comp_member lcB].
Lemma lshort_ed : edited lshort exg [1 / 4; 3 / 4] [lcB] [lfB].
Proof.
  apply (edited_case [1 / 4; 3 / 4] [lcB] [lfB]); [intros w [<-|[<-|[]]]; lra|reflexivity|].
  intros [|[|k]] c f E1 E2; try discriminate E1. injection E1 as <-. injection E2 as <-. exact lB_on.
Qed.
(** a third one appended *)
Definition llong : lmix := edit_list lmade [comp_member lcA; comp_member lcB; comp_member lcA].
Lemma llong_ed : edited llong exg [1 / 4; 3 / 4] [lcA; lcB; lcA] [lfA; lfB; lfA].
Proof.
  apply (edited_case [1 / 4; 3 / 4] [lcA; lcB; lcA] [lfA; lfB; lfA]); [intros w [<-|[<-|[]]]; lra|reflexivity|].
  intros [|[|[|[|k]]]] c f E1 E2; try discriminate E1; injection E1 as <-; injection E2 as <-;
    first [exact lA_on | exact lB_on].
Qed.
(** made with one, a second one appended *)
Definition lpair : lmix := LMix (cube_of exg) [comp_member lcA; comp_member lcB] 1 [Fin 1].
Lemma lpair_ed : edited lpair exg [1] [lcA; lcB] [lfA; lfB].
Proof.
  apply (edited_case [1] [lcA; lcB] [lfA; lfB]); [intros w [<-|[]]; lra|reflexivity|].
  intros [|[|[|k]]] c f E1 E2; try discriminate E1; injection E1 as <-; injection E2 as <-;
    first [exact lA_on | exact lB_on].
Qed.

Lemma len2 {A} (a b c d : A) : List.length [a; b] = List.length [c; d].
Proof. reflexivity. Qed.
Lemma li0 : in_grid exg (Bin 0 0 0 0 0).
Proof. unfold in_grid; cbn; lia. Qed.
Lemma li1 : in_grid exg (Bin 1 0 0 0 0).
Proof. unfold in_grid; cbn; lia. Qed.
