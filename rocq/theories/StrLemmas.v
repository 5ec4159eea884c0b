(** * StrLemmas: facts about the Python string operations. *)
From Coq Require Import String Ascii List Bool Arith ZArith Permutation Lia.
From Verif Require Import PyStr.
Import ListNotations.

Lemma chars_of_chars l : chars (of_chars l) = l.
Proof. induction l; cbn; congruence. Qed.
Lemma of_chars_chars s : of_chars (chars s) = s.
Proof. induction s; cbn; congruence. Qed.
Lemma chars_inj s t : chars s = chars t -> s = t.
Proof. intros H. rewrite <- (of_chars_chars s), <- (of_chars_chars t), H; reflexivity. Qed.
Lemma chars_app s t : chars (s ++ t) = (chars s ++ chars t)%list.
Proof. induction s; cbn; [reflexivity|]. f_equal; assumption. Qed.

Lemma has_char_In c s : has_char c s = true <-> In c (chars s).
Proof.
  unfold has_char. rewrite existsb_exists. split.
  - intros (d & Hd & E). apply Ascii.eqb_eq in E. subst; assumption.
  - intros H. exists c; split; [assumption|apply Ascii.eqb_refl].
Qed.
Lemma has_char_app c s t : has_char c (s ++ t) = (has_char c s || has_char c t)%bool.
Proof. unfold has_char. rewrite chars_app. apply existsb_app. Qed.

Lemma insert_char_perm c l : Permutation (insert_char c l) (c :: l).
Proof.
  induction l as [|d l IH]; cbn; [constructor; constructor|].
  destruct (ascii_leb c d); [reflexivity|]. rewrite IH. apply perm_swap.
Qed.
Lemma sort_chars_perm l : Permutation (sort_chars l) l.
Proof.
  induction l as [|c l IH]; cbn; [constructor|]. rewrite insert_char_perm. constructor; exact IH.
Qed.
Lemma sorted_str_perm s : Permutation (chars (sorted_str s)) (chars s).
Proof. unfold sorted_str. rewrite chars_of_chars. apply sort_chars_perm. Qed.

(** split returns the two parts exactly when there is one separator *)
Lemma split_aux_no sep cur l : existsb (Ascii.eqb sep) l = false ->
  split_aux sep cur l = [of_chars (rev cur ++ l)].
Proof.
  revert cur; induction l as [|c l IH]; intros cur H; cbn in *.
  - rewrite app_nil_r; reflexivity.
  - apply orb_false_iff in H as [H1 H2]. rewrite Ascii.eqb_sym, H1, IH by assumption.
    cbn. rewrite <- app_assoc. reflexivity.
Qed.
Lemma split_aux_length sep cur l : 1 <= List.length (split_aux sep cur l).
Proof. revert cur; induction l as [|c l IH]; intros cur; cbn; [lia|]. destruct (Ascii.eqb c sep); cbn; auto; lia. Qed.

Lemma split_aux_two sep cur l d m : split_aux sep cur l = [d; m] ->
  exists l1 l2, l = l1 ++ sep :: l2 /\ d = of_chars (rev cur ++ l1) /\ m = of_chars l2 /\
    existsb (Ascii.eqb sep) l1 = false /\ existsb (Ascii.eqb sep) l2 = false.
Proof.
  revert cur; induction l as [|c l IH]; intros cur; cbn; [discriminate|].
  destruct (Ascii.eqb c sep) eqn:E.
  - intros H. injection H as <- H.
    destruct (existsb (Ascii.eqb sep) l) eqn:Ex.
    + exfalso. clear IH. revert H. generalize (@nil ascii) as cur'. 
      induction l as [|c' l IH]; intros cur' H; cbn in *; [discriminate|].
      rewrite (Ascii.eqb_sym sep c') in Ex. destruct (Ascii.eqb c' sep) eqn:E'; cbn in *.
      * injection H as _ H. apply (f_equal (@List.length string)) in H. cbn in H.
        pose proof (split_aux_length sep [] l). lia.
      * eapply IH; eauto.
    + rewrite split_aux_no in H by assumption. injection H as <-. apply Ascii.eqb_eq in E; subst c.
      exists [], l. rewrite app_nil_r. repeat split; auto.
  - intros H. apply IH in H as (l1 & l2 & -> & -> & -> & H1 & H2).
    exists (c :: l1), l2. cbn. rewrite <- app_assoc. repeat split; auto.
    rewrite Ascii.eqb_sym, E, H1. reflexivity.
Qed.

Lemma split_two sep s d m : split sep s = [d; m] ->
  s = (d ++ String sep m)%string /\ has_char sep d = false /\ has_char sep m = false.
Proof.
  unfold split. intros H. apply split_aux_two in H as (l1 & l2 & E & -> & -> & H1 & H2).
  unfold has_char. rewrite !chars_of_chars. repeat split; try assumption.
  apply chars_inj. rewrite chars_app. cbn. rewrite !chars_of_chars. exact E.
Qed.

Lemma split_app sep d m : has_char sep d = false -> has_char sep m = false ->
  split sep (d ++ String sep m) = [d; m].
Proof.
  unfold split, has_char. rewrite chars_app; cbn [chars].
  rewrite <- (of_chars_chars d) at 3. rewrite <- (of_chars_chars m) at 3.
  generalize (chars d) as l1, (chars m) as l2. intros l1 l2 H1 H2.
  enough (G : forall cur, split_aux sep cur (l1 ++ sep :: l2) = [of_chars (rev cur ++ l1); of_chars l2])
    by apply (G []).
  induction l1 as [|c l1 IH]; intros cur; cbn in *.
  - rewrite Ascii.eqb_refl, split_aux_no by assumption. rewrite app_nil_r; reflexivity.
  - apply orb_false_iff in H1 as [H1a H1b]. rewrite Ascii.eqb_sym, H1a, IH by assumption.
    cbn. rewrite <- app_assoc. reflexivity.
Qed.

(** sorting depends only on the multiset of characters *)
Lemma insert_char_comm a b l : insert_char a (insert_char b l) = insert_char b (insert_char a l).
Proof.
  assert (anti : forall x y, Nat.leb (nat_of_ascii x) (nat_of_ascii y) = true ->
                 Nat.leb (nat_of_ascii y) (nat_of_ascii x) = true -> x = y).
  { intros x y Hxy Hyx. apply Nat.leb_le in Hxy, Hyx.
    rewrite <- (ascii_nat_embedding x), <- (ascii_nat_embedding y). f_equal. lia. }
  induction l as [|c l IH]; cbn; unfold ascii_leb in *.
  - destruct (Nat.leb (nat_of_ascii a) (nat_of_ascii b)) eqn:E1, (Nat.leb (nat_of_ascii b) (nat_of_ascii a)) eqn:E2;
      cbn; unfold ascii_leb; rewrite ?E1, ?E2; auto.
    + rewrite (anti a b E1 E2); reflexivity.
    + apply Nat.leb_gt in E1, E2; lia.
  - destruct (Nat.leb (nat_of_ascii b) (nat_of_ascii c)) eqn:E1, (Nat.leb (nat_of_ascii a) (nat_of_ascii c)) eqn:E2;
      cbn; unfold ascii_leb; rewrite ?E1, ?E2;
      destruct (Nat.leb (nat_of_ascii a) (nat_of_ascii b)) eqn:E3, (Nat.leb (nat_of_ascii b) (nat_of_ascii a)) eqn:E4;
      cbn; unfold ascii_leb; rewrite ?E1, ?E2, ?E3, ?E4; try reflexivity; try congruence.
    all: try (rewrite (anti a b E3 E4); reflexivity).
    all: apply Nat.leb_le in E1 || apply Nat.leb_gt in E1; apply Nat.leb_le in E2 || apply Nat.leb_gt in E2;
         apply Nat.leb_le in E3 || apply Nat.leb_gt in E3; apply Nat.leb_le in E4 || apply Nat.leb_gt in E4; lia.
Qed.
Lemma sort_chars_eq l l' : Permutation l l' -> sort_chars l = sort_chars l'.
Proof.
  unfold sort_chars. induction 1; cbn; [reflexivity|rewrite IHPermutation; reflexivity|apply insert_char_comm|congruence].
Qed.
Lemma sorted_str_eq s t : Permutation (chars s) (chars t) -> sorted_str s = sorted_str t.
Proof. intros H. unfold sorted_str. rewrite (sort_chars_eq _ _ H); reflexivity. Qed.
