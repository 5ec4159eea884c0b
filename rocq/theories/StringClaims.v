(** * StringClaims: which distribution strings a base component accepts. *)
From Coq Require Import Reals Lra Lia List Bool Arith ZArith String Ascii Permutation.
From Verif Require Import Num NumLemmas Arr ArrLemmas PyStr StrLemmas Cube Base Spec SpecLemmas Repr
  CubeLemmas BaseLemmas CondLemmas DistLemmas Build.
Import ListNotations.
Local Open Scope string_scope.

Lemma lookup_Some {A} (l : list (string * A)) k m : lookup l k = Some m -> In k (map fst l).
Proof.
  induction l as [|[k' m'] l IH]; cbn; [discriminate|].
  destruct (String.eqb_spec k k') as [->|]; auto.
Qed.

Lemma base_keys self w m : base_table self w = Some m -> exists S, nonempty S = true /\ w = name S.
Proof.
  unfold base_table. intros H. apply lookup_Some in H. cbn in H.
  repeat (destruct H as [<-|H]; [match goal with |- exists S, _ /\ ?k = _ =>
    exists (VSet (has_char "t" k) (has_char "v" k) (has_char "x" k) (has_char "z" k));
    split; reflexivity end|]).
  contradiction.
Qed.
Lemma base_table_name self S : nonempty S = true -> exists m, base_table self (name S) = Some m.
Proof. destruct S as [[] [] [] []]; try discriminate; intros _; eexists; reflexivity. Qed.

Lemma marginal_strings self w density lw : has_char "_" w = false ->
  (forall S, nonempty S = true -> w <> name S) -> get_p self w density lw = Err AttributeError.
Proof.
  intros Hw HS. unfold get_p, get_p_of, get_log_p_of. rewrite Hw. unfold get_log_marginal, getattr_log_p.
  destruct (base_table self w) eqn:E; [|reflexivity].
  apply base_keys in E as (S & H1 & H2). exfalso; eapply HS; eauto.
Qed.

(** the variables of U that are not in C *)
Definition minus (U C : vset) : vset :=
  VSet (has_t U && negb (has_t C)) (has_v U && negb (has_v C)) (has_x U && negb (has_x C)) (has_z U && negb (has_z C)).

Lemma name_chars S : chars (name S) =
  ((if has_t S then ["t"%char] else []) ++ (if has_v S then ["v"%char] else []) ++
   (if has_x S then ["x"%char] else []) ++ (if has_z S then ["z"%char] else []))%list.
Proof. destruct S as [[] [] [] []]; reflexivity. Qed.

Lemma perm_minus U C d : Permutation (d ++ chars (name C)) (chars (name U)) ->
  Permutation d (chars (name (minus U C))) /\ subset C U = true.
Proof.
  intros H.
  assert (Hin : forall c, In c (chars (name C)) -> In c (chars (name U))).
  { intros c Hc. eapply Permutation_in; [exact H|]. apply in_or_app; auto. }
  assert (HS : subset C U = true).
  { destruct U as [[] [] [] []], C as [[] [] [] []]; try reflexivity; exfalso; cbn in Hin;
    match goal with
    | _ => specialize (Hin "t"%char ltac:(auto 10)); cbn in Hin; intuition discriminate
    | _ => specialize (Hin "v"%char ltac:(auto 10)); cbn in Hin; intuition discriminate
    | _ => specialize (Hin "x"%char ltac:(auto 10)); cbn in Hin; intuition discriminate
    | _ => specialize (Hin "z"%char ltac:(auto 10)); cbn in Hin; intuition discriminate
    end. }
  split; [|exact HS].
  apply Permutation_app_inv_r with (l := chars (name C)).
  rewrite H. clear H Hin.
  destruct U as [ut uv ux uz], C as [ct cv cx cz]. rewrite !name_chars. cbn [minus has_t has_v has_x has_z].
  unfold subset in HS; cbn in HS.
  apply (Permutation_count_occ Ascii.ascii_dec). intros c.
  rewrite !count_occ_app.
  destruct ut, uv, ux, uz, ct, cv, cx, cz; try discriminate HS; cbn [andb negb count_occ]; lia.
Qed.

Lemma cond_strings_ok self w density lw a : has_char "_" w = true -> get_p self w density lw = Ok a ->
  exists d A C, w = d ++ "_" ++ name C /\ Permutation (chars d) (chars (name A)) /\
    nonempty C = true /\ disjoint A C = true.
Proof.
  intros Hw. unfold get_p, get_p_of, get_log_p_of. rewrite Hw. unfold get_log_conditional. rewrite Hw.
  cbn [py_assert bind]. destruct (split "_" w) as [|d [|m [|]]] eqn:Es; try discriminate.
  apply split_two in Es as (-> & Hd & Hm).
  destruct (base_table self (d ++ String "_" m)) as [f|] eqn:Eb.
  { apply base_keys in Eb as (S & _ & E). rewrite E, name_no_sep in Hw. discriminate. }
  unfold getattr_log_p at 1. rewrite Eb. cbn [bind].
  unfold get_log_marginal at 1, getattr_log_p at 1.
  destruct (base_table self (sorted_str (d ++ m))) as [fj|] eqn:Ej; [|discriminate].
  apply base_keys in Ej as (U & HU & EU). cbn [bind]. destruct (fj false lw); [|discriminate]. cbn [bind].
  unfold get_log_marginal at 1, getattr_log_p at 1.
  destruct (base_table self m) as [fm|] eqn:Em; [|discriminate].
  apply base_keys in Em as (C & HC & ->). intros _.
  assert (HP : Permutation (chars d ++ chars (name C)) (chars (name U))).
  { rewrite <- EU. rewrite sorted_str_perm, chars_app. reflexivity. }
  apply perm_minus in HP as [HP HS].
  exists d, (minus U C), C. repeat split; try assumption.
  destruct U as [[] [] [] []], C as [[] [] [] []]; reflexivity.
Qed.

(** a permuted dependent part gives the very array of the alphabetical string *)
Lemma misordered self A C d lw : Permutation (chars d) (chars (name A)) ->
  get_p self (d ++ "_" ++ name C) false lw = get_p self (cname A C) false lw.
Proof.
  intros HP.
  assert (Hd : has_char "_" d = false).
  { apply not_true_is_false. intros E. apply has_char_In in E.
    apply (Permutation_in _ HP) in E. apply has_char_In in E. rewrite name_no_sep in E. discriminate. }
  assert (Hw : has_char "_" (d ++ "_" ++ name C) = true).
  { rewrite has_char_app. apply orb_true_r. }
  unfold get_p, get_p_of, get_log_p_of. rewrite Hw, cname_sep. unfold get_log_conditional.
  rewrite Hw, cname_sep. cbn [py_assert bind].
  change ("_" ++ name C) with (String "_" (name C)) in *.
  rewrite split_app by (assumption || apply name_no_sep).
  unfold cname. change ("_" ++ name C) with (String "_" (name C)).
  rewrite split_app by apply name_no_sep.
  assert (Eb : base_table self (d ++ String "_" (name C)) = None).
  { destruct (base_table self _) eqn:E; [|reflexivity].
    apply base_keys in E as (S & _ & E). rewrite E, name_no_sep in Hw. discriminate. }
  replace (getattr_log_p (base_table self) (d ++ String "_" (name C))) with (@Err log_p_method AttributeError)
    by (unfold getattr_log_p; rewrite Eb; reflexivity).
  pose proof (base_table_cname self A C) as Eb2. unfold cname in Eb2.
  change ("_" ++ name C) with (String "_" (name C)) in Eb2. 
  replace (getattr_log_p (base_table self) (name A ++ String "_" (name C))) with (@Err log_p_method AttributeError)
    by (unfold getattr_log_p; rewrite Eb2; reflexivity).
  cbn [bind].
  rewrite (sorted_str_eq (d ++ name C) (name A ++ name C)).
  - reflexivity.
  - rewrite !chars_app. apply Permutation_app_tail, HP.
Qed.

Lemma zx_v_axes : exists a, get_p exc "zx_v" false false = Ok a /\
  shp a = [nx exg; ny exg; nz exg; nv exg] /\ shp a <> [nz exg; nx exg; ny exg; nv exg].
Proof.
  assert (P : Permutation (chars "zx") (chars (name (VSet false false true true)))) by apply perm_swap.
  pose proof (misordered exc (VSet false false true true) (VSet false true false false) "zx" false P) as M.
  destruct (get_p_cond exc exg exf exc_on exg_good exf_nonneg (VSet false false true true) (VSet false true false false)
    false false eq_refl eq_refl eq_refl (ex_lw_ok _)) as (a & E & Hs & _).
  exists a. split; [exact (eq_trans M E)|]. rewrite Hs. split; [reflexivity|]. cbn. discriminate.
Qed.

Lemma empty_dependent : exists a, get_p exc "_t" false false = Ok a /\ shp a = [nt exg].
Proof. eexists; split; reflexivity. Qed.
