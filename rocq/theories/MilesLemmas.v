(** * MilesLemmas: facts about the model of read_miles.py. *)
From Coq Require Import Reals Lra Lia List Bool Arith ZArith String Ascii Permutation Sorted.
From Verif Require Import Num NumLemmas Arr PyStr StrLemmas ReadMiles MilesSpec.
Import ListNotations.
Local Open Scope R_scope.
Local Open Scope string_scope.

(** ** strings *)
Lemma split_cons sep d m : has_char sep d = false ->
  split sep (d ++ String sep m) = d :: split sep m.
Proof.
  unfold split, has_char. rewrite chars_app; cbn [chars].
  rewrite <- (of_chars_chars d) at 3. generalize (chars d) as l1, (chars m) as l2. intros l1 l2 H1.
  enough (G : forall cur, split_aux sep cur (l1 ++ sep :: l2) = of_chars (rev cur ++ l1) :: split_aux sep [] l2)
    by apply (G []).
  induction l1 as [|c l1 IH]; intros cur; cbn in *.
  - rewrite Ascii.eqb_refl, app_nil_r; reflexivity.
  - apply orb_false_iff in H1 as [H1a H1b]. rewrite Ascii.eqb_sym, H1a, IH by assumption.
    cbn. rewrite <- app_assoc. reflexivity.
Qed.
Lemma split_none sep s : has_char sep s = false -> split sep s = [s].
Proof. intros H. unfold split. rewrite split_aux_no by exact H. cbn. rewrite of_chars_chars; reflexivity. Qed.

Lemma app_assoc_s a b c : (a ++ b ++ c)%string = ((a ++ b) ++ c)%string.
Proof. apply chars_inj. rewrite !chars_app, app_assoc. reflexivity. Qed.

Lemma strip_prefix_some p l r : strip_prefix p l = Some r <-> l = (p ++ r)%list.
Proof.
  revert l r; induction p as [|a p IH]; intros l r; cbn; [split; congruence|].
  destruct l as [|b l]; cbn; [split; discriminate|].
  destruct (Ascii.eqb_spec a b) as [->|N]; [rewrite IH; split; [congruence|now injection 1]|split; congruence].
Qed.

Lemma split_sub_no sep cur l fuel : sep <> [] -> (List.length l < fuel)%nat ->
  (forall a b, l <> a ++ sep ++ b)%list -> split_sub_aux fuel sep cur l = [of_chars (rev cur ++ l)].
Proof.
  intros Hs. revert cur l; induction fuel as [|fuel IH]; intros cur l Hf H; [lia|]; cbn [split_sub_aux].
  destruct l as [|c l]; [rewrite app_nil_r; reflexivity|].
  destruct (strip_prefix sep (c :: l)) as [r|] eqn:E.
  - apply strip_prefix_some in E. exfalso. apply (H [] r). exact E.
  - rewrite IH; [cbn [rev]; rewrite <- app_assoc; reflexivity|cbn in Hf; lia|].
    intros a b E'. apply (H (c :: a) b). cbn. congruence.
Qed.

Lemma split_sub_yes s0 sep cur a b fuel : (List.length (a ++ s0 :: sep ++ b) < fuel)%nat -> ~ In s0 a ->
  exists fuel', (List.length b < fuel')%nat /\
  split_sub_aux fuel (s0 :: sep) cur (a ++ s0 :: sep ++ b) =
  of_chars (rev cur ++ a) :: split_sub_aux fuel' (s0 :: sep) [] b.
Proof.
  revert cur fuel; induction a as [|c a IH]; intros cur fuel Hf Ha.
  - destruct fuel as [|fuel]; [lia|]. cbn [split_sub_aux app].
    assert (E : strip_prefix (s0 :: sep) (s0 :: sep ++ b) = Some b) by (apply strip_prefix_some; reflexivity).
    rewrite E, app_nil_r. exists fuel. split; [|reflexivity]. cbn in Hf. rewrite app_length in Hf. lia.
  - destruct fuel as [|fuel]; [lia|]. cbn [split_sub_aux app].
    destruct (strip_prefix (s0 :: sep) (c :: a ++ s0 :: sep ++ b)) eqn:E.
    { exfalso. cbn in E. destruct (Ascii.eqb_spec s0 c); [|discriminate]. apply Ha; left; congruence. }
    destruct (IH (c :: cur) fuel) as (f' & Hl & E'); [cbn in Hf; lia|intros Hi; apply Ha; right; exact Hi|].
    exists f'; split; [exact Hl|]. rewrite E'. cbn [rev]. rewrite <- app_assoc. reflexivity.
Qed.

Lemma str_length s : String.length s = List.length (chars s).
Proof. induction s; cbn; congruence. Qed.

Lemma split_i d e : has_char "_" d = false -> (forall a b, e <> a ++ "_i" ++ b) ->
  split_sub "_i" (d ++ "_i" ++ e) = [d; e].
Proof.
  intros Hd He. unfold split_sub. rewrite str_length, !chars_app. cbn [chars].
  destruct (split_sub_yes "_" ["i"%char] [] (chars d) (chars e) (S (List.length (chars d ++ "_"%char :: "i"%char :: chars e)))) as (f & Hf & E).
  - cbn [app]. apply Nat.lt_succ_diag_r.
  - intros Hi. apply has_char_In in Hi. congruence.
  - cbn [app] in E. cbn [chars app]. rewrite E. rewrite split_sub_no.
    + cbn [rev app]. rewrite !of_chars_chars. reflexivity.
    + discriminate.
    + exact Hf.
    + intros a b Eq. apply (He (of_chars a) (of_chars b)). apply chars_inj.
      rewrite !chars_app. cbn [chars]. rewrite !chars_of_chars. exact Eq.
Qed.

(** ** numerals *)
Lemma digit_char_ok d : (d < 10)%nat -> digit (digit_char d) = Some d.
Proof. intros H. do 10 (destruct d as [|d]; [reflexivity|]). lia. Qed.
Lemma digits_ok ds : Forall (fun d => d < 10)%nat ds -> digits (map digit_char ds) = Some ds.
Proof.
  induction 1 as [|d ds H _ IH]; [reflexivity|]. cbn [map digits].
  rewrite digit_char_ok, IH by exact H. reflexivity.
Qed.
Lemma digit_char_not d c : (d < 10)%nat -> digit c = None -> digit_char d <> c.
Proof. intros H N E. rewrite <- E, digit_char_ok in N by exact H. discriminate. Qed.
Lemma digits_no_char ds c : Forall (fun d => d < 10)%nat ds -> digit c = None ->
  has_char c (of_chars (map digit_char ds)) = false.
Proof.
  intros H N. destruct (has_char c _) eqn:E; [|reflexivity]. exfalso.
  apply has_char_In in E. rewrite chars_of_chars in E. apply in_map_iff in E as (d & E & Hd).
  rewrite Forall_forall in H. apply (digit_char_not d c); auto.
Qed.
Lemma dec_no_char i f c : Forall (fun d => d < 10)%nat i -> Forall (fun d => d < 10)%nat f ->
  digit c = None -> c <> "."%char -> has_char c (dec_str i f) = false.
Proof.
  intros Hi Hf N Nd. unfold dec_str. rewrite !has_char_app, !digits_no_char by assumption.
  unfold has_char; cbn. destruct (Ascii.eqb_spec c "."%char); [contradiction|reflexivity].
Qed.

Lemma horner_acc ds acc : fold_left (fun acc d => 10 * acc + INR d) ds acc = acc * 10 ^ List.length ds + horner ds.
Proof.
  unfold horner. revert acc; induction ds as [|d ds IH]; intros acc; cbn [fold_left List.length].
  - cbn; ring.
  - rewrite IH, (IH (10 * 0 + INR d)). cbn [pow]. ring.
Qed.
Lemma horner_cons d ds : horner (d :: ds) = INR d * 10 ^ List.length ds + horner ds.
Proof. unfold horner at 1. cbn [fold_left]. rewrite horner_acc. ring. Qed.
Lemma horner_app ds es : horner (ds ++ es) = horner ds * 10 ^ List.length es + horner es.
Proof. unfold horner at 1. rewrite fold_left_app, horner_acc. reflexivity. Qed.
Lemma Sum_shift n f : Sum (S n) f = f 0%nat + Sum n (fun k => f (S k)).
Proof. replace (S n) with (1 + n)%nat by lia. rewrite Sum_split. cbn [Sum]. rewrite (Rplus_comm 0), Rplus_0_r. reflexivity. Qed.
Lemma horner_val ds : horner ds = Sum (List.length ds) (fun k => INR (nth k ds O) * 10 ^ (List.length ds - 1 - k)).
Proof.
  induction ds as [|d ds IH]; [unfold horner; reflexivity|].
  rewrite horner_cons. cbn [List.length]. rewrite Sum_shift. cbn [nth].
  replace (S (List.length ds) - 1 - 0)%nat with (List.length ds) by lia. f_equal. rewrite IH. apply Sum_ext.
  intros i Hi. f_equal. f_equal. lia.
Qed.
Lemma frac_val ds : horner ds / 10 ^ List.length ds = Sum (List.length ds) (fun k => INR (nth k ds O) / 10 ^ S k).
Proof.
  rewrite horner_val. unfold Rdiv at 1. rewrite <- Sum_scal_r. apply Sum_ext. intros i Hi.
  replace (10 ^ List.length ds) with (10 ^ (List.length ds - 1 - i) * 10 ^ S i).
  - field. split; apply pow_nonzero; lra.
  - rewrite <- pow_add. f_equal. lia.
Qed.

Lemma py_float_ok i f : Forall (fun d => d < 10)%nat i -> Forall (fun d => d < 10)%nat f -> i <> [] ->
  py_float (dec_str i f) = Ok (dec_val i f).
Proof.
  intros Hi Hf Ni. unfold py_float, dec_str.
  change ("." ++ of_chars (map digit_char f)) with (String "." (of_chars (map digit_char f))).
  rewrite split_app by (apply digits_no_char; [assumption|reflexivity]).
  rewrite !chars_of_chars, !digits_ok by assumption.
  destruct i as [|d i]; [contradiction|]. cbn [app].
  f_equal. unfold dec_val. rewrite <- frac_val, <- horner_val.
  change (d :: i ++ f)%list with ((d :: i) ++ f)%list. rewrite horner_app.
  field. apply pow_nonzero; lra.
Qed.

(** ** one file name *)
Lemma count_T_split e : (count_occ ascii_dec (chars e) "T"%char <= 1)%nat ->
  has_char "T" e = false \/ exists a b, e = a ++ String "T" b /\ has_char "T" a = false /\ has_char "T" b = false.
Proof.
  intros H. destruct (has_char "T" e) eqn:E; [right|left; reflexivity].
  apply has_char_In in E. destruct (in_split _ _ E) as (l1 & l2 & El).
  rewrite El, count_occ_app in H. cbn [count_occ] in H.
  destruct (ascii_dec "T" "T"); [|contradiction].
  assert (Z : forall l, count_occ ascii_dec l "T"%char = O -> has_char "T" (of_chars l) = false).
  { intros l Hl. destruct (has_char "T" (of_chars l)) eqn:Hc; [|reflexivity].
    apply has_char_In in Hc. rewrite chars_of_chars in Hc.
    apply (count_occ_In ascii_dec) in Hc. lia. }
  exists (of_chars l1), (of_chars l2). split; [|split; apply Z; lia].
  apply chars_inj. rewrite chars_app; cbn [chars]. rewrite !chars_of_chars. exact El.
Qed.

Lemma split_one_ok f : miles_form f ->
  split_one (file_name f) = Ok (f_imf f, z_text f, file_z f, t_text f, file_t f, [f_end f]).
Proof.
  intros M. destruct M as [M1 M2 M3 M4 M5 M6 M7 M8 M9 M10].
  assert (ZT : has_char "T" (z_text f) = false).
  { unfold z_text. rewrite has_char_app, dec_no_char by (assumption || reflexivity || discriminate).
    destruct (f_neg f); reflexivity. }
  assert (ZZ : has_char "Z" (z_text f) = false).
  { unfold z_text. rewrite has_char_app, dec_no_char by (assumption || reflexivity || discriminate).
    destruct (f_neg f); reflexivity. }
  assert (TT : has_char "T" (t_text f) = false)
    by (unfold t_text; apply dec_no_char; (assumption || reflexivity || discriminate)).
  assert (TZ : has_char "Z" (t_text f) = false)
    by (unfold t_text; apply dec_no_char; (assumption || reflexivity || discriminate)).
  assert (TU : has_char "_" (t_text f) = false)
    by (unfold t_text; apply dec_no_char; (assumption || reflexivity || discriminate)).
  unfold split_one, file_name.
  change ("Z" ++ ?x) with (String "Z" x).
  rewrite split_app; [|assumption|].
  2:{ change ("T" ++ ?x) with (String "T" x). rewrite has_char_app, ZZ.
      change (String "T" ?x) with ("T" ++ x). rewrite !has_char_app, TZ, M2. reflexivity. }
  cbn [item nth_error bind].
  change ("T" ++ ?x) with (String "T" x). rewrite split_cons by exact ZT.
  assert (E3 : fix_basti (z_text f :: split "T" (t_text f ++ "_i" ++ f_end f)) = [z_text f; t_text f ++ "_i" ++ f_end f]).
  { destruct (count_T_split _ M3) as [H|(a & b & E & Ha & Hb)].
    - rewrite split_none; [reflexivity|]. rewrite !has_char_app, TT, H. reflexivity.
    - rewrite E. rewrite (app_assoc_s "_i"), (app_assoc_s (t_text f)).
      rewrite split_cons by (rewrite !has_char_app, TT, Ha; reflexivity).
      rewrite split_none by exact Hb. cbn [fix_basti]. do 2 f_equal;
      apply chars_inj; rewrite !chars_app; cbn [chars app]; rewrite <- ?app_assoc; reflexivity. }
  cbv zeta. rewrite E3. cbn [item nth_error bind].
  rewrite split_i by assumption. cbn [item nth_error bind tl].
  unfold z_text, file_z, file_t, t_text. destruct (f_neg f); cbn [append Ascii.eqb Bool.eqb bind].
  - rewrite py_float_ok by assumption. cbn [bind]. rewrite py_float_ok by assumption. reflexivity.
  - rewrite py_float_ok by assumption. cbn [bind]. rewrite py_float_ok by assumption. reflexivity.
Qed.

(** ** lists *)
Lemma map_res_ok {A B} (f : A -> res B) (g : A -> B) l : (forall a, In a l -> f a = Ok (g a)) ->
  map_res f l = Ok (map g l).
Proof.
  induction l as [|a l IH]; intros H; cbn; [reflexivity|].
  rewrite H by (left; reflexivity). cbn. rewrite IH by (intros; apply H; right; assumption). reflexivity.
Qed.

Definition names_of (fs : list mfile) : names :=
  Names (map file_name fs) (map f_imf fs) (map z_text fs) (map file_z fs) (map t_text fs) (map file_t fs) (map f_end fs).

Lemma split_modfiles_ok fs : Forall miles_form fs -> split_modfiles (map file_name fs) = Ok (names_of fs).
Proof.
  intros H. unfold split_modfiles.
  assert (E : map_res split_one (map file_name fs) =
              Ok (map (fun f => (f_imf f, z_text f, file_z f, t_text f, file_t f, [f_end f])) fs)).
  { induction H as [|f fs Hf _ IH]; cbn; [reflexivity|]. rewrite split_one_ok by exact Hf. cbn. rewrite IH. reflexivity. }
  rewrite E. cbn [bind]. unfold names_of. f_equal. rewrite !map_map.
  f_equal. rewrite flat_map_concat_map, map_map.
  induction fs as [|f fs IH]; cbn; [reflexivity|]. f_equal. apply IH; [now inversion H|].
  cbn in E. inversion H; subst. rewrite split_one_ok in E by assumption. cbn in E.
  destruct (map_res split_one (map file_name fs)); cbn in E; congruence.
Qed.

(** np.where of a mask that depends on the element *)
Lemma where_from m k :
  map fst (filter snd (combine (seq k (List.length m)) m)) = map (fun i => k + i)%nat (where_ m).
Proof.
  unfold where_. revert k. induction m as [|b m IH]; intros k; [reflexivity|].
  cbn [List.length seq combine filter snd].
  assert (E : map fst (filter snd (combine (seq (S k) (List.length m)) m)) =
              map (fun i => k + i)%nat (map fst (filter snd (combine (seq 1 (List.length m)) m)))).
  { rewrite (IH (S k)), (IH 1%nat), !map_map. apply map_ext; intros; lia. }
  destruct b; cbn [map fst]; rewrite E; [rewrite Nat.add_0_r|]; reflexivity.
Qed.
Lemma where_cons {A} (P : A -> bool) a l :
  where_ (map P (a :: l)) = ((if P a then [O] else []) ++ map S (where_ (map P l)))%list.
Proof.
  unfold where_ at 1. cbn [map List.length seq combine filter snd]. destruct (P a); cbn [map fst app]; rewrite (where_from (map P l) 1); reflexivity.
Qed.
Lemma item_map_S {A} (a : A) l i : item (a :: l) (S i) = item l i. Proof. reflexivity. Qed.
Lemma map_res_map {A B C} (f : B -> res C) (g : A -> B) l : map_res f (map g l) = map_res (fun a => f (g a)) l.
Proof. induction l as [|a l IH]; cbn; [reflexivity|]. rewrite IH; reflexivity. Qed.
Lemma take_where {A B} (P : A -> bool) (h : A -> B) l :
  take_idx (where_ (map P l)) (map h l) = Ok (map h (filter P l)).
Proof.
  unfold take_idx. induction l as [|a l IH]; [reflexivity|].
  rewrite where_cons. cbn [filter map].
  assert (E : map_res (item (h a :: map h l)) (map S (where_ (map P l))) = Ok (map h (filter P l)))
    by (rewrite map_res_map; exact IH).
  destruct (P a); cbn [app map_res].
  - cbn [item nth_error bind]. rewrite E. reflexivity.
  - exact E.
Qed.
Lemma combine_map {A B C} (f : A -> B) (g : A -> C) l : combine (map f l) (map g l) = map (fun a => (f a, g a)) l.
Proof. induction l; cbn; congruence. Qed.

Lemma take_names_ok P fs : take_names (where_ (map P fs)) (names_of fs) = Ok (names_of (filter P fs)).
Proof.
  unfold take_names, names_of. cbn [IMFstr zstr zval tstr tval endstr modfiles].
  rewrite !take_where. cbn [bind]. reflexivity.
Qed.

Lemma filter_kept {A} (P : A -> Prop) (b : A -> bool) l : (forall a, b a = true <-> P a) -> kept P l (filter b l).
Proof.
  intros H. induction l as [|a l IH]; cbn; [constructor|]. destruct (b a) eqn:E.
  - constructor; [apply H; exact E|exact IH].
  - constructor; [intros Hp; apply H in Hp; congruence|exact IH].
Qed.
Lemma kept_filter {A} (P : A -> Prop) (b : A -> bool) l l' : (forall a, b a = true <-> P a) -> kept P l l' -> l' = filter b l.
Proof.
  intros H. induction 1 as [|x l l' Hx _ IH|x l l' Hx _ IH]; cbn; [reflexivity| |].
  - apply H in Hx. rewrite Hx, IH. reflexivity.
  - destruct (b x) eqn:E; [apply H in E; contradiction|exact IH].
Qed.

Definition in_limits (al zl : option (R * R)) (f : mfile) : Prop :=
  within (age_range al) (file_t f) /\ within (z_range zl) (file_z f).
Definition in_limitsb (al zl : option (R * R)) (f : mfile) : bool :=
  (Rleb (fst (age_range al)) (file_t f) && Rleb (file_t f) (snd (age_range al))
   && Rleb (fst (z_range zl)) (file_z f) && Rleb (file_z f) (snd (z_range zl)))%bool.
Lemma in_limitsb_ok al zl f : in_limitsb al zl f = true <-> in_limits al zl f.
Proof. unfold in_limitsb, in_limits, within. rewrite !andb_true_iff, !Rleb_true. tauto. Qed.

Lemma filter_ok al zl fs :
  filter_age_metallicity_limits al zl (names_of fs) = Ok (names_of (filter (in_limitsb al zl) fs)).
Proof.
  unfold filter_age_metallicity_limits. cbn [tval zval names_of]. rewrite combine_map, map_map.
  rewrite <- take_names_ok. f_equal.
Qed.

(** ** np.unique *)
Lemma insert_unique_in x l y : In y (insert_unique x l) <-> y = x \/ In y l.
Proof.
  induction l as [|a l IH]; cbn; [intuition|].
  destruct (Rltb x a) eqn:E1; cbn; [intuition|].
  destruct (Reqb x a) eqn:E2; cbn; [apply Reqb_true in E2; subst; intuition|]. rewrite IH. intuition.
Qed.
Lemma unique_in l y : In y (unique l) <-> In y l.
Proof. induction l as [|a l IH]; cbn; [reflexivity|]. rewrite insert_unique_in, IH. intuition. Qed.
Lemma insert_unique_sorted x l : StronglySorted Rlt l -> StronglySorted Rlt (insert_unique x l).
Proof.
  induction 1 as [|a l Hs IH Hf]; cbn; [repeat constructor|].
  destruct (Rltb x a) eqn:E1.
  - apply Rltb_true in E1. constructor; [constructor; assumption|]. constructor; [exact E1|].
    eapply Forall_impl; [|exact Hf]. intros b Hb; cbn in Hb; lra.
  - destruct (Reqb x a) eqn:E2; [constructor; assumption|].
    apply Rltb_false in E1. apply Reqb_false in E2. constructor; [exact IH|].
    apply Forall_forall. intros y Hy. apply insert_unique_in in Hy as [->|Hy]; [lra|].
    rewrite Forall_forall in Hf. auto.
Qed.
Lemma unique_sorted l : StronglySorted Rlt (unique l).
Proof. induction l; cbn; [constructor|]. apply insert_unique_sorted; assumption. Qed.
Lemma sorted_nth l i j : StronglySorted Rlt l -> (i < j)%nat -> (j < List.length l)%nat -> nth i l 0 < nth j l 0.
Proof.
  intros H. revert i j. induction H as [|a l Hs IH Hf]; intros i j Hij Hj; cbn in Hj; [lia|].
  destruct j as [|j]; [lia|]. destruct i as [|i]; cbn [nth].
  - rewrite Forall_forall in Hf. apply Hf. apply nth_In. lia.
  - apply IH; lia.
Qed.
Lemma unique_ok l : distinct_sorted l (unique l).
Proof. split; [apply unique_in|]. intros i j. apply sorted_nth, unique_sorted. Qed.
Lemma sorted_NoDup l : StronglySorted Rlt l -> NoDup l.
Proof.
  induction 1 as [|a l Hs IH Hf]; constructor; [|exact IH]. intros Hi. rewrite Forall_forall in Hf.
  specialize (Hf _ Hi). lra.
Qed.

(** l[::1] *)
Lemma item_nth {A} (l : list A) i d : (i < List.length l)%nat -> item l i = Ok (nth i l d).
Proof. intros H. unfold item. rewrite (nth_error_nth' l d H). reflexivity. Qed.
Lemma map_nth_seq {A} (l : list A) d : map (fun i => nth i l d) (seq 0 (List.length l)) = l.
Proof.
  induction l as [|a l IH]; cbn; [reflexivity|]. f_equal. rewrite <- seq_shift, map_map. exact IH.
Qed.
Lemma stride_1 (l : list R) : stride 1 l = Ok l.
Proof.
  unfold stride, stride_len. replace (List.length l + 1 - 1)%nat with (List.length l) by lia. rewrite Nat.div_1_r.
  rewrite map_res_map, (map_res_ok _ (fun i => nth i l 0)).
  - f_equal. apply map_nth_seq.
  - intros i Hi. apply in_seq in Hi. rewrite Nat.mul_1_r. apply item_nth. lia.
Qed.
Lemma isin_true x l : isin x l = true <-> In x l.
Proof.
  unfold isin. rewrite existsb_exists. split.
  - intros (y & Hy & E). apply Reqb_true in E. subst; exact Hy.
  - intros H. exists x. split; [exact H|]. apply Reqb_true; reflexivity.
Qed.
Lemma filter_all {A} (P : A -> bool) l : (forall a, In a l -> P a = true) -> filter P l = l.
Proof.
  induction l as [|a l IH]; intros H; cbn; [reflexivity|].
  rewrite H by (left; reflexivity). f_equal. apply IH. intros; apply H; right; assumption.
Qed.

(** a[::k], k >= 1, keeps the entries whose position is a multiple of k *)
Lemma stride_len_lt n k i : (0 < k)%nat -> (i < stride_len n k <-> i * k < n)%nat.
Proof.
  intros Hk. unfold stride_len. split; intros H.
  - assert (H1 : (S i <= (n + k - 1) / k)%nat) by lia.
    assert (H2 : (k * ((n + k - 1) / k) <= n + k - 1)%nat) by (apply Nat.mul_div_le; lia). nia.
  - apply (Nat.lt_le_trans _ (S i)); [lia|]. apply Nat.div_le_lower_bound; nia.
Qed.
Lemma stride_ok k (l : list R) : (0 < k)%nat ->
  stride k l = Ok (map (fun i => nth (i * k) l 0) (seq 0 (stride_len (List.length l) k))).
Proof.
  intros Hk. unfold stride. destruct k as [|k]; [lia|].
  rewrite map_res_map. apply map_res_ok. intros i Hi. apply in_seq in Hi.
  apply item_nth. apply stride_len_lt; lia.
Qed.

(** position of a file's value among the distinct values *)
Definition nth_smallest (l : list R) (x : R) (k : nat) : Prop :=
  exists u, distinct_sorted l u /\ (k < List.length u)%nat /\ nth k u 0 = x.

Lemma distinct_sorted_unique l u : distinct_sorted l u -> u = unique l.
Proof.
  intros [Hin Hs].
  assert (S' : StronglySorted Rlt u).
  { clear Hin. induction u as [|a u IH]; [constructor|]. constructor.
    - apply IH. intros i j Hij Hj. apply (Hs (S i) (S j)); cbn; lia.
    - apply Forall_forall. intros y Hy. destruct (In_nth _ _ 0 Hy) as (j & Hj & <-).
      apply (Hs 0%nat (S j)); cbn; lia. }
  assert (G : forall u v, StronglySorted Rlt u -> StronglySorted Rlt v -> (forall x, In x u <-> In x v) -> u = v).
  { clear. induction u as [|a u IH]; intros v Hu Hv H.
    - destruct v as [|b v]; [reflexivity|]. exfalso. apply (H b). left; reflexivity.
    - destruct v as [|b v]; [exfalso; apply (H a); left; reflexivity|].
      inversion Hu as [|? ? Hu1 Hu2]; inversion Hv as [|? ? Hv1 Hv2]; subst.
      rewrite Forall_forall in Hu2, Hv2.
      assert (a = b).
      { destruct (proj1 (H a)) as [E|E]; [left; reflexivity|congruence|].
        destruct (proj2 (H b)) as [E'|E']; [left; reflexivity|congruence|].
        specialize (Hu2 _ E'). specialize (Hv2 _ E). lra. }
      subst b. f_equal. apply IH; try assumption. intros x. split; intros Hx.
      + destruct (proj1 (H x)) as [<-|E]; [right; exact Hx| |exact E]. specialize (Hu2 _ Hx). lra.
      + destruct (proj2 (H x)) as [<-|E]; [right; exact Hx| |exact E]. specialize (Hv2 _ Hx). lra. }
  apply G; [exact S'|apply unique_sorted|]. intros x. rewrite Hin, unique_in. reflexivity.
Qed.

Definition thin_keeps (ka kz : nat) (fs : list mfile) (f : mfile) : Prop :=
  (exists i, nth_smallest (map file_t fs) (file_t f) (i * ka)) /\
  (exists i, nth_smallest (map file_z fs) (file_z f) (i * kz)).

Lemma in_stride k l x : (0 < k)%nat ->
  (In x (map (fun i => nth (i * k) (unique l) 0) (seq 0 (stride_len (List.length (unique l)) k))) <->
   exists i, nth_smallest l x (i * k)).
Proof.
  intros Hk. rewrite in_map_iff. split.
  - intros (i & E & Hi). apply in_seq in Hi. exists i, (unique l). split; [apply unique_ok|]. split; [|exact E].
    apply stride_len_lt; lia.
  - intros (i & u & Hu & Hi & E). apply distinct_sorted_unique in Hu. subst u. exists i. split; [exact E|].
    apply in_seq. split; [lia|]. apply stride_len_lt; lia.
Qed.

Lemma thin_ok ka kz fs : (0 < ka)%nat -> (0 < kz)%nat ->
  exists b, (forall f, b f = true <-> thin_keeps ka kz fs f) /\
  thin_model_grid ka kz (names_of fs) = Ok (names_of (filter b fs)).
Proof.
  intros Ha Hz. unfold thin_model_grid. cbn [tval zval names_of].
  rewrite !stride_ok by assumption. cbn [bind]. rewrite combine_map, map_map.
  eexists. split; [|apply take_names_ok].
  intros f. cbn [fst snd]. rewrite andb_true_iff, !isin_true, !in_stride by assumption. reflexivity.
Qed.
Lemma thin_1 fs : thin_model_grid 1 1 (names_of fs) = Ok (names_of fs).
Proof.
  unfold thin_model_grid. cbn [tval zval names_of].
  rewrite !stride_1. cbn [bind]. rewrite combine_map, map_map, take_names_ok. do 2 f_equal.
  apply filter_all. intros f Hf. cbn [fst snd]. rewrite andb_true_iff, !isin_true, !unique_in.
  split; apply in_map; exact Hf.
Qed.
