(** * CondLemmas: joint divided by marginal, for any table of marginal methods. *)
From Coq Require Import Reals Lra Lia List Bool Arith ZArith String Ascii.
From Verif Require Import Num NumLemmas Arr ArrLemmas PyStr Cube Base Spec SpecLemmas Repr CubeLemmas BaseLemmas.
Import ListNotations.
Local Open Scope R_scope.

(** read a bin from the coordinates of A followed by those of C *)
Definition rd2 (A C : vset) (idx : list nat) : bin :=
  let a := rd A idx in
  let c := rd C (skipn (List.length (unit_dims A)) idx) in
  Bin (if has_t A then bt a else bt c) (if has_v A then bv a else bv c)
      (if has_x A then bx a else bx c) (if has_x A then by_ a else by_ c)
      (if has_z A then bz a else bz c).

Lemma rd2_in_grid A C g idx : good_grid g -> inb idx (dims A g ++ dims C g) -> in_grid g (rd2 A C idx).
Proof.
  intros [] H. unfold rd2, in_grid.
  destruct A as [[] [] [] []]; destruct C as [[] [] [] []]; cbn in H |- *; inb_inv; cbn; auto 10.
Qed.
Lemma rd2_coords A C i : disjoint A C = true ->
  rd2 A C (coords A i ++ coords C i) = proj (union A C) i.
Proof.
  destruct A as [[] [] [] []]; destruct C as [[] [] [] []]; cbn; intros H; try discriminate; reflexivity.
Qed.

(** entry of a log conditional: joint over marginal, nan on an empty conditioner *)
Definition cond_entry (j m : R) : num := if Rlt_dec 0 m then lg (j / m) else NaN.

Lemma nsub_cond j m : 0 <= j -> 0 <= m -> j <= m -> nsub (lg j) (lg m) = cond_entry j m.
Proof.
  intros Hj Hm Hle. unfold cond_entry. destruct (Rlt_dec 0 m) as [p|p].
  - apply nsub_lg; assumption.
  - assert (m = 0) by lra. assert (j = 0) by lra. subst. apply nsub_lg_00.
Qed.

Lemma nsub_cond2 j m : 0 <= j -> 0 <= m -> (m = 0 -> j = 0) -> nsub (lg j) (lg m) = cond_entry j m.
Proof.
  intros Hj Hm Hle. unfold cond_entry. destruct (Rlt_dec 0 m) as [p|p].
  - apply nsub_lg; assumption.
  - assert (E : m = 0) by lra. rewrite (Hle E), E. apply nsub_lg_00.
Qed.

Lemma nsub_cond_vol j m w : 0 <= j -> 0 < w -> nsub (cond_entry j m) (lg w) = cond_entry (j / w) m.
Proof.
  intros Hj Hw. unfold cond_entry. destruct (Rlt_dec 0 m) as [p|p].
  - rewrite nsub_lg; [f_equal; field; lra| |assumption].
    apply Rmult_le_pos; [assumption|left; apply Rinv_0_lt_compat; assumption].
  - apply nsub_nan_l.
Qed.

Ltac s_mov :=
  let r := fresh "r" in let E := fresh "E" in let Hr := fresh "Hr" in let P := fresh "P" in
  let Q := fresh "Q" in
  match goal with
  | |- context [moveaxis ?a ?src ?dst] =>
      match goal with
      | Ha : arr_is a ?sa ?fa |- _ =>
          na_compute P sa src; na_compute Q sa dst;
          destruct (moveaxis_is a sa fa src dst _ _ Ha P Q) as (r & E & Hr);
          [ reflexivity
          | let idx := fresh "idx" in let Hidx := fresh "Hidx" in
            intros idx Hidx; cbn in Hidx |- *; inb_inv; cbn; repeat first [apply Forall2_nil | apply Forall2_cons; [assumption|]]
          | rewrite E; cbn [bind]; clear E P Q; cbn in Hr ]
      end
  end.

(** evaluate the string computations on literal strings *)
Ltac eval_in t := let v := eval vm_compute in t in change t with v.
Ltac str_compute :=
  repeat match goal with
  | |- context [has_char ?a ?b] => eval_in (has_char a b)
  | |- context [split ?a ?b] => eval_in (split a b); cbv beta iota zeta
  | |- context [sorted_str ?a] => eval_in (sorted_str a)
  | |- context [replace_char ?a ?b ?s] => eval_in (replace_char a b s)
  | |- context [map (find ?a) ?b] => eval_in (map (find a) b)
  | |- context [neg_positions ?a] => eval_in (neg_positions a)
  end.

Section Cond.
Context (c : cube) (M : log_p_table) (g : grid) (P : joint) (lw : bool).
Context (Hc : cube_on c g) (Hg : good_grid g) (HP : nonneg g P).

(** the marginal methods return the marginals of P *)
Definition marg_table (S : vset) : Prop :=
  exists a, get_log_marginal M (name S) false lw = Ok a /\
    arr_is a (dims S g) (fun idx => lg (marg g P S (rd S idx))).

(** there is no special method for this conditional *)
Definition no_method (w : string) (density : bool) : Prop :=
  match M w with
  | None => True
  | Some m => m density lw = Err AttributeError \/ m density lw = Err NotImplementedError
  end.

Lemma no_method_err w density : no_method w density ->
  (f <- getattr_log_p M w ;; f density lw) = Err AttributeError \/
  (f <- getattr_log_p M w ;; f density lw) = Err NotImplementedError.
Proof.
  unfold no_method, getattr_log_p. destruct (M w); cbn; auto.
Qed.

(** the marginal method of S returns the logs of m, for any function m of bins *)
Definition tab (S : vset) (m : bin -> R) : Prop :=
  exists a, get_log_marginal M (name S) false lw = Ok a /\
    arr_is a (dims S g) (fun idx => lg (m (rd S idx))).

(** the conditional falls back to the quotient of two tabulated marginals, which
    need not come from the same joint distribution *)
Lemma cond2_ok A C density (j m : bin -> R) :
  nonempty A = true -> nonempty C = true -> disjoint A C = true ->
  tab (union A C) j -> tab C m -> no_method (cname A C) density ->
  (forall i, in_grid g i -> 0 <= j (proj (union A C) i) /\ 0 <= m (proj C i) /\
     (m (proj C i) = 0 -> j (proj (union A C) i) = 0)) ->
  exists a, get_log_conditional c M (cname A C) density lw = Ok a /\
    arr_is a (dims A g ++ dims C g) (fun idx =>
      let i := rd2 A C idx in
      cond_entry (j (proj (union A C) i) / (if density then vol g A i else 1)) (m (proj C i))).
Proof.
  intros HA HC HD (aj & Ej & Haj) (am & Em & Ham) Hno Hnn.
  apply no_method_err in Hno.
  destruct (vol_cond_ok c g Hc Hg A C HA HC HD) as (va & Ev & Hva).
  unfold get_log_conditional.
  assert (Hin := fun idx => rd2_in_grid A C g idx Hg).
  destruct A as [[] [] [] []]; try discriminate HA; clear HA;
  destruct C as [[] [] [] []]; try discriminate HD; try discriminate HC; clear HC HD.
  all: cbn [name cname has_t has_v has_x has_z append union orb] in Ev, Ej, Em, Hno, Hnn |- *.
  all: str_compute; cbn [py_assert bind]; rewrite Ej, Em; cbn [bind]; clear Ej Em.
  all: cbn [dims unit_dims all_vars has_t has_v has_x has_z opt app pt nt nv nx ny nz union orb] in *.
  all: s_mov; s_bop.
  all: destruct density;
   [ rewrite Ev; cbn [bind]; s_map; s_bop | ];
   (destruct Hno as [-> | ->]; (eexists; split; [reflexivity|])).
  all: eapply arr_is_ext; [eassumption|]; intros idx Hidx; specialize (Hin idx Hidx); specialize (Hnn _ Hin).
  all: pose proof Hin as Hin'; unfold in_grid in Hin'; destruct Hin' as (_ & _ & Hx & Hy & _).
  all: inb_inv; cbn [nth hd tl bidx]; cbn -[vol nsub rd2 proj union cond_entry]; picks;
       cbn -[vol nsub union rd2 proj cond_entry].
  all: destruct Hnn as (N1 & N2 & N3).
  all: match goal with
    | |- nsub _ (nlog (Fin (vol _ _ ?b0))) = cond_entry (?jj ?u / vol _ ?S ?b) (?mm ?k) =>
        replace (vol g S b0) with (vol g S b)
          by (rewrite <- (vol_pt c g Hc Hg S b Hin); reflexivity);
        change (nsub (nsub (lg (jj u)) (lg (mm k))) (nlog (Fin (vol g S b))) = cond_entry (jj u / vol g S b) (mm k));
        rewrite nsub_cond2, nlog_Fin, nsub_cond_vol by (try assumption; apply vol_pos; assumption);
        reflexivity
    | |- _ = cond_entry (?jj ?u / 1) (?mm ?k) =>
        change (nsub (lg (jj u)) (lg (mm k)) = cond_entry (jj u / 1) (mm k));
        rewrite nsub_cond2 by assumption; f_equal; field
    end.
Qed.

Lemma proj_union_sub A C i : proj C (proj (union A C) i) = proj C i.
Proof. destruct A as [[] [] [] []], C as [[] [] [] []]; reflexivity. Qed.

Lemma cond_ok A C density :
  nonempty A = true -> nonempty C = true -> disjoint A C = true ->
  marg_table (union A C) -> marg_table C -> no_method (cname A C) density ->
  exists a, get_log_conditional c M (cname A C) density lw = Ok a /\
    arr_is a (dims A g ++ dims C g) (fun idx => let i := rd2 A C idx in
      cond_entry (marg g P (union A C) i / (if density then vol g A i else 1)) (marg g P C i)).
Proof.
  intros HA HC HD Hj Hm Hno.
  destruct (cond2_ok A C density (marg g P (union A C)) (marg g P C) HA HC HD Hj Hm Hno) as (a & E & Ha).
  - intros i Hi. rewrite !marg_proj. repeat split; try (apply marg_nonneg; assumption). intros E0.
    pose proof (marg_nonneg g P (union A C) i Hi HP).
    assert (marg g P (union A C) i <= marg g P C i); [|lra].
    apply marg_mono; try assumption. destruct A as [[] [] [] []], C as [[] [] [] []]; reflexivity.
  - exists a; split; [exact E|]. eapply arr_is_ext; [exact Ha|]. intros idx Hi. cbv beta zeta.
    rewrite !marg_proj. reflexivity.
Qed.
End Cond.
