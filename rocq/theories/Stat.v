(** * Stat: finite weighted averages over a list. *)
From Coq Require Import Reals Lra Lia List.
From Verif Require Import Num NumLemmas SpecLemmas.
Import ListNotations.
Local Open Scope R_scope.

Section E.
Context {A : Type} (l : list A) (w : A -> R).
Definition E (h : A -> R) : R := sumR (map (fun j => h j * w j) l).

Lemma E_ext h k : (forall j, In j l -> h j = k j) -> E h = E k.
Proof. intros H. apply sumR_map_ext. intros j Hj. rewrite H by assumption; reflexivity. Qed.
Lemma sumR_map_plus (f h : A -> R) (l' : list A) : sumR (map (fun j => f j + h j) l') = sumR (map f l') + sumR (map h l').
Proof. induction l' as [|a l' IH]; cbn; [ring|]. unfold sumR in *. rewrite IH. ring. Qed.
Lemma sumR_map_scal k (f : A -> R) (l' : list A) : sumR (map (fun j => k * f j) l') = k * sumR (map f l').
Proof. induction l' as [|a l' IH]; cbn; [ring|]. unfold sumR in *. rewrite IH. ring. Qed.
Lemma E_plus h k : E (fun j => h j + k j) = E h + E k.
Proof. unfold E. rewrite <- sumR_map_plus. apply sumR_map_ext. intros; ring. Qed.
Lemma E_scal c h : E (fun j => c * h j) = c * E h.
Proof. unfold E. rewrite <- sumR_map_scal. apply sumR_map_ext. intros; ring. Qed.
Lemma E_minus h k : E (fun j => h j - k j) = E h - E k.
Proof.
  rewrite (E_ext _ (fun j => h j + (-1) * k j)) by (intros; ring). rewrite E_plus, E_scal. ring.
Qed.

Context (Hw : forall j, In j l -> 0 <= w j).
Lemma E_nonneg h : (forall j, In j l -> 0 <= h j) -> 0 <= E h.
Proof.
  intros H. apply sumR_nonneg. intros x Hx. apply in_map_iff in Hx as (j & <- & Hj).
  apply Rmult_le_pos; auto.
Qed.
Lemma E_le h k : (forall j, In j l -> h j <= k j) -> E h <= E k.
Proof.
  intros H. assert (0 <= E (fun j => k j - h j)) by (apply E_nonneg; intros j Hj; specialize (H j Hj); lra).
  rewrite E_minus in *. lra.
Qed.

Lemma sumR_zero_terms (f : A -> R) (l' : list A) : (forall j, In j l' -> 0 <= f j) -> sumR (map f l') = 0 ->
  forall j, In j l' -> f j = 0.
Proof.
  induction l' as [|a l' IH]; intros H S j Hj; [destruct Hj|].
  cbn in S. change (fold_right Rplus 0 (map f l')) with (sumR (map f l')) in S.
  assert (0 <= f a) by (apply H; left; reflexivity).
  assert (0 <= sumR (map f l')).
  { apply sumR_nonneg. intros x Hx. apply in_map_iff in Hx as (i & <- & Hi). apply H; right; assumption. }
  destruct Hj as [<-|Hj]; [lra|]. apply IH; auto; [intros; apply H; right; assumption|lra].
Qed.

Context (H1 : sumR (map w l) = 1).
Lemma E_const c : E (fun _ => c) = c.
Proof. unfold E. rewrite sumR_map_scal, H1. ring. Qed.
Lemma E_lower a h : (forall j, In j l -> a <= h j) -> a <= E h.
Proof. intros H. rewrite <- (E_const a). apply E_le. exact H. Qed.
Lemma E_upper b h : (forall j, In j l -> h j <= b) -> E h <= b.
Proof. intros H. rewrite <- (E_const b). apply E_le. exact H. Qed.

Definition Var (h : A -> R) : R := E (fun j => (h j - E h) ^ 2).
Lemma Var_nonneg h : 0 <= Var h.
Proof. apply E_nonneg. intros; apply pow2_ge_0. Qed.
Lemma Var_eq h : Var h = E (fun j => h j ^ 2) - E h ^ 2.
Proof.
  unfold Var. set (m := E h).
  rewrite (E_ext _ (fun j => h j ^ 2 + ((-2 * m) * h j + m ^ 2))) by (intros; ring).
  rewrite E_plus, E_plus, E_scal, E_const. fold m. ring.
Qed.
Lemma central1 h : E (fun j => (h j - E h) ^ 1) = 0.
Proof.
  rewrite (E_ext _ (fun j => h j - E h)) by (intros; ring).
  rewrite E_minus, E_const. ring.
Qed.
Lemma central0 h m : E (fun j => (h j - m) ^ 0) = 1.
Proof. rewrite (E_ext _ (fun _ => 1)) by (intros; ring). apply E_const. Qed.

Lemma Popoviciu a b h : (forall j, In j l -> a <= h j <= b) -> Var h <= (b - a) ^ 2 / 4.
Proof.
  intros H. rewrite Var_eq. set (m := E h).
  assert (P : 0 <= E (fun j => (h j - a) * (b - h j))).
  { apply E_nonneg. intros j Hj. specialize (H j Hj). apply Rmult_le_pos; lra. }
  rewrite (E_ext _ (fun j => (-1) * h j ^ 2 + ((a + b) * h j + - (a * b)))) in P by (intros; ring).
  rewrite E_plus, E_plus, !E_scal, E_const in P. fold m in P.
  assert (0 <= (m - (a + b) / 2) ^ 2) by apply pow2_ge_0. nra.
Qed.

Lemma Var_zero_iff h : Var h = 0 <-> (forall j, In j l -> 0 < w j -> h j = E h).
Proof.
  split.
  - intros H j Hj Hp. unfold Var, E at 1 in H.
    pose proof (sumR_zero_terms (fun j => (h j - E h) ^ 2 * w j) l) as Z.
    assert (Zj : (h j - E h) ^ 2 * w j = 0).
    { apply Z; auto. intros i Hi. apply Rmult_le_pos; [apply pow2_ge_0|auto]. }
    assert ((h j - E h) ^ 2 = 0).
    { apply Rmult_integral in Zj as [|]; [assumption|lra]. }
    assert (h j - E h = 0) by nra. lra.
  - intros H. unfold Var, E at 1. replace 0 with (sumR (map (fun _ : A => 0 * 0) l)).
    + apply sumR_map_ext. intros j Hj. destruct (Rtotal_order 0 (w j)) as [p|[p|p]].
      * rewrite (H j Hj p). ring.
      * rewrite <- p. ring.
      * specialize (Hw j Hj). lra.
    + rewrite sumR_map_scal. ring.
Qed.

Lemma cauchy u v : E (fun j => u j * v j) ^ 2 <= E (fun j => u j ^ 2) * E (fun j => v j ^ 2).
Proof.
  set (a := E (fun j => u j ^ 2)). set (b := E (fun j => u j * v j)). set (c := E (fun j => v j ^ 2)).
  assert (Q : forall t, 0 <= a - 2 * t * b + t ^ 2 * c).
  { intros t. assert (0 <= E (fun j => (u j - t * v j) ^ 2)) as P by (apply E_nonneg; intros; apply pow2_ge_0).
    rewrite (E_ext _ (fun j => u j ^ 2 + ((-2 * t) * (u j * v j) + t ^ 2 * v j ^ 2))) in P by (intros; ring).
    rewrite E_plus, E_plus, !E_scal in P. fold a b c in P. lra. }
  assert (0 <= c) by (apply E_nonneg; intros; apply pow2_ge_0).
  assert (0 <= a) by (apply E_nonneg; intros; apply pow2_ge_0).
  destruct (Req_dec c 0) as [Z|Z].
  - rewrite Z in *. destruct (Req_dec b 0) as [Zb|Zb]; [rewrite Zb; nra|].
    specialize (Q ((a + 1) / (2 * b))). exfalso.
    replace (2 * ((a + 1) / (2 * b)) * b) with (a + 1) in Q by (field; assumption). nra.
  - specialize (Q (b / c)). apply Rmult_le_compat_l with (r := c) in Q; [|assumption].
    replace (c * (a - 2 * (b / c) * b + (b / c) ^ 2 * c)) with (a * c - b ^ 2) in Q by (field; assumption). lra.
Qed.

Lemma cov_eq u v : E (fun j => (u j - E u) * (v j - E v)) = E (fun j => u j * v j) - E u * E v.
Proof.
  set (a := E u). set (b := E v).
  rewrite (E_ext _ (fun j => u j * v j + ((- b) * u j + ((- a) * v j + a * b)))) by (intros; ring).
  rewrite !E_plus, !E_scal, E_const. fold a b. ring.
Qed.

(** fourth, third and second central moments *)
Lemma kurt_skew h : 
  E (fun j => (h j - E h) ^ 3) ^ 2 + Var h ^ 3 <= E (fun j => (h j - E h) ^ 4) * Var h.
Proof.
  set (d := fun j => h j - E h).
  set (m2 := Var h). set (m3 := E (fun j => d j ^ 3)). set (m4 := E (fun j => d j ^ 4)).
  change (m3 ^ 2 + m2 ^ 3 <= m4 * m2).
  assert (D : E d = 0).
  { unfold d. rewrite E_minus, E_const. ring. }
  pose proof (cauchy (fun j => d j ^ 2 - m2) d) as C. cbv beta in C.
  assert (X1 : E (fun j => (d j ^ 2 - m2) * d j) = m3).
  { rewrite (E_ext _ (fun j => d j ^ 3 + (- m2) * d j)) by (intros; ring).
    rewrite E_plus, E_scal, D. unfold m3. ring. }
  assert (X2 : E (fun j => (d j ^ 2 - m2) ^ 2) = m4 - m2 ^ 2).
  { rewrite (E_ext _ (fun j => d j ^ 4 + ((-2 * m2) * d j ^ 2 + m2 ^ 2))) by (intros; ring).
    rewrite !E_plus, E_scal, E_const. change (E (fun j => d j ^ 2)) with m2. fold m4. ring. }
  change (E (fun j => d j ^ 2)) with m2 in C. fold d in X1. rewrite X2 in C.
  change (E (fun j => (d j ^ 2 - m2) * d j)) with (E (fun j => (d j ^ 2 - m2) * d j)) in C. rewrite X1 in C. nra.
Qed.
End E.

Lemma corr_bound c v0 v1 : 0 < v0 -> 0 < v1 -> c ^ 2 <= v0 * v1 -> -1 <= c / sqrt (v0 * v1) <= 1.
Proof.
  intros H0 H1 H. assert (P : 0 < v0 * v1) by (apply Rmult_lt_0_compat; assumption).
  pose proof (sqrt_lt_R0 _ P) as S. pose proof (sqrt_sqrt (v0 * v1) (Rlt_le _ _ P)) as Q.
  set (s := sqrt (v0 * v1)) in *.
  assert (- s <= c <= s) by (split; nra).
  split; apply Rmult_le_reg_r with s; try assumption; unfold Rdiv; rewrite Rmult_assoc, Rinv_l by lra; lra.
Qed.
