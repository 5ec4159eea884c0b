(** * Pert: sums of differences. *)
From Coq Require Import Reals Lra Lia List Bool Arith.
From Verif Require Import Num NumLemmas Spec SpecLemmas MomSpec MomLemmas4 PertSpec.
Import ListNotations.
Local Open Scope R_scope.

Section Lists.
Context {A : Type}.
Lemma sumR_abs (F : A -> R) l : Rabs (sumR (map F l)) <= sumR (map (fun a => Rabs (F a)) l).
Proof.
  induction l as [|a l IH]; [cbn; rewrite Rabs_R0; lra|]. cbn [map]. change (sumR (?x :: ?y)) with (x + sumR y).
  eapply Rle_trans; [apply Rabs_triang|]. lra.
Qed.
Lemma sumR_map_le (F G : A -> R) l : (forall a, In a l -> F a <= G a) -> sumR (map F l) <= sumR (map G l).
Proof.
  induction l as [|a l IH]; intros H; [cbn; lra|]. cbn [map]. change (sumR (?x :: ?y)) with (x + sumR y).
  pose proof (H a (or_introl eq_refl)). assert (sumR (map F l) <= sumR (map G l)) by (apply IH; intros; apply H; right; assumption). lra.
Qed.
Lemma sumR_map_lin u v (F G : A -> R) l : sumR (map (fun a => u * F a + v * G a) l) = u * sumR (map F l) + v * sumR (map G l).
Proof. induction l as [|a l IH]; [cbn; lra|]. cbn [map]. change (sumR (?x :: ?y)) with (x + sumR y). rewrite IH. ring. Qed.

(** sums of quotients: a column of numbers over its total *)
Lemma quotients_apart (a a' : A -> R) l c c' : (forall j, In j l -> 0 <= a' j) -> 0 < c -> 0 < c' ->
  sumR (map a l) = c -> sumR (map a' l) = c' ->
  sumR (map (fun j => Rabs (a j / c - a' j / c')) l) <= 2 * sumR (map (fun j => Rabs (a j - a' j)) l) / c.
Proof.
  intros Ha Hc Hc' E E'. set (d := sumR (map (fun j => Rabs (a j - a' j)) l)).
  assert (D : Rabs (c - c') <= d).
  { rewrite <- E, <- E'. replace (sumR (map a l) - sumR (map a' l)) with (sumR (map (fun j => a j - a' j) l)).
    - apply sumR_abs.
    - transitivity (sumR (map (fun j => 1 * a j + -1 * a' j) l)); [apply sumR_map_ext; intros; ring|rewrite sumR_map_lin; ring]. }
  set (u := Rabs (c - c') / (c * c')).
  assert (T : forall j, In j l -> Rabs (a j / c - a' j / c') <= / c * Rabs (a j - a' j) + u * a' j).
  { intros j Hj. replace (a j / c - a' j / c') with (/ c * (a j - a' j) + (- (c - c') / (c * c')) * a' j) by (field; lra).
    eapply Rle_trans; [apply Rabs_triang|]. rewrite !Rabs_mult, (Rabs_pos_eq (/ c)) by (left; apply Rinv_0_lt_compat; exact Hc).
    rewrite (Rabs_pos_eq (a' j)) by (apply Ha; exact Hj). apply Rplus_le_compat_l. apply Rmult_le_compat_r; [apply Ha; exact Hj|].
    unfold u, Rdiv. rewrite Rabs_mult, Rabs_Ropp. assert (0 < c * c') by (apply Rmult_lt_0_compat; assumption).
    rewrite (Rabs_pos_eq (/ (c * c'))) by (left; apply Rinv_0_lt_compat; assumption). lra. }
  eapply Rle_trans; [apply sumR_map_le, T|]. rewrite sumR_map_lin, E'. fold d. unfold u.
  replace (/ c * d + Rabs (c - c') / (c * c') * c') with ((d + Rabs (c - c')) / c) by (field; lra).
  unfold Rdiv. apply Rmult_le_compat_r; [left; apply Rinv_0_lt_compat; exact Hc|lra].
Qed.

(** averages of a bounded quantity under two distributions *)
Lemma averages_apart (h a a' : A -> R) l lo hi : (forall j, In j l -> lo <= h j <= hi) ->
  sumR (map a l) = sumR (map a' l) ->
  Rabs (sumR (map (fun j => h j * a j) l) - sumR (map (fun j => h j * a' j) l)) <= (hi - lo) / 2 * sumR (map (fun j => Rabs (a j - a' j)) l).
Proof.
  intros Hh E. set (m := (lo + hi) / 2).
  replace (sumR (map (fun j => h j * a j) l) - sumR (map (fun j => h j * a' j) l))
    with (sumR (map (fun j => (h j - m) * (a j - a' j)) l)).
  - eapply Rle_trans; [apply sumR_abs|]. rewrite <- (sumR_scal _ (map _ l)), map_map. apply sumR_map_le. intros j Hj. rewrite Rabs_mult.
    apply Rmult_le_compat_r; [apply Rabs_pos|]. destruct (Hh j Hj). unfold m. apply Rabs_le. lra.
  - transitivity (sumR (map (fun j => 1 * (h j * a j - h j * a' j) + (- m) * (a j - a' j)) l)); [apply sumR_map_ext; intros; ring|].
    rewrite sumR_map_lin.
    assert (D : forall u u' : A -> R, sumR (map (fun j => u j - u' j) l) = sumR (map u l) - sumR (map u' l)).
    { intros u u'. transitivity (sumR (map (fun j => 1 * u j + -1 * u' j) l)); [apply sumR_map_ext; intros; ring|rewrite sumR_map_lin; ring]. }
    rewrite !D, E. ring.
Qed.
End Lists.

Lemma apart_list g S i r r' : apart g S i r r' = sumR (map (fun j => Rabs (r j - r' j)) (bins_over g S i)).
Proof. symmetry. apply (sum_bins_over g S i (fun j => Rabs (r j - r' j))). Qed.
Lemma sum_over_le g S i F G : (forall j, In j (bins_over g S i) -> F j <= G j) -> sum_over g S i F <= sum_over g S i G.
Proof. intros H. rewrite <- !sum_bins_over. apply sumR_map_le, H. Qed.
Lemma sum_over_abs g S i F : Rabs (sum_over g S i F) <= sum_over g S i (fun j => Rabs (F j)).
Proof. rewrite <- !sum_bins_over. apply sumR_abs. Qed.
Lemma sum_over_lin g S i u v F G : sum_over g S i (fun j => u * F j + v * G j) = u * sum_over g S i F + v * sum_over g S i G.
Proof. rewrite <- !sum_bins_over. apply sumR_map_lin. Qed.
Lemma sum_over_minus g S i F G : sum_over g S i (fun j => F j - G j) = sum_over g S i F - sum_over g S i G.
Proof.
  transitivity (sum_over g S i (fun j => 1 * F j + -1 * G j)); [|rewrite sum_over_lin; ring].
  rewrite <- !sum_bins_over. apply sumR_map_ext. intros; ring.
Qed.
Lemma apart_pos g S i r r' : 0 <= apart g S i r r'.
Proof. rewrite apart_list. apply sumR_nonneg. intros x Hx. apply in_map_iff in Hx as (j & <- & _). apply Rabs_pos. Qed.
Lemma apart_ext g S i r r' q q' : in_grid g i -> (forall j, in_grid g j -> r j = q j) -> (forall j, in_grid g j -> r' j = q' j) ->
  apart g S i r r' = apart g S i q q'.
Proof. intros Hi H H'. unfold apart. apply sum_over_ext; [exact Hi|]. intros j Hj. rewrite H, H' by assumption. reflexivity. Qed.

(** summing variables out brings distributions nearer *)
Lemma marg_apart_at g P P' A C i : disjoint A C = true ->
  Rabs (marg g P C i - marg g P' C i) <= apart g A i (marg g P (union A C)) (marg g P' (union A C)).
Proof.
  intros HD. rewrite <- (sum_over_marg g P A C i HD), <- (sum_over_marg g P' A C i HD), <- sum_over_minus. apply sum_over_abs.
Qed.
Lemma marg_apart g P P' A C i : disjoint A C = true ->
  apart g C i (marg g P C) (marg g P' C) <= apart g (union A C) i (marg g P (union A C)) (marg g P' (union A C)).
Proof.
  intros HD. unfold apart at 2. rewrite (union_comm A C) at 1. rewrite <- sum_over_union by (rewrite disjoint_comm; exact HD).
  unfold apart at 1. apply sum_over_le. intros j _. apply (marg_apart_at g P P' A C j HD).
Qed.
