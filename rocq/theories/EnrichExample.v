(** * EnrichExample: the enrichment of the example component. *)
From Coq Require Import Reals Lra Lia List Bool Arith.
From Verif Require Import Num Parametric Spec ParSpec ParSetSpec ParEnrich EnrichSpec Enrich Build.
Local Open Scope R_scope.

Lemma z_max_gt1 : 1 < z_max.
Proof.
  assert (Hb : 5 < Rpower ahat (- 1 / bhat)).
  { unfold ahat. rewrite Rpower_mult. apply Rlt_trans with (Rpower 10 (7 / 10)); [|apply Rpower_lt; [lra|unfold bhat; lra]].
    assert (E : Rpower 10 (7 / 10) ^ 10 = 10 ^ 7).
    { rewrite <- Rpower_pow by apply exp_pos. rewrite Rpower_mult. replace (7 / 10 * INR 10) with (INR 7) by (cbn; lra).
      apply Rpower_pow; lra. }
    apply Rnot_le_lt. intros C. pose proof (exp_pos (7 / 10 * ln 10)) as P. fold (Rpower 10 (7 / 10)) in P.
    assert (Rpower 10 (7 / 10) ^ 10 <= 5 ^ 10) by (apply pow_incr; lra). rewrite E in *. lra. }
  unfold z_max. lra.
Qed.
Lemma ex_gradient t : (t < 2)%nat -> zm exg 10 t < zm exg 1 t.
Proof.
  intros Ht. assert (Ht' : (t < nt exg)%nat) by exact Ht. apply (ml_strict _ _ (zm_law exg exg_good)); [exact Ht'|lra|lra| |].
  - rewrite Rmult_1_r. unfold t_dep_ratio. rewrite <- (Rpower_1 10) at 2 by lra. apply Rpower_lt; lra.
  - unfold zm. rewrite nearest_above by (exact n_grid_gt || lra). rewrite t_dep_last by exact n_grid_gt.
    apply zmean_uncapped; [exact n_grid_gt|lra|]. pose proof z_max_gt1.
    rewrite grid_t_phi.
    assert (P : z_max <= phi z_max).
    { unfold phi. pose proof (denom_pos z_max ltac:(lra)) as D. pose proof ahat_pos. pose proof (rpow_nonneg z_max bhat).
      apply Rmult_le_reg_r with (1 - ahat * rpow z_max bhat); [assumption|]. unfold Rdiv. rewrite Rmult_assoc, Rinv_l by lra.
      assert (0 <= ahat * rpow z_max bhat) by (apply Rmult_le_pos; lra). nra. }
    unfold mid. cbn [exg tE nt]. destruct t as [|[|t]]; [| |lia]; cbn [INR]; lra.
Qed.
