(** * SpecLemmas: facts about the specification (finite sums and sign). *)
From Coq Require Import Reals Lra Lia List Bool Arith.
From Verif Require Import Num NumLemmas Spec.
Import ListNotations.
Local Open Scope R_scope.

(** equality of joints on the grid *)
Definition joint_eq (g : grid) (P Q : joint) : Prop :=
  forall t v x y z, (t < nt g)%nat -> (v < nv g)%nat -> (x < nx g)%nat -> (y < ny g)%nat -> (z < nz g)%nat ->
  P t v x y z = Q t v x y z.

Lemma over_ext b n i f h : (b = true -> (i < n)%nat) ->
  (forall k, (k < n)%nat -> f k = h k) -> over b n i f = over b n i h.
Proof. destruct b; cbn; intros Hi H; [apply H; auto|apply Sum_ext; assumption]. Qed.
Lemma over_nonneg b n i f : (b = true -> (i < n)%nat) ->
  (forall k, (k < n)%nat -> 0 <= f k) -> 0 <= over b n i f.
Proof. destruct b; cbn; intros Hi H; [apply H; auto|apply Sum_nonneg; assumption]. Qed.
Lemma over_le b n i f h : (b = true -> (i < n)%nat) ->
  (forall k, (k < n)%nat -> f k <= h k) -> over b n i f <= over b n i h.
Proof. destruct b; cbn; intros Hi H; [apply H; auto|apply Sum_le; assumption]. Qed.
Lemma over_scal b n i f k : over b n i (fun j => k * f j) = k * over b n i f.
Proof. destruct b; cbn; [reflexivity|apply Sum_scal]. Qed.
Lemma over_plus b n i f h : over b n i (fun j => f j + h j) = over b n i f + over b n i h.
Proof. destruct b; cbn; [reflexivity|apply Sum_plus]. Qed.

Lemma marg_ext g P Q S i : in_grid g i -> joint_eq g P Q -> marg g P S i = marg g Q S i.
Proof.
  intros (Ht & Hv & Hx & Hy & Hz) H. unfold marg.
  apply over_ext; [auto|]; intros t Ht'. apply over_ext; [auto|]; intros v Hv'.
  apply over_ext; [auto|]; intros x Hx'. apply over_ext; [auto|]; intros y Hy'.
  apply over_ext; [auto|]; intros z Hz'. apply H; assumption.
Qed.

Lemma marg_nonneg g P S i : in_grid g i -> nonneg g P -> 0 <= marg g P S i.
Proof.
  intros (Ht & Hv & Hx & Hy & Hz) H. unfold marg.
  apply over_nonneg; [auto|]; intros t Ht'. apply over_nonneg; [auto|]; intros v Hv'.
  apply over_nonneg; [auto|]; intros x Hx'. apply over_nonneg; [auto|]; intros y Hy'.
  apply over_nonneg; [auto|]; intros z Hz'. apply H; assumption.
Qed.

Lemma marg_scal g P S i k :
  marg g (fun t v x y z => k * P t v x y z) S i = k * marg g P S i.
Proof.
  unfold marg. destruct S as [[] [] [] []]; cbn;
  repeat (rewrite <- Sum_scal; apply Sum_ext; intros); reflexivity.
Qed.

Lemma marg_none g P i : marg g P no_vars i = total g P.
Proof. reflexivity. Qed.
Lemma marg_all g P i : marg g P all_vars i = P (bt i) (bv i) (bx i) (by_ i) (bz i).
Proof. reflexivity. Qed.

Lemma total_nonneg g P : nonneg g P -> 0 <= total g P.
Proof.
  intros H. unfold total. repeat (apply Sum_nonneg; intros). apply H; assumption.
Qed.
Lemma total_ext g P Q : joint_eq g P Q -> total g P = total g Q.
Proof. intros H. unfold total. repeat (apply Sum_ext; intros). apply H; assumption. Qed.
Lemma total_scal g P k : total g (fun t v x y z => k * P t v x y z) = k * total g P.
Proof. unfold total. repeat (rewrite <- Sum_scal; apply Sum_ext; intros). reflexivity. Qed.

(** a smaller marginal is at least the larger one *)
Lemma over_mono b1 b2 n i f : implb b1 b2 = true -> (i < n)%nat -> (forall k, (k < n)%nat -> 0 <= f k) ->
  over b2 n i f <= over b1 n i f.
Proof.
  destruct b1, b2; cbn; intros H Hi Hf; try discriminate; try lra.
  apply Sum_ge_term; assumption.
Qed.

Lemma marg_mono g P S S' i : in_grid g i -> nonneg g P -> subset S S' = true ->
  marg g P S' i <= marg g P S i.
Proof.
  intros (Ht & Hv & Hx & Hy & Hz) H HS. unfold subset in HS.
  rewrite !andb_true_iff in HS. destruct HS as (((St & Sv) & Sx) & Sz).
  unfold marg.
  eapply Rle_trans; [apply over_mono; [exact St|assumption|]|]; [|apply over_le; [auto|intros t Ht']].
  { intros; repeat (apply over_nonneg; [auto|intros]); apply H; assumption. }
  eapply Rle_trans; [apply over_mono; [exact Sv|assumption|]|]; [|apply over_le; [auto|intros v Hv']].
  { intros; repeat (apply over_nonneg; [auto|intros]); apply H; assumption. }
  eapply Rle_trans; [apply over_mono; [exact Sx|assumption|]|]; [|apply over_le; [auto|intros x Hx']].
  { intros; repeat (apply over_nonneg; [auto|intros]); apply H; assumption. }
  eapply Rle_trans; [apply over_mono; [exact Sx|assumption|]|]; [|apply over_le; [auto|intros y Hy']].
  { intros; repeat (apply over_nonneg; [auto|intros]); apply H; assumption. }
  apply over_mono; [exact Sz|assumption|]. intros; apply H; assumption.
Qed.

Lemma mass_nonneg g f : good_grid g -> nonneg g f -> nonneg g (mass g f).
Proof.
  intros Hg Hf t v x y z Ht Hv Hx Hy Hz. unfold mass.
  apply Rmult_le_pos; [apply Hf; assumption|].
  pose proof (gg_tE _ Hg t Ht). pose proof (gg_vE _ Hg v Hv). pose proof (gg_xE _ Hg x Hx).
  pose proof (gg_yE _ Hg y Hy). pose proof (gg_zE _ Hg z Hz). unfold wid.
  repeat apply Rmult_le_pos; lra.
Qed.
Lemma lit_nonneg g P : good_grid g -> nonneg g P -> nonneg g (lit g P).
Proof.
  intros Hg HP t v x y z Ht Hv Hx Hy Hz. unfold lit.
  apply Rmult_le_pos; [apply HP; assumption|apply (gg_L _ Hg); assumption].
Qed.

Lemma prob_nonneg g f lw : good_grid g -> nonneg g f -> lw_ok g f lw -> nonneg g (prob g f lw).
Proof.
  intros Hg Hf Hl. unfold prob. destruct lw; [|apply mass_nonneg; assumption].
  specialize (Hl eq_refl). intros t v x y z Ht Hv Hx Hy Hz. unfold light.
  apply Rmult_le_pos; [apply lit_nonneg; auto; apply mass_nonneg; assumption|].
  left; apply Rinv_0_lt_compat; assumption.
Qed.

Lemma total_light g P : total g (lit g P) <> 0 -> total g (light g P) = 1.
Proof.
  intros H. unfold light.
  rewrite (total_ext g _ (fun t v x y z => / total g (lit g P) * lit g P t v x y z)).
  - rewrite total_scal. field; assumption.
  - intros t v x y z _ _ _ _ _. field; assumption.
Qed.

(** ** summing out one more variable *)

Lemma Sum_over_comm b n i m (f : nat -> nat -> R) :
  Sum m (fun k => over b n i (f k)) = over b n i (fun j => Sum m (fun k => f k j)).
Proof. destruct b; cbn; [reflexivity|apply Sum_swap]. Qed.

Lemma over_ext_all b n i f h : (forall k, f k = h k) -> over b n i f = over b n i h.
Proof. intros H; destruct b; cbn; [apply H|apply Sum_ext; auto]. Qed.

Lemma marg_sum_t g P S i : Sum (nt g) (fun t => marg g P (with_t true S) (set_t t i)) = marg g P (with_t false S) i.
Proof. reflexivity. Qed.
Lemma marg_sum_v g P S i : Sum (nv g) (fun v => marg g P (with_v true S) (set_v v i)) = marg g P (with_v false S) i.
Proof. unfold marg; cbn. rewrite Sum_over_comm. reflexivity. Qed.
Lemma marg_sum_x g P S i :
  Sum (nx g) (fun x => Sum (ny g) (fun y => marg g P (with_x true S) (set_xy x y i)))
  = marg g P (with_x false S) i.
Proof.
  unfold marg; cbn.
  rewrite (Sum_ext (nx g) _ (fun x => over (has_t S) (nt g) (bt i) (fun t =>
      over (has_v S) (nv g) (bv i) (fun v => Sum (ny g) (fun y =>
         over (has_z S) (nz g) (bz i) (fun z => P t v x y z)))))).
  2:{ intros x _. rewrite Sum_over_comm. apply over_ext_all; intros t.
      rewrite Sum_over_comm. reflexivity. }
  rewrite Sum_over_comm. apply over_ext_all; intros t. rewrite Sum_over_comm. reflexivity.
Qed.
Lemma marg_sum_z g P S i : Sum (nz g) (fun z => marg g P (with_z true S) (set_z z i)) = marg g P (with_z false S) i.
Proof.
  unfold marg; cbn. rewrite Sum_over_comm; apply over_ext_all; intros t.
  rewrite Sum_over_comm; apply over_ext_all; intros v.
  rewrite Sum_over_comm; apply over_ext_all; intros x.
  rewrite Sum_over_comm; apply over_ext_all; intros y. reflexivity.
Qed.


Lemma sum_if_over b n i f : sum_if b n i f = over (negb b) n i f.
Proof. destruct b; reflexivity. Qed.

Lemma sum_if_ext b n i f h : (b = false -> (i < n)%nat) -> (forall k, (k < n)%nat -> f k = h k) ->
  sum_if b n i f = sum_if b n i h.
Proof. destruct b; cbn; intros Hi H; [apply Sum_ext; assumption|apply H; auto]. Qed.
Lemma sum_if_scal b n i f k : sum_if b n i (fun j => k * f j) = k * sum_if b n i f.
Proof. destruct b; cbn; [apply Sum_scal|reflexivity]. Qed.

Lemma sum_over_ext g S i F G : in_grid g i -> (forall j, in_grid g j -> F j = G j) ->
  sum_over g S i F = sum_over g S i G.
Proof.
  intros (Ht & Hv & Hx & Hy & Hz) H. unfold sum_over.
  repeat (apply sum_if_ext; [auto|intros]). apply H. unfold in_grid; cbn; auto.
Qed.

(** ** sums over the bins that agree with a given one outside S *)
Lemma sumR_flat_map' {A B} (F : B -> R) (h : A -> list B) l :
  sumR (map F (flat_map h l)) = sumR (map (fun a => sumR (map F (h a))) l).
Proof.
  induction l as [|a l IH]; [reflexivity|]. cbn [flat_map map].
  rewrite map_app, sumR_app, IH; reflexivity.
Qed.
Lemma sum_range_if b n i f : sumR (map f (range_if b n i)) = sum_if b n i f.
Proof. destruct b; cbn; [apply sumR_map_seq|lra]. Qed.

Lemma sumR_map_ext {A} (f h : A -> R) l : (forall a, In a l -> f a = h a) ->
  sumR (map f l) = sumR (map h l).
Proof. intros H; f_equal; apply map_ext_in; assumption. Qed.

Lemma sum_if_ext_all b n i f h : (forall k, f k = h k) -> sum_if b n i f = sum_if b n i h.
Proof. intros H; destruct b; cbn; [apply Sum_ext; auto|apply H]. Qed.

Lemma sum_bins_over g S i F : sumR (map F (bins_over g S i)) = sum_over g S i F.
Proof.
  unfold bins_over, sum_over.
  rewrite sumR_flat_map', sum_range_if; apply sum_if_ext_all; intros t.
  rewrite sumR_flat_map', sum_range_if; apply sum_if_ext_all; intros v.
  rewrite sumR_flat_map', sum_range_if; apply sum_if_ext_all; intros x.
  rewrite sumR_flat_map', sum_range_if; apply sum_if_ext_all; intros y.
  rewrite map_map, sum_range_if. reflexivity.
Qed.

Lemma in_range_if b n i k : In k (range_if b n i) -> (i < n)%nat -> (k < n)%nat /\ (b = false -> k = i).
Proof.
  destruct b; cbn; intros H Hi.
  - apply in_seq in H. split; [lia|discriminate].
  - destruct H as [->|[]]; auto.
Qed.

(** agreement of two bins on the variables of S *)
Definition agree (S : vset) (i j : bin) : Prop :=
  (has_t S = true -> bt i = bt j) /\ (has_v S = true -> bv i = bv j) /\
  (has_x S = true -> bx i = bx j /\ by_ i = by_ j) /\ (has_z S = true -> bz i = bz j).

Lemma bins_over_in g S i j : in_grid g i -> In j (bins_over g S i) ->
  in_grid g j /\ agree (VSet (negb (has_t S)) (negb (has_v S)) (negb (has_x S)) (negb (has_z S))) j i.
Proof.
  intros (Ht & Hv & Hx & Hy & Hz). unfold bins_over.
  rewrite in_flat_map; intros (t & It & H). rewrite in_flat_map in H; destruct H as (v & Iv & H).
  rewrite in_flat_map in H; destruct H as (x & Ix & H). rewrite in_flat_map in H; destruct H as (y & Iy & H).
  apply in_map_iff in H as (z & <- & Iz).
  apply in_range_if in It as [It1 It2]; [|assumption]. apply in_range_if in Iv as [Iv1 Iv2]; [|assumption].
  apply in_range_if in Ix as [Ix1 Ix2]; [|assumption]. apply in_range_if in Iy as [Iy1 Iy2]; [|assumption].
  apply in_range_if in Iz as [Iz1 Iz2]; [|assumption].
  split; [unfold in_grid; cbn; auto|]. unfold agree; cbn. rewrite !negb_true_iff. auto 10.
Qed.

Lemma marg_agree g P S i j : agree S i j -> marg g P S i = marg g P S j.
Proof.
  destruct i, j. unfold agree, marg; cbn. intros (Ht & Hv & Hx & Hz).
  destruct S as [[] [] [] []]; cbn in *;
  repeat match goal with H : true = true -> _ |- _ => specialize (H eq_refl) end;
  try match goal with H : _ = _ /\ _ = _ |- _ => destruct H end; subst; reflexivity.
Qed.
Lemma vol_agree g S i j : agree S i j -> vol g S i = vol g S j.
Proof.
  destruct i, j. unfold agree, vol; cbn. intros (Ht & Hv & Hx & Hz).
  destruct S as [[] [] [] []]; cbn in *;
  repeat match goal with H : true = true -> _ |- _ => specialize (H eq_refl) end;
  try match goal with H : _ = _ /\ _ = _ |- _ => destruct H end; subst; reflexivity.
Qed.
Lemma coords_agree S i j : agree S i j -> coords S i = coords S j.
Proof.
  destruct i, j. unfold agree, coords; cbn. intros (Ht & Hv & Hx & Hz).
  destruct S as [[] [] [] []]; cbn in *;
  repeat match goal with H : true = true -> _ |- _ => specialize (H eq_refl) end;
  try match goal with H : _ = _ /\ _ = _ |- _ => destruct H end; subst; reflexivity.
Qed.
Lemma agree_subset A B i j : subset A B = true -> agree B i j -> agree A i j.
Proof.
  unfold subset, agree. rewrite !andb_true_iff.
  destruct A as [[] [] [] []], B as [[] [] [] []]; cbn; intuition discriminate.
Qed.

(** summing a marginal over the variables of A leaves the marginal of the rest *)
Lemma sum_over_marg g P A C i : disjoint A C = true ->
  sum_over g A i (marg g P (union A C)) = marg g P C i.
Proof.
  intros HD. destruct i as [t0 v0 x0 y0 z0].
  destruct A as [at_ av ax az], C as [ct cv cx cz]. unfold sum_over, union; cbn.
  assert (HD' : at_ && ct = false /\ av && cv = false /\ ax && cx = false /\ az && cz = false).
  { unfold disjoint in HD; cbn in HD. apply negb_true_iff in HD.
    rewrite !orb_false_iff in HD. tauto. }
  clear HD; destruct HD' as (Dt & Dv & Dx & Dz).
  transitivity (sum_if at_ (nt g) t0 (fun t => sum_if av (nv g) v0 (fun v =>
    sum_if ax (nx g) x0 (fun x => sum_if ax (ny g) y0 (fun y =>
      marg g P (VSet (at_ || ct) (av || cv) (ax || cx) cz) (Bin t v x y z0)))))).
  { apply sum_if_ext_all; intros t. apply sum_if_ext_all; intros v.
    apply sum_if_ext_all; intros x. apply sum_if_ext_all; intros y.
    destruct az; [|reflexivity]. destruct cz; [discriminate Dz|]. cbn.
    apply (marg_sum_z g P (VSet (at_ || ct) (av || cv) (ax || cx) false) (Bin t v x y z0)). }
  transitivity (sum_if at_ (nt g) t0 (fun t => sum_if av (nv g) v0 (fun v =>
      marg g P (VSet (at_ || ct) (av || cv) cx cz) (Bin t v x0 y0 z0)))).
  { apply sum_if_ext_all; intros t. apply sum_if_ext_all; intros v.
    destruct ax; [|reflexivity]. destruct cx; [discriminate Dx|]. cbn.
    apply (marg_sum_x g P (VSet (at_ || ct) (av || cv) false cz) (Bin t v x0 y0 z0)). }
  transitivity (sum_if at_ (nt g) t0 (fun t => 
      marg g P (VSet (at_ || ct) cv cx cz) (Bin t v0 x0 y0 z0))).
  { apply sum_if_ext_all; intros t.
    destruct av; [|reflexivity]. destruct cv; [discriminate Dv|]. cbn.
    apply (marg_sum_v g P (VSet (at_ || ct) false cx cz) (Bin t v0 x0 y0 z0)). }
  destruct at_; [|reflexivity]. destruct ct; [discriminate Dt|]. reflexivity.
Qed.

Lemma marg_total_sum g P S i : sum_over g S i (marg g P S) = total g P.
Proof.
  replace S with (union S no_vars) at 2 by (destruct S as [[] [] [] []]; reflexivity).
  rewrite sum_over_marg; [apply marg_none|]. destruct S as [[] [] [] []]; reflexivity.
Qed.

Lemma vol_union g A C i : disjoint A C = true -> vol g (union A C) i = vol g A i * vol g C i.
Proof.
  unfold vol. destruct A as [[] [] [] []], C as [[] [] [] []]; cbn; intros H; try discriminate; ring.
Qed.
