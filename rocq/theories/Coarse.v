(** * Coarse: sums of fine bins. *)
From Coq Require Import Reals Lra Lia List Bool Arith FunctionalExtensionality.
From Verif Require Import Num NumLemmas ArrLemmas Spec SpecLemmas CoarseSpec.
Import ListNotations.
Local Open Scope R_scope.

(** sums over lists of numbers *)
Definition L (l : list nat) (f : nat -> R) : R := sumR (map f l).
Lemma L_ext l f h : (forall j, In j l -> f j = h j) -> L l f = L l h.
Proof. intros H. unfold L. f_equal. apply map_ext_in. exact H. Qed.
Lemma L_app a b f : L (a ++ b) f = L a f + L b f.
Proof. unfold L. rewrite map_app, sumR_app. reflexivity. Qed.
Lemma L_one k f : L [k] f = f k.
Proof. unfold L, sumR. cbn. lra. Qed.
Lemma L_cons a l f : L (a :: l) f = f a + L l f.
Proof. reflexivity. Qed.
Lemma L_nil f : L [] f = 0.
Proof. reflexivity. Qed.
Lemma L_plus l f h : L l (fun j => f j + h j) = L l f + L l h.
Proof. induction l as [|a l IH]; [rewrite !L_nil; lra|]. rewrite !L_cons, IH. lra. Qed.
Lemma L_scal l k f : L l (fun j => k * f j) = k * L l f.
Proof. induction l as [|a l IH]; [rewrite !L_nil; lra|]. rewrite !L_cons, IH. lra. Qed.
Lemma L_scal_r l k f : L l (fun j => f j * k) = L l f * k.
Proof. induction l as [|a l IH]; [rewrite !L_nil; lra|]. rewrite !L_cons, IH. lra. Qed.
Lemma L_zero l : L l (fun _ => 0) = 0.
Proof. induction l as [|a l IH]; [reflexivity|]. rewrite L_cons, IH. lra. Qed.
Lemma L_swap a b (F : nat -> nat -> R) : L a (fun i => L b (fun j => F i j)) = L b (fun j => L a (fun i => F i j)).
Proof.
  induction a as [|x a IH].
  - rewrite L_nil. symmetry. etransitivity; [apply L_ext; intros; apply L_nil|]. apply L_zero.
  - rewrite L_cons, IH, <- L_plus. apply L_ext. intros. rewrite L_cons. reflexivity.
Qed.
Lemma L_seq n f : L (seq 0 n) f = Sum n f.
Proof. apply sumR_map_seq. Qed.
Lemma over_L b n k f : over b n k f = L (range_if (negb b) n k) f.
Proof. unfold over, range_if. destruct b; cbn [negb]; [rewrite L_one; reflexivity|rewrite L_seq; reflexivity]. Qed.

(** five nested sums *)
Definition L5 (a b d e h : list nat) (F : nat -> nat -> nat -> nat -> nat -> R) : R :=
  L a (fun t => L b (fun v => L d (fun x => L e (fun y => L h (fun z => F t v x y z))))).
Lemma L5_ext a b d e h F G :
  (forall t v x y z, In t a -> In v b -> In x d -> In y e -> In z h -> F t v x y z = G t v x y z) ->
  L5 a b d e h F = L5 a b d e h G.
Proof. intros H. unfold L5. repeat (apply L_ext; intros ? ?). apply H; assumption. Qed.

Lemma fine_sum_L c S i F : fine_sum c S i F =
  L5 (run_if (has_t S) (st c) (bt i)) (run_if (has_v S) (sv c) (bv i)) (run_if (has_x S) (sx c) (bx i))
     (run_if (has_x S) (sy c) (by_ i)) (run_if (has_z S) (sz c) (bz i)) (fun t v x y z => F (Bin t v x y z)).
Proof.
  unfold fine_sum, fine_bins, L5, L.
  repeat (rewrite map_flat_map, sumR_flat_map; f_equal; apply map_ext; intros ?).
  rewrite map_map. reflexivity.
Qed.
Lemma marg_L g P S i : marg g P S i =
  L5 (range_if (negb (has_t S)) (nt g) (bt i)) (range_if (negb (has_v S)) (nv g) (bv i))
     (range_if (negb (has_x S)) (nx g) (bx i)) (range_if (negb (has_x S)) (ny g) (by_ i))
     (range_if (negb (has_z S)) (nz g) (bz i)) P.
Proof.
  unfold marg, L5. rewrite over_L. apply L_ext; intros. rewrite over_L. apply L_ext; intros. rewrite over_L.
  apply L_ext; intros. rewrite over_L. apply L_ext; intros. apply over_L.
Qed.

(** sums of sums *)
Lemma L_flat (A : nat -> list nat) a f : L (flat_map A a) f = L a (fun t => L (A t) f).
Proof. unfold L. rewrite map_flat_map, sumR_flat_map. reflexivity. Qed.
Lemma out2 e h m (F : nat -> nat -> nat -> R) :
  L e (fun y => L h (fun z => L m (fun j => F j y z))) = L m (fun j => L e (fun y => L h (fun z => F j y z))).
Proof. etransitivity; [apply L_ext; intros; apply L_swap|]. apply L_swap. Qed.
Lemma out3 d e h m (F : nat -> nat -> nat -> nat -> R) :
  L d (fun x => L e (fun y => L h (fun z => L m (fun j => F j x y z)))) =
  L m (fun j => L d (fun x => L e (fun y => L h (fun z => F j x y z)))).
Proof. etransitivity; [apply L_ext; intros; apply out2|]. apply L_swap. Qed.
Lemma out4 b d e h m (F : nat -> nat -> nat -> nat -> nat -> R) :
  L b (fun v => L d (fun x => L e (fun y => L h (fun z => L m (fun j => F j v x y z))))) =
  L m (fun j => L b (fun v => L d (fun x => L e (fun y => L h (fun z => F j v x y z))))).
Proof. etransitivity; [apply L_ext; intros; apply out3|]. apply L_swap. Qed.
Lemma L5_flat A B D E H a b d e h F :
  L5 a b d e h (fun t v x y z => L5 (A t) (B v) (D x) (E y) (H z) F) =
  L5 (flat_map A a) (flat_map B b) (flat_map D d) (flat_map E e) (flat_map H h) F.
Proof.
  unfold L5. rewrite L_flat. apply L_ext; intros t _. etransitivity; [apply out4|]. apply L_ext; intros t' _.
  rewrite L_flat. apply L_ext; intros v _. etransitivity; [apply out3|]. apply L_ext; intros v' _.
  rewrite L_flat. apply L_ext; intros x _. etransitivity; [apply out2|]. apply L_ext; intros x' _.
  rewrite L_flat. apply L_ext; intros y _. etransitivity; [apply L_swap|]. apply L_ext; intros y' _.
  rewrite L_flat. reflexivity.
Qed.

(** the runs of all coarse bins are the fine bins *)
Lemma runs_upto s k : s 0%nat = 0%nat -> (forall j, (j < k)%nat -> (s j < s (S j))%nat) -> flat_map (run s) (seq 0 k) = seq 0 (s k).
Proof.
  intros H0. induction k as [|k IH]; intros H; [cbn; rewrite H0; reflexivity|].
  rewrite seq_S, flat_map_app, IH by (intros; apply H; lia). cbn [flat_map plus]. rewrite app_nil_r. unfold run.
  specialize (H k ltac:(lia)). rewrite <- seq_app. f_equal. lia.
Qed.
Lemma flat_one l : flat_map (fun t : nat => [t]) l = l.
Proof. induction l as [|a l IH]; [reflexivity|]. cbn. rewrite IH. reflexivity. Qed.
Lemma coarse_range n E n' E' s b k : merges n E n' E' s ->
  flat_map (run s) (range_if (negb b) n' k) = flat_map (range_if (negb b) n) (run_if b s k).
Proof.
  intros [H0 Hl Hr He]. unfold range_if, run_if. destruct b; cbn [negb].
  - rewrite flat_one. cbn. apply app_nil_r.
  - rewrite runs_upto by assumption. rewrite Hl. cbn. rewrite app_nil_r. reflexivity.
Qed.
Lemma run_in n E n' E' s k j : merges n E n' E' s -> (k < n')%nat -> In j (run s k) -> (s k <= j < s (S k) /\ j < n)%nat.
Proof.
  intros [H0 Hl Hr He] Hk Hj. unfold run in Hj. apply in_seq in Hj. split; [specialize (Hr k Hk); lia|].
  enough (s (S k) <= s n')%nat by lia. assert (M : forall d, (S k + d <= n')%nat -> (s (S k) <= s (S k + d))%nat).
  { induction d as [|d IH]; intros Hd; [rewrite Nat.add_0_r; lia|]. rewrite Nat.add_succ_r.
    specialize (Hr (S k + d)%nat ltac:(lia)). specialize (IH ltac:(lia)). lia. }
  specialize (M (n' - S k)%nat ltac:(lia)). replace (S k + (n' - S k))%nat with n' in M by lia. exact M.
Qed.

Section Grids.
Context (g g' : grid) (c : cuts) (Hc : coarser g g' c).

Lemma range_in b n k j : (k < n)%nat -> In j (range_if b n k) -> (j < n)%nat.
Proof. unfold range_if. destruct b; [rewrite in_seq; lia|]. intros Hk [->|[]]. exact Hk. Qed.

(** marginals of merged probabilities *)
Lemma marg_merged P P' S i : merged g' c P P' -> in_grid g' i ->
  marg g' P' S i = fine_sum c S i (marg g P S).
Proof.
  intros HP Hi. destruct Hi as (I1 & I2 & I3 & I4 & I5). destruct Hc. rewrite marg_L, fine_sum_L.
  etransitivity.
  { apply L5_ext. intros t v x y z T V X Y Z.
    etransitivity; [apply (HP (Bin t v x y z))|rewrite fine_sum_L; cbn [bt bv bx by_ bz has_t has_v has_x has_z all_vars run_if]; reflexivity].
    unfold in_grid; cbn [bt bv bx by_ bz]. repeat split; eapply range_in; eassumption. }
  rewrite L5_flat. symmetry. etransitivity.
  { apply L5_ext. intros t v x y z _ _ _ _ _. rewrite marg_L. cbn [bt bv bx by_ bz]. reflexivity. }
  rewrite L5_flat.
  rewrite (coarse_range _ _ _ _ _ _ _ co_t), (coarse_range _ _ _ _ _ _ _ co_v), (coarse_range _ _ _ _ _ _ _ co_x),
    (coarse_range _ _ _ _ _ _ _ co_y), (coarse_range _ _ _ _ _ _ _ co_z). reflexivity.
Qed.
Lemma total_L h P : total h P = L5 (seq 0 (nt h)) (seq 0 (nv h)) (seq 0 (nx h)) (seq 0 (ny h)) (seq 0 (nz h)) P.
Proof. unfold total, L5. rewrite <- L_seq. do 4 (apply L_ext; intros; rewrite <- L_seq). reflexivity. Qed.
Lemma total_merged P P' : merged g' c P P' -> total g' P' = total g P.
Proof.
  intros HP. destruct Hc as [[A1 A2 A3 _] [B1 B2 B3 _] [C1 C2 C3 _] [D1 D2 D3 _] [E1 E2 E3 _]]. rewrite !total_L.
  etransitivity.
  { apply L5_ext. intros t v x y z T V X Y Z. apply in_seq in T, V, X, Y, Z.
    etransitivity; [apply (HP (Bin t v x y z))|rewrite fine_sum_L; cbn [bt bv bx by_ bz has_t has_v has_x has_z all_vars run_if]; reflexivity].
    unfold in_grid; cbn [bt bv bx by_ bz]. lia. }
  rewrite L5_flat, !runs_upto, A2, B2, C2, D2, E2 by assumption. reflexivity.
Qed.
Lemma merged_scal P P' k : merged g' c P P' -> merged g' c (fun t v x y z => P t v x y z * k) (fun t v x y z => P' t v x y z * k).
Proof.
  intros HP i Hi. cbv beta. rewrite (HP i Hi). unfold fine_sum. induction (fine_bins c all_vars i) as [|a l IH]; [cbn; unfold sumR; cbn; lra|].
  cbn [map]. unfold sumR in *. cbn [fold_right]. rewrite Rmult_plus_distr_r, IH. reflexivity.
Qed.

Lemma fine_in i j : in_grid g' i -> In j (fine_bins c all_vars i) ->
  In (bt j) (run (st c) (bt i)) /\ In (bv j) (run (sv c) (bv i)) /\ In (bx j) (run (sx c) (bx i)) /\
  In (by_ j) (run (sy c) (by_ i)) /\ In (bz j) (run (sz c) (bz i)).
Proof.
  intros _ H. unfold fine_bins in H. cbn [has_t has_v has_x has_z all_vars run_if] in H.
  apply in_flat_map in H as (t & Ht & H). apply in_flat_map in H as (v & Hv & H). apply in_flat_map in H as (x & Hx & H).
  apply in_flat_map in H as (y & Hy & H). apply in_map_iff in H as (z & <- & Hz). cbn. auto.
Qed.
Lemma fine_grid i j : in_grid g' i -> In j (fine_bins c all_vars i) -> in_grid g j.
Proof.
  intros Hi Hj. destruct (fine_in i j Hi Hj) as (A & B & C & D & E). destruct Hi as (I1 & I2 & I3 & I4 & I5). destruct Hc.
  unfold in_grid. repeat split; [apply (run_in _ _ _ _ _ _ _ co_t I1 A)|apply (run_in _ _ _ _ _ _ _ co_v I2 B)|
    apply (run_in _ _ _ _ _ _ _ co_x I3 C)|apply (run_in _ _ _ _ _ _ _ co_y I4 D)|apply (run_in _ _ _ _ _ _ _ co_z I5 E)].
Qed.
Lemma merged_lit P P' : shared_light g g' c -> merged g' c P P' -> merged g' c (lit g P) (lit g' P').
Proof.
  intros HL HP i Hi. unfold lit. rewrite (HP i Hi). unfold fine_sum.
  transitivity (sumR (map (fun j => P (bt j) (bv j) (bx j) (by_ j) (bz j) * Lw g' (bt i) (bz i)) (fine_bins c all_vars i))).
  - induction (fine_bins c all_vars i) as [|a l IH]; [cbn; unfold sumR; cbn; lra|].
    cbn [map]. unfold sumR in *. cbn [fold_right]. rewrite Rmult_plus_distr_r, IH. reflexivity.
  - f_equal. apply map_ext_in. intros j Hj. f_equal. destruct (fine_in i j Hi Hj) as (A & _ & _ & _ & E).
    destruct Hi as (I1 & _ & _ & _ & I5). symmetry. apply HL; assumption.
Qed.
Lemma merged_prob f f' lw : (lw = true -> shared_light g g' c) -> merged g' c (mass g f) (mass g' f') ->
  merged g' c (prob g f lw) (prob g' f' lw).
Proof.
  intros HL HP. destruct lw; [|exact HP]. specialize (HL eq_refl). unfold prob, light, Rdiv.
  pose proof (merged_lit _ _ HL HP) as HM. rewrite <- (total_merged _ _ HM). apply merged_scal. exact HM.
Qed.
Lemma merged_lw f f' lw : (lw = true -> shared_light g g' c) -> merged g' c (mass g f) (mass g' f') ->
  lw_ok g f lw -> lw_ok g' f' lw.
Proof.
  intros HL HP Hl E. specialize (Hl E). specialize (HL E). rewrite (total_merged _ _ (merged_lit _ _ HL HP)). exact Hl.
Qed.
End Grids.
