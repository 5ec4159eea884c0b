(** * FourierLemmas: orthogonality and the convolution theorem for real signals. *)
From Coq Require Import Reals Lra Lia List Bool Arith ZArith.
From Verif Require Import Num NumLemmas FourierSpec.
Import ListNotations.
Local Open Scope R_scope.

Lemma cos_2PI_Z x (k : Z) : cos (x + 2 * IZR k * PI) = cos x.
Proof.
  assert (H : forall m, cos (x + 2 * INR m * PI) = cos x) by (intros; apply cos_period).
  destruct k as [|p|p].
  - f_equal; simpl; ring.
  - rewrite <- (H (Pos.to_nat p)). rewrite INR_IZR_INZ, positive_nat_Z. reflexivity.
  - rewrite <- (cos_period (x + 2 * IZR (Z.neg p) * PI) (Pos.to_nat p)). f_equal.
    rewrite INR_IZR_INZ, positive_nat_Z. change (Z.neg p) with (- Z.pos p)%Z. rewrite opp_IZR. ring.
Qed.
Lemma sin_2PI_Z x (k : Z) : sin (x + 2 * IZR k * PI) = sin x.
Proof.
  assert (H : forall m, sin (x + 2 * INR m * PI) = sin x) by (intros; apply sin_period).
  destruct k as [|p|p].
  - f_equal; simpl; ring.
  - rewrite <- (H (Pos.to_nat p)). rewrite INR_IZR_INZ, positive_nat_Z. reflexivity.
  - rewrite <- (sin_period (x + 2 * IZR (Z.neg p) * PI) (Pos.to_nat p)). f_equal.
    rewrite INR_IZR_INZ, positive_nat_Z. change (Z.neg p) with (- Z.pos p)%Z. rewrite opp_IZR. ring.
Qed.
Lemma cos_PI_Z (k : Z) : cos (2 * IZR k * PI) = 1.
Proof. rewrite <- (Rplus_0_l (2 * _ * _)), cos_2PI_Z. apply cos_0. Qed.
Lemma sin_PI_Z (k : Z) : sin (IZR k * PI) = 0.
Proof. apply sin_eq_0_1. exists k. reflexivity. Qed.

(** ** folding a symmetric sum onto half of its terms *)
Lemma Sum_rev n f : Sum n (fun i => f (n - 1 - i)%nat) = Sum n f.
Proof.
  induction n as [|n IH]; [reflexivity|]. change (Sum (S n) f) with (Sum n f + f n). rewrite <- IH.
  change (S n) with (1 + n)%nat at 1. rewrite Sum_split. cbn [Sum].
  rewrite (Sum_ext n (fun i => f (S n - 1 - (1 + i))%nat) (fun i => f (n - 1 - i)%nat)) by (intros; f_equal; lia).
  replace (S n - 1 - 0)%nat with n by lia. lra.
Qed.
Lemma fold_odd h f : (forall k, (0 < k < 2 * h + 1)%nat -> f (2 * h + 1 - k)%nat = f k) ->
  Sum (2 * h + 1) f = f 0%nat + 2 * Sum h (fun k => f (S k)).
Proof.
  intros H. replace (2 * h + 1)%nat with (1 + (h + h))%nat by lia. rewrite !Sum_split. cbn [Sum].
  assert (E : Sum h (fun i => f (1 + (h + i))%nat) = Sum h (fun k => f (S k))).
  { rewrite <- (Sum_rev h (fun k => f (S k))). apply Sum_ext. intros i Hi.
    rewrite <- (H (1 + (h + i))%nat) by lia. f_equal. lia. }
  rewrite E. change (fun i => f (1 + i)%nat) with (fun k => f (S k)). lra.
Qed.
Lemma fold_even h f : (0 < h)%nat -> (forall k, (0 < k < 2 * h)%nat -> f (2 * h - k)%nat = f k) ->
  Sum (2 * h) f = f 0%nat + f h + 2 * Sum (h - 1) (fun k => f (S k)).
Proof.
  intros Hh H. replace (2 * h)%nat with (1 + ((h - 1) + (1 + (h - 1))))%nat by lia. rewrite !Sum_split. cbn [Sum].
  assert (E : Sum (h - 1) (fun i => f (1 + (h - 1 + (1 + i)))%nat) = Sum (h - 1) (fun k => f (S k))).
  { rewrite <- (Sum_rev (h - 1) (fun k => f (S k))). apply Sum_ext. intros i Hi.
    rewrite <- (H (1 + (h - 1 + (1 + i)))%nat) by lia. f_equal. lia. }
  rewrite E. change (fun i => f (1 + i)%nat) with (fun k => f (S k)).
  replace (1 + (h - 1 + 0))%nat with h by lia. lra.
Qed.
Lemma parity n : (exists h, n = (2 * h)%nat) \/ (exists h, n = (2 * h + 1)%nat).
Proof. destruct (Nat.Even_or_Odd n) as [[h ->]|[h ->]]; [left|right]; exists h; reflexivity. Qed.
Lemma fold_wt n f : (0 < n)%nat -> (forall k, (0 < k < n)%nat -> f (n - k)%nat = f k) ->
  Sum (n / 2 + 1) (fun k => wt n k * f k) = Sum n f.
Proof.
  intros Hn H. destruct (parity n) as [[h ->]|[h ->]].
  - rewrite (fold_even h f) by (lia || assumption). replace (2 * h / 2)%nat with h by (rewrite Nat.mul_comm, Nat.div_mul; lia).
    replace (h + 1)%nat with (1 + ((h - 1) + 1))%nat by lia. rewrite !Sum_split. cbn [Sum].
    assert (E : Sum (h - 1) (fun i => wt (2 * h) (1 + i) * f (1 + i)%nat) = 2 * Sum (h - 1) (fun k => f (S k))).
    { rewrite <- Sum_scal. apply Sum_ext. intros i Hi. unfold wt. destruct (Nat.eqb_spec (1 + i) 0); [lia|].
      destruct (Nat.eqb_spec (2 * (1 + i)) (2 * h)); [lia|]. reflexivity. }
    rewrite E. unfold wt at 1 2. replace (1 + (h - 1 + 0))%nat with h by lia.
    rewrite (Nat.eqb_refl (2 * h)), orb_true_r. cbn [Nat.eqb orb]. lra.
  - rewrite (fold_odd h f H). replace ((2 * h + 1) / 2)%nat with h.
    2:{ rewrite Nat.add_comm, Nat.mul_comm, Nat.div_add by lia. reflexivity. }
    replace (h + 1)%nat with (1 + h)%nat by lia. rewrite !Sum_split. cbn [Sum].
    assert (E : Sum h (fun i => wt (2 * h + 1) (1 + i) * f (1 + i)%nat) = 2 * Sum h (fun k => f (S k))).
    { rewrite <- Sum_scal. apply Sum_ext. intros i Hi. unfold wt. destruct (Nat.eqb_spec (1 + i) 0); [lia|].
      destruct (Nat.eqb_spec (2 * (1 + i)) (2 * h + 1)); [lia|]. reflexivity. }
    rewrite E. unfold wt at 1. cbn [Nat.eqb orb]. lra.
Qed.

(** ** orthogonality *)
Lemma sum_cos n x : 2 * sin x * Sum n (fun k => cos (2 * x * INR k)) = sin ((2 * INR n - 1) * x) + sin x.
Proof.
  induction n as [|n IH]; cbn [Sum].
  - replace ((2 * INR 0 - 1) * x) with (- x) by (simpl; ring). rewrite sin_neg. ring.
  - rewrite Rmult_plus_distr_l, IH. rewrite S_INR.
    replace ((2 * (INR n + 1) - 1) * x) with (2 * x * INR n + x) by ring.
    replace ((2 * INR n - 1) * x) with (2 * x * INR n - x) by ring.
    rewrite sin_plus, sin_minus. ring.
Qed.
Lemma sum_cos_0 n (d : Z) : (0 < n)%nat -> (d mod Z.of_nat n <> 0)%Z ->
  Sum n (fun k => cos (2 * PI * IZR d * INR k / INR n)) = 0.
Proof.
  intros Hn Hd. assert (Hn' : INR n <> 0) by (apply not_0_INR; lia).
  pose proof (sum_cos n (PI * IZR d / INR n)) as H.
  assert (Hs : sin (PI * IZR d / INR n) <> 0).
  { intros E. apply sin_eq_0_0 in E as [k E]. apply Hd.
    assert (E2 : IZR d = IZR (k * Z.of_nat n)).
    { rewrite mult_IZR, <- INR_IZR_INZ. apply Rmult_eq_reg_l with (PI / INR n).
      - transitivity (PI * IZR d / INR n); [field; exact Hn'|]. rewrite E. field. exact Hn'.
      - pose proof PI_RGT_0. intros F. apply (Rmult_eq_compat_r (INR n)) in F. unfold Rdiv in F. rewrite Rmult_assoc, Rinv_l in F by exact Hn'. lra. }
    apply eq_IZR in E2. rewrite E2. apply Z_mod_mult. }
  replace ((2 * INR n - 1) * (PI * IZR d / INR n)) with (- (PI * IZR d / INR n) + 2 * IZR d * PI) in H by (field; exact Hn').
  rewrite sin_2PI_Z, sin_neg in H.
  assert (E : Sum n (fun k => cos (2 * PI * IZR d * INR k / INR n)) = Sum n (fun k => cos (2 * (PI * IZR d / INR n) * INR k))).
  { apply Sum_ext. intros i _. f_equal. field. exact Hn'. }
  rewrite E. apply Rmult_eq_reg_l with (2 * sin (PI * IZR d / INR n)); [lra|lra].
Qed.
Lemma cos_arg_div n (d : Z) k : (0 < n)%nat -> (d mod Z.of_nat n = 0)%Z -> cos (2 * PI * IZR d * INR k / INR n) = 1.
Proof.
  intros Hn Hd. apply Z_div_exact_full_2 in Hd; [|lia]. rewrite Hd.
  assert (Hn' : INR n <> 0) by (apply not_0_INR; lia).
  rewrite <- (cos_PI_Z (d / Z.of_nat n * Z.of_nat k)). f_equal. rewrite !mult_IZR, <- !INR_IZR_INZ. field. exact Hn'.
Qed.
Lemma sin_arg_div n (d : Z) k : (0 < n)%nat -> (d mod Z.of_nat n = 0)%Z -> sin (2 * PI * IZR d * INR k / INR n) = 0.
Proof.
  intros Hn Hd. apply Z_div_exact_full_2 in Hd; [|lia]. rewrite Hd.
  assert (Hn' : INR n <> 0) by (apply not_0_INR; lia).
  rewrite <- (sin_PI_Z (2 * (d / Z.of_nat n) * Z.of_nat k)). f_equal. rewrite !mult_IZR, <- !INR_IZR_INZ. field. exact Hn'.
Qed.
Lemma orthogonal n (d : Z) : (0 < n)%nat ->
  Sum (n / 2 + 1) (fun k => wt n k * cos (2 * PI * IZR d * INR k / INR n)) / INR n = if Z.eqb (d mod Z.of_nat n) 0 then 1 else 0.
Proof.
  intros Hn. assert (Hn' : INR n <> 0) by (apply not_0_INR; lia).
  rewrite (fold_wt n (fun k => cos (2 * PI * IZR d * INR k / INR n)) Hn).
  - destruct (Z.eqb_spec (d mod Z.of_nat n) 0) as [E|E].
    + rewrite (Sum_ext n _ (fun _ => 1)) by (intros; apply cos_arg_div; assumption). rewrite Sum_const. field. exact Hn'.
    + rewrite sum_cos_0 by assumption. field. exact Hn'.
  - intros k Hk. rewrite minus_INR by lia.
    replace (2 * PI * IZR d * (INR n - INR k) / INR n) with (- (2 * PI * IZR d * INR k / INR n) + 2 * IZR d * PI) by (field; exact Hn').
    rewrite cos_2PI_Z. apply cos_neg.
Qed.

(** the signal is periodic *)
Lemma signal_periodic n a b d (m : Z) : (0 < n)%nat -> signal n a b (d + IZR m * INR n) = signal n a b d.
Proof.
  intros Hn. assert (Hn' : INR n <> 0) by (apply not_0_INR; lia). unfold signal. f_equal. apply Sum_ext. intros k _.
  replace (2 * PI * (d + IZR m * INR n) * INR k / INR n) with (2 * PI * d * INR k / INR n + 2 * IZR (m * Z.of_nat k) * PI).
  - rewrite cos_2PI_Z, sin_2PI_Z. reflexivity.
  - rewrite mult_IZR, <- INR_IZR_INZ. field. exact Hn'.
Qed.

(** the half spectrum of the point distribution p_j at displacements e_j (all
    integers) is the signal p *)
Lemma signal_points n m (p : nat -> R) (e : nat -> Z) (d : Z) : (0 < n)%nat ->
  signal n (fun k => Sum m (fun j => p j * cos (2 * PI * IZR (e j) * INR k / INR n)))
           (fun k => Sum m (fun j => p j * - sin (2 * PI * IZR (e j) * INR k / INR n))) (IZR d) =
  Sum m (fun j => if Z.eqb ((d - e j) mod Z.of_nat n) 0 then p j else 0).
Proof.
  intros Hn. assert (Hn' : INR n <> 0) by (apply not_0_INR; lia). unfold signal.
  transitivity (Sum m (fun j => p j * (Sum (n / 2 + 1) (fun k => wt n k * cos (2 * PI * IZR (d - e j) * INR k / INR n)) / INR n))).
  - unfold Rdiv at 1. rewrite <- Sum_scal_r.
    rewrite (Sum_ext m _ (fun j => Sum (n / 2 + 1) (fun k => p j * (wt n k * cos (2 * PI * IZR (d - e j) * INR k / INR n)) * / INR n))).
    2:{ intros j _. unfold Rdiv at 1. rewrite <- Rmult_assoc, <- Sum_scal, <- Sum_scal_r. reflexivity. }
    rewrite <- Sum_swap. apply Sum_ext. intros k _. rewrite <- !Sum_scal_r, <- Sum_minus, <- Sum_scal, <- Sum_scal_r.
    apply Sum_ext. intros j _. rewrite minus_IZR.
    replace (2 * PI * (IZR d - IZR (e j)) * INR k / INR n) with (2 * PI * IZR d * INR k / INR n - 2 * PI * IZR (e j) * INR k / INR n) by (field; exact Hn').
    rewrite cos_minus. ring.
  - apply Sum_ext. intros j _. rewrite (orthogonal n (d - e j) Hn). destruct (Z.eqb _ 0); ring.
Qed.

(** the total of a signal over one period *)
Lemma sum_sin_0 n (k : nat) (w0 : R) : (0 < k < n)%nat ->
  Sum n (fun w => cos (2 * PI * (INR w - w0) * INR k / INR n)) = 0 /\
  Sum n (fun w => sin (2 * PI * (INR w - w0) * INR k / INR n)) = 0.
Proof.
  intros Hk. assert (Hn' : INR n <> 0) by (apply not_0_INR; lia).
  set (x := PI * INR k / INR n).
  assert (Hs : sin x <> 0).
  { apply Rgt_not_eq, sin_gt_0; unfold x.
    - apply Rdiv_lt_0_compat; [apply Rmult_lt_0_compat; [apply PI_RGT_0|apply lt_0_INR; lia]|apply lt_0_INR; lia].
    - apply Rmult_lt_reg_r with (INR n); [apply lt_0_INR; lia|]. unfold Rdiv. rewrite Rmult_assoc, Rinv_l, Rmult_1_r by exact Hn'.
      apply Rmult_lt_compat_l; [apply PI_RGT_0|apply lt_INR; lia]. }
  assert (C : forall c m, 2 * sin x * Sum m (fun w => cos (2 * x * INR w + c)) = sin ((2 * INR m - 1) * x + c) - sin (c - x)).
  { intros c. induction m as [|m IH]; cbn [Sum].
    - replace ((2 * INR 0 - 1) * x + c) with (c - x) by (simpl; ring). ring.
    - rewrite Rmult_plus_distr_l, IH, S_INR.
      replace ((2 * (INR m + 1) - 1) * x + c) with ((2 * x * INR m + c) + x) by ring.
      replace ((2 * INR m - 1) * x + c) with ((2 * x * INR m + c) - x) by ring.
      rewrite (sin_plus _ x), (sin_minus _ x). ring. }
  assert (Z0 : forall c, Sum n (fun w => cos (2 * x * INR w + c)) = 0).
  { intros c. apply Rmult_eq_reg_l with (2 * sin x); [|lra]. rewrite C.
    replace ((2 * INR n - 1) * x + c) with ((c - x) + 2 * IZR (Z.of_nat k) * PI).
    - rewrite sin_2PI_Z. ring.
    - unfold x. rewrite <- INR_IZR_INZ. field. exact Hn'. }
  split.
  - rewrite <- (Z0 (- 2 * x * w0)). apply Sum_ext. intros w _. f_equal. unfold x. field. exact Hn'.
  - rewrite <- (Z0 (- 2 * x * w0 - PI / 2)). apply Sum_ext. intros w _.
    replace (2 * x * INR w + (- 2 * x * w0 - PI / 2)) with (- (PI / 2 - 2 * PI * (INR w - w0) * INR k / INR n)) by (unfold x; field; exact Hn').
    rewrite cos_neg, cos_shift. reflexivity.
Qed.
Lemma signal_total n a b s : (0 < n)%nat -> Sum n (fun w => signal n a b (INR w - s)) = a 0%nat.
Proof.
  intros Hn. assert (Hn' : INR n <> 0) by (apply not_0_INR; lia). unfold signal.
  unfold Rdiv at 1. rewrite Sum_scal_r, Sum_swap.
  rewrite (Sum_single _ _ 0%nat); [|lia|].
  - unfold wt. cbn [Nat.eqb orb]. rewrite (Sum_ext n _ (fun _ => a 0%nat)).
    + rewrite Sum_const. field. exact Hn'.
    + intros w _. simpl (INR 0). rewrite !Rmult_0_r. unfold Rdiv at 1 2. rewrite Rmult_0_l, cos_0, sin_0. ring.
  - intros k Hk Hk0. assert (k < n)%nat.
    { destruct (Nat.eq_dec n 1) as [->|]; [cbn in Hk; lia|]. pose proof (Nat.div_lt n 2 Hn ltac:(lia)). lia. }
    destruct (sum_sin_0 n k s) as [Hc Hs]; [lia|].
    rewrite Sum_scal, Sum_minus, !Sum_scal, Hc, Hs. ring.
Qed.

(** convolution theorem: the product of the spectrum of x with a half spectrum *)
Lemma convolution n (x : nat -> R) a b w : (0 < n)%nat ->
  signal n
    (fun k => Sum n (fun s => x s * cos (2 * PI * INR s * INR k / INR n)) * a k - Sum n (fun s => x s * - sin (2 * PI * INR s * INR k / INR n)) * b k)
    (fun k => Sum n (fun s => x s * cos (2 * PI * INR s * INR k / INR n)) * b k + Sum n (fun s => x s * - sin (2 * PI * INR s * INR k / INR n)) * a k)
    (INR w) = conv n x (signal n a b) w.
Proof.
  intros Hn. assert (Hn' : INR n <> 0) by (apply not_0_INR; lia). unfold conv, signal.
  rewrite (Sum_ext n (fun s => x s * _) (fun s => Sum (n / 2 + 1) (fun k => x s * (wt n k * (a k * cos (2 * PI * (INR w - INR s) * INR k / INR n) - b k * sin (2 * PI * (INR w - INR s) * INR k / INR n))) * / INR n))).
  2:{ intros s _. unfold Rdiv at 1. rewrite <- Rmult_assoc, <- Sum_scal, <- Sum_scal_r. reflexivity. }
  rewrite <- Sum_swap. unfold Rdiv at 1. rewrite <- Sum_scal_r. apply Sum_ext. intros k _.
  rewrite <- !Sum_scal_r, <- Sum_minus, <- Sum_plus, <- !Sum_scal_r, <- Sum_minus, <- Sum_scal, <- Sum_scal_r.
  apply Sum_ext. intros s _.
  replace (2 * PI * (INR w - INR s) * INR k / INR n) with (2 * PI * INR w * INR k / INR n - 2 * PI * INR s * INR k / INR n) by (field; exact Hn').
  rewrite cos_minus, sin_minus. ring.
Qed.
