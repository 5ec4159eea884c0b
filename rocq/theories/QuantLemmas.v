(** * QuantLemmas: the quantile function of the normal distribution. *)
From Coq Require Import Reals Lra Lia Arith ConstructiveEpsilon.
From Verif Require Import GaussSpec GaussLemmas NormalLSpec.
Local Open Scope R_scope.

Notation phi := (gauss 0 1).
Lemma phi_continuous : continuity phi. Proof. apply phi_cont. lra. Qed.
Lemma phi_pos x : 0 < phi x. Proof. apply exp_pos. Qed.
Lemma phi_even x : phi (- x) = phi x.
Proof. unfold gauss. f_equal. field. Qed.
Lemma exp_le a b : a <= b -> exp a <= exp b.
Proof. intros [H|H]; [left; apply exp_increasing; assumption|right; f_equal; assumption]. Qed.
Lemma phi_le1 x : phi x <= 1.
Proof.
  apply Rle_trans with (exp 0); [|right; apply exp_0]. apply exp_le.
  assert (0 <= (x - 0) ^ 2) by apply pow2_ge_0. lra.
Qed.

Lemma integral_opp f a b I : integral f a b I -> integral f b a (- I).
Proof. intros (p & <-). exists (RiemannInt_P1 p). apply RiemannInt_P8. Qed.

(** the integral from 0 to x *)
Definition area (x : R) : R :=
  match Rle_dec 0 x with
  | left h => RiemannInt (continuity_implies_RiemannInt h (fun y _ => phi_continuous y))
  | right h => - RiemannInt (continuity_implies_RiemannInt (Rlt_le _ _ (Rnot_le_lt _ _ h)) (fun y _ => phi_continuous y))
  end.
Lemma area_0 x : integral phi 0 x (area x).
Proof. unfold area. destruct (Rle_dec 0 x); [eexists; reflexivity|]. apply integral_opp. eexists; reflexivity. Qed.
Lemma area_ok a b I : integral phi a b I -> I = area b - area a.
Proof.
  intros H. pose proof (integral_split phi 0 a b _ _ _ (area_0 a) H (area_0 b)). lra.
Qed.
Lemma area_int a b : integral phi a b (area b - area a).
Proof.
  destruct (Rle_dec a b) as [h|h].
  - destruct (integral_cont phi a b h phi_continuous) as (I & HI). rewrite <- (area_ok a b I HI). exact HI.
  - destruct (integral_cont phi b a ltac:(lra) phi_continuous) as (I & HI). pose proof (integral_opp _ _ _ _ HI) as H'.
    rewrite <- (area_ok a b _ H'). exact H'.
Qed.
Lemma area_bounds a b l u : a <= b -> (forall x, a < x < b -> l <= phi x <= u) -> l * (b - a) <= area b - area a <= u * (b - a).
Proof.
  intros Hab H. split.
  - apply (integral_mono (fun _ => l) phi a b); [assumption|apply integral_const|apply area_int|intros x Hx; apply (H x Hx)].
  - apply (integral_mono phi (fun _ => u) a b); [assumption|apply area_int|apply integral_const|intros x Hx; apply (H x Hx)].
Qed.
Lemma area_derive x : derivable_pt_lim area x (phi x).
Proof.
  intros eps He. destruct (phi_continuous x (eps / 2) ltac:(lra)) as (d & Hd & HC).
  exists (mkposreal d Hd). intros h Hh Hlt. cbn in Hlt.
  assert (K : forall y, Rabs (y - x) < d -> phi x - eps / 2 <= phi y <= phi x + eps / 2).
  { intros y Hy. destruct (Req_dec y x) as [->|Hne]; [lra|].
    specialize (HC y). cbn in HC. unfold R_dist in HC. unfold D_x, no_cond in HC.
    assert (Rabs (phi y - phi x) < eps / 2) by (apply HC; repeat split; auto).
    pose proof (Rle_abs (phi y - phi x)). pose proof (Rle_abs (- (phi y - phi x))). rewrite Rabs_Ropp in *. lra. }
  assert (E : Rabs (area (x + h) - area x - phi x * h) <= eps / 2 * Rabs h).
  { destruct (Rlt_dec 0 h) as [Hp|Hn].
    - destruct (area_bounds x (x + h) (phi x - eps / 2) (phi x + eps / 2) ltac:(lra)) as [H1 H2].
      { intros y Hy. apply K. rewrite Rabs_right in * by lra. lra. }
      rewrite (Rabs_right h) by lra. apply Rabs_le. nra.
    - assert (h < 0) by lra. destruct (area_bounds (x + h) x (phi x - eps / 2) (phi x + eps / 2) ltac:(lra)) as [H1 H2].
      { intros y Hy. apply K. rewrite Rabs_left in * by lra. lra. }
      rewrite (Rabs_left h) by lra. apply Rabs_le. nra. }
  replace ((area (x + h) - area x) / h - phi x) with ((area (x + h) - area x - phi x * h) / h) by (field; assumption).
  unfold Rdiv. rewrite Rabs_mult, Rabs_inv. pose proof (Rabs_pos_lt h Hh).
  apply Rle_lt_trans with (eps / 2 * Rabs h * / Rabs h); [apply Rmult_le_compat_r; [left; apply Rinv_0_lt_compat|]; assumption|].
  rewrite Rmult_assoc, Rinv_r by lra. lra.
Qed.
Lemma area_zero : area 0 = 0.
Proof. pose proof (area_int 0 0) as H. pose proof (area_ok 0 0 _ (integral_opp _ _ _ _ H)). 
  destruct (area_bounds 0 0 0 1 ltac:(lra) ltac:(intros; lra)). pose proof (area_ok 0 0 _ (area_0 0)). lra. Qed.
Lemma area_mvt a b : a < b -> exists c, area b - area a = phi c * (b - a) /\ a < c < b.
Proof. intros H. apply (MVT_cor2 area phi a b H). intros c _. apply area_derive. Qed.
Lemma area_incr a b : a < b -> area a < area b.
Proof. intros H. destruct (area_mvt a b H) as (c & E & _). pose proof (phi_pos c). nra. Qed.
Lemma area_le a b : area a <= area b -> a <= b.
Proof. intros H. destruct (Rle_dec a b); [assumption|]. pose proof (area_incr b a ltac:(lra)). lra. Qed.
Lemma area_inj a b : area a = area b -> a = b.
Proof. intros H. apply Rle_antisym; apply area_le; lra. Qed.
Lemma area_cont : continuity area.
Proof. intros x. apply derivable_continuous_pt. exists (phi x). apply area_derive. Qed.

Lemma area_odd x : area (- x) = - area x.
Proof.
  assert (D : forall y, derivable_pt_lim (fun z => area z + area (- z)) y 0).
  { intros y. replace 0 with (phi y + phi (- y) * -1) by (rewrite phi_even; ring).
    apply (derivable_pt_lim_plus area (fun z => area (- z)) y); [apply area_derive|].
    apply (derivable_pt_lim_comp Ropp area y (-1) (phi (- y))).
    - replace (-1) with (- (1)) by ring. apply (derivable_pt_lim_opp id y 1). apply derivable_pt_lim_id.
    - apply area_derive. }
  assert (K : forall a b, a < b -> area b + area (- b) = area a + area (- a)).
  { intros a b H. destruct (MVT_cor2 (fun z => area z + area (- z)) (fun _ => 0) a b H) as (c & E & _); [intros; apply D|]. lra. }
  destruct (Rtotal_order x 0) as [H|[->|H]].
  - pose proof (K x 0 H) as E. rewrite Ropp_0, area_zero in E. lra.
  - rewrite Ropp_0, area_zero. ring.
  - pose proof (K 0 x H) as E. rewrite Ropp_0, area_zero in E. lra.
Qed.

(** the area is bounded, and tends to half of the total *)
Lemma area_bounded x : 0 <= x -> area x <= exp (1 / 2).
Proof.
  intros Hx. assert (D : forall y, derivable_pt_lim (fun z => area z + exp (1 / 2 - z)) y (phi y + exp (1 / 2 - y) * (0 - 1))).
  { intros y. apply (derivable_pt_lim_plus area (fun z => exp (1 / 2 - z)) y); [apply area_derive|].
    apply (derivable_pt_lim_comp (fun z => 1 / 2 - z) exp y (0 - 1) (exp (1 / 2 - y))).
    - apply (derivable_pt_lim_minus (fun _ => 1 / 2) id y 0 1); [apply derivable_pt_lim_const|apply derivable_pt_lim_id].
    - apply derivable_pt_lim_exp. }
  destruct (Req_dec x 0) as [->|Hne]; [rewrite area_zero; left; apply exp_pos|].
  destruct (MVT_cor2 _ _ 0 x ltac:(lra) (fun c _ => D c)) as (c & E & _).
  rewrite area_zero, Rminus_0_r in E. pose proof (exp_pos (1 / 2 - x)).
  assert (phi c <= exp (1 / 2 - c)).
  { unfold gauss. assert (- (c - 0) ^ 2 / (2 * 1 ^ 2) <= 1 / 2 - c) by (assert (0 <= (c - 1) ^ 2) by apply pow2_ge_0; lra).
    apply exp_le; assumption. }
  nra.
Qed.
Lemma half_exists : {G | Un_cv (fun n => area (INR n)) G}.
Proof.
  apply growing_cv.
  - intros n. left. apply area_incr. apply lt_INR. lia.
  - exists (exp (1 / 2)). intros y (n & ->). apply area_bounded, pos_INR.
Qed.
Definition half : R := proj1_sig half_exists.
Lemma half_cv : Un_cv (fun n => area (INR n)) half. Proof. apply (proj2_sig half_exists). Qed.
Lemma half_above n : area (INR n) < half.
Proof.
  apply Rlt_le_trans with (area (INR (S n))); [apply area_incr, lt_INR; lia|].
  apply (growing_ineq (fun n => area (INR n))); [|apply half_cv]. intros m. left. apply area_incr, lt_INR. lia.
Qed.
Lemma half_ge : 1 / 2 <= half.
Proof.
  pose proof (half_above 1) as H. cbn [INR] in H.
  destruct (area_bounds 0 1 (exp (- (1 / 2))) 1 ltac:(lra)) as [H1 _].
  { intros x Hx. split; [|apply phi_le1]. unfold gauss.
    assert (- (1 / 2) <= - (x - 0) ^ 2 / (2 * 1 ^ 2)) by nra.
    apply exp_le; assumption. }
  rewrite area_zero in H1. pose proof (exp_ineq1_le (- (1 / 2))). lra.
Qed.

Lemma Un_cv_inv u l : Un_cv u l -> l <> 0 -> Un_cv (fun n => / u n) (/ l).
Proof.
  intros H Hl. apply (continuity_seq (fun x => / x) u l); [|assumption].
  apply (continuity_pt_inv id l); [apply derivable_continuous_pt, derivable_pt_id|assumption].
Qed.

(** a quantile function solves area(q p) = (2p - 1) half *)
Lemma quantile_area q : normal_quantile q -> forall p, 0 < p < 1 -> area (q p) = (2 * p - 1) * half.
Proof.
  intros H p Hp. destruct (H p Hp) as (B & D & HB & HD & HC). pose proof half_ge as Hh.
  assert (EB : forall n, B n = area (q p) + area (INR n)) by (intros n; rewrite (area_ok _ _ _ (HB n)), area_odd; ring).
  assert (ED : forall n, D n = 2 * area (INR n)) by (intros n; rewrite (area_ok _ _ _ (HD n)), area_odd; ring).
  assert (L : Un_cv (fun n => B n * / D n) ((area (q p) + half) * / (2 * half))).
  { apply (CV_mult B (fun n => / D n)).
    - apply (Un_cv_ext_from (fun n => area (q p) + area (INR n))); [intros; rewrite EB; reflexivity|].
      apply (CV_plus (fun _ => area (q p)) (fun n => area (INR n))); [apply Un_cv_const|apply half_cv].
    - apply (Un_cv_ext_from (fun n => / (2 * area (INR n)))); [intros; rewrite ED; reflexivity|].
      apply Un_cv_inv; [|lra]. apply (CV_mult (fun _ => 2) (fun n => area (INR n))); [apply Un_cv_const|apply half_cv]. }
  pose proof (UL_sequence _ _ _ HC L) as E.
  assert (E2 : p * (2 * half) = area (q p) + half) by (rewrite E at 1; field; lra). lra.
Qed.
Lemma area_quantile q : (forall p, 0 < p < 1 -> area (q p) = (2 * p - 1) * half) -> normal_quantile q.
Proof.
  intros H p Hp. pose proof half_ge as Hh. exists (fun n => area (q p) - area (- INR n)), (fun n => area (INR n) - area (- INR n)).
  split; [intros; apply area_int|]. split; [intros; apply area_int|].
  assert (E : (area (q p) + half) * / (2 * half) = p) by (rewrite H by assumption; field; lra).
  set (y := area (q p)) in *. rewrite <- E. unfold Rdiv.
  apply (CV_mult (fun n => y - area (- INR n)) (fun n => / (area (INR n) - area (- INR n)))).
  - apply (Un_cv_ext_from (fun n => y + area (INR n))); [intros; rewrite area_odd; ring|].
    apply (CV_plus (fun _ => y) (fun n => area (INR n))); [apply Un_cv_const|apply half_cv].
  - apply (Un_cv_ext_from (fun n => / (2 * area (INR n)))); [intros; rewrite area_odd; f_equal; ring|].
    apply Un_cv_inv; [|lra]. apply (CV_mult (fun _ => 2) (fun n => area (INR n))); [apply Un_cv_const|apply half_cv].
Qed.

(** such a function exists *)
Lemma reach y : Rabs y < half -> exists n, Rabs y < area (INR n).
Proof.
  intros H. destruct (half_cv (half - Rabs y) ltac:(lra)) as (n & Hn). exists n. specialize (Hn n (Nat.le_refl n)).
  unfold R_dist in Hn. pose proof (half_above n). rewrite Rabs_left in Hn by lra. lra.
Qed.
Lemma solve y : Rabs y < half -> {x | area x = y}.
Proof.
  intros H. destruct (constructive_indefinite_ground_description_nat _ (fun n => Rlt_dec (Rabs y) (area (INR n))) (reach y H)) as (n & Hn).
  pose proof (Rle_abs y). pose proof (Rle_abs (- y)) as K. rewrite Rabs_Ropp in K.
  assert (Hp : 0 < INR n).
  { apply lt_0_INR. destruct n; [|lia]. cbn [INR] in Hn. rewrite area_zero in Hn. pose proof (Rabs_pos y). lra. }
  destruct (IVT (fun x => area x - y) (- INR n) (INR n)) as (z & _ & Hz).
  - apply (continuity_minus area (fun _ => y)); [apply area_cont|apply continuity_const; intros a b; reflexivity].
  - lra.
  - rewrite area_odd. lra.
  - lra.
  - exists z. lra.
Qed.
Lemma quantile_exists : exists q, normal_quantile q.
Proof.
  exists (fun p => match Rlt_dec (Rabs ((2 * p - 1) * half)) half with left h => proj1_sig (solve _ h) | right _ => 0 end).
  apply area_quantile. intros p Hp. destruct (Rlt_dec (Rabs ((2 * p - 1) * half)) half) as [h|h].
  - apply (proj2_sig (solve _ h)).
  - exfalso. apply h. pose proof half_ge. rewrite Rabs_mult, (Rabs_right half) by lra.
    assert (Rabs (2 * p - 1) < 1) by (apply Rabs_def1; lra). nra.
Qed.

Lemma quantile_odd q p : normal_quantile q -> 0 < p < 1 -> q (1 - p) = - q p.
Proof.
  intros H Hp. apply area_inj. rewrite area_odd, !(quantile_area q H) by lra. ring.
Qed.
Lemma quantile_sign q p : normal_quantile q -> 0 < p < 1 -> 0 <= q p * (2 * p - 1).
Proof.
  intros H Hp. pose proof (quantile_area q H p Hp) as E. pose proof half_ge.
  destruct (Rle_dec 0 (2 * p - 1)).
  - assert (0 <= q p) by (apply area_le; rewrite area_zero, E; nra). nra.
  - assert (q p <= 0) by (apply area_le; rewrite area_zero, E; nra). nra.
Qed.
Lemma quantile_large q p : normal_quantile q -> 3 / 4 <= p < 1 -> 1 / 4 <= q p.
Proof.
  intros H Hp. apply area_le. rewrite (quantile_area q H) by lra. pose proof half_ge.
  destruct (area_bounds 0 (1 / 4) 0 1 ltac:(lra)) as [_ K]; [intros x _; split; [left; apply phi_pos|apply phi_le1]|].
  rewrite area_zero in K. nra.
Qed.
