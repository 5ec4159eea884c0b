(** * DatacubeShift: a single velocity bin in the base datacube. *)
From Coq Require Import Reals Lra Lia List Bool Arith ZArith String Ascii.
From Verif Require Import Num NumLemmas Arr ArrLemmas Cube Base Spec SpecLemmas Repr Fft Datacube FourierSpec FourierLemmas DatacubeSpec
  DatacubeLemmas VelocityLemmas DatacubeMain DatacubeClaims ParYbarSpec ParYbarLemmas.
Import ListNotations.
Local Open Scope R_scope.

(** interpolation from m to M equally spaced points on [0,1] that is exact for
    cos(al u) and sin(al u) *)
Definition exact_at (W : weights) (m M : nat) (al : R) : Prop := forall k, (k < M)%nat ->
  Sum m (fun j => W m M k j * cos (al * INR j / INR (m - 1))) = cos (al * INR k / INR (M - 1)) /\
  Sum m (fun j => W m M k j * sin (al * INR j / INR (m - 1))) = sin (al * INR k / INR (M - 1)).

(** all stars in velocity bin v *)
Definition only_bin (g : grid) (f : joint) (v : nat) : Prop :=
  forall t v' x y z, (v' < nv g)%nat -> v' <> v -> f t v' x y z = 0.

Lemma half_even n : (exists h, n = (2 * h)%nat) -> INR (n / 2 + 1 - 1) = INR n / 2.
Proof. intros [h ->]. replace (2 * h / 2 + 1 - 1)%nat with h by (rewrite Nat.mul_comm, Nat.div_mul by lia; lia). rewrite mult_INR. simpl (INR 2). field. Qed.
Lemma half_odd n : (exists h, n = (2 * h + 1)%nat) -> INR (n / 2 + 1 - 1) = (INR n - 1) / 2.
Proof.
  intros [h ->]. replace ((2 * h + 1) / 2 + 1 - 1)%nat with h.
  - rewrite plus_INR, mult_INR. simpl (INR 2). simpl (INR 1). field.
  - replace (2 * h + 1)%nat with (1 + h * 2)%nat by lia. rewrite Nat.div_add by lia. cbn [Nat.div Nat.divmod fst]. lia.
Qed.

(** the displacement, in pixels, that a bin D bins from zero gets: q is nv for even nv and nv-1 for odd *)
Lemma bin_claim W g f n dv v0 S v al w i j : (0 < n)%nat -> (exists h, n = (2 * h)%nat) -> (v < nv g)%nat -> only_bin g f v ->
  exact_at W (nv g / 2 + 1) (n / 2 + 1) al ->
  INR (nv g / 2 + 1 - 1) <> 0 -> al / INR (nv g / 2 + 1 - 1) = 2 * PI * (INR v - INR v0) / INR (nv g) ->
  datacube W g f n dv v0 S w i j =
  Sum (nt g) (fun t => Sum (nz g) (fun z => bin_prob g f dv t i j z v * conv n (S t z) (point n (al / PI)) w)).
Proof.
  intros Hn He Hv Hf HW Hnz Hal. assert (Hn' : INR n <> 0) by (apply not_0_INR; lia). pose proof PI_RGT_0.
  unfold datacube. apply Sum_ext. intros t _. apply Sum_ext. intros z _. unfold conv. rewrite <- Sum_scal. apply Sum_ext. intros s _.
  rewrite <- Rmult_assoc, (Rmult_comm (bin_prob _ _ _ _ _ _ _ _)), Rmult_assoc. f_equal. unfold broadening, point.
  set (p := bin_prob g f dv t i j z v).
  assert (Er : forall q, vel_re (nv g) v0 (bin_prob g f dv t i j z) q = p * cos (al * INR q / INR (nv g / 2 + 1 - 1))).
  { intros q. unfold vel_re. rewrite (Sum_single _ _ v Hv).
    - unfold p. f_equal. f_equal. transitivity (al / INR (nv g / 2 + 1 - 1) * INR q); [rewrite Hal|]; unfold Rdiv; ring.
    - intros v' Hv' Hne. unfold bin_prob. rewrite (Hf t v' i j z Hv' Hne). ring. }
  assert (Ei : forall q, vel_im (nv g) v0 (bin_prob g f dv t i j z) q = p * - sin (al * INR q / INR (nv g / 2 + 1 - 1))).
  { intros q. unfold vel_im. rewrite (Sum_single _ _ v Hv).
    - unfold p. f_equal. f_equal. f_equal. transitivity (al / INR (nv g / 2 + 1 - 1) * INR q); [rewrite Hal|]; unfold Rdiv; ring.
    - intros v' Hv' Hne. unfold bin_prob. rewrite (Hf t v' i j z Hv' Hne). ring. }
  transitivity (p * signal n (fun k => cos (2 * PI * (al / PI) * INR k / INR n)) (fun k => - sin (2 * PI * (al / PI) * INR k / INR n)) (INR w - INR s)
     + signal n (fun _ => 0) (fun _ => 0) (INR w - INR s)); [|rewrite signal_0; ring].
  rewrite <- signal_lin. apply signal_ext. intros k Hk. destruct (HW k Hk) as [Hc Hs].
  replace (al * INR k / INR (n / 2 + 1 - 1)) with (2 * PI * (al / PI) * INR k / INR n) in Hc, Hs
    by (rewrite half_even by exact He; field; split; lra).
  split.
  - rewrite <- Hc, Rplus_0_r, <- Sum_scal. apply Sum_ext. intros q _. rewrite Er. ring.
  - rewrite <- Hs, Rplus_0_r. replace (p * - Sum (nv g / 2 + 1) (fun j0 => W (nv g / 2 + 1)%nat (n / 2 + 1)%nat k j0 * sin (al * INR j0 / INR (nv g / 2 + 1 - 1))))
      with ((- p) * Sum (nv g / 2 + 1) (fun j0 => W (nv g / 2 + 1)%nat (n / 2 + 1)%nat k j0 * sin (al * INR j0 / INR (nv g / 2 + 1 - 1)))) by ring.
    rewrite <- Sum_scal. apply Sum_ext. intros q _. rewrite Ei. ring.
Qed.

Lemma conv_point n x (k : Z) w : (0 < n)%nat -> (w < n)%nat -> conv n x (point n (IZR k)) w = shifted n x k w.
Proof.
  intros Hn Hw. transitivity (Sum 1 (fun _ => 1 * shifted n x k w)); [|cbn; ring].
  rewrite <- (conv_points n x 1 (fun _ => 1) (fun _ => k) w Hn Hw). unfold conv. apply Sum_ext. intros q _. f_equal.
  unfold point. apply signal_ext. intros r _. cbn. split; ring.
Qed.

(** even numbers of velocity bins and of pixels *)
Lemma even_bins_claim W g f n dv v0 S v w i j : (0 < n)%nat -> (exists h, n = (2 * h)%nat) -> (exists h, nv g = (2 * h)%nat) ->
  (v < nv g)%nat -> (w < n)%nat -> only_bin g f v -> exact_at W (nv g / 2 + 1) (n / 2 + 1) (PI * (INR v - INR v0)) ->
  datacube W g f n dv v0 S w i j =
  Sum (nt g) (fun t => Sum (nz g) (fun z => bin_prob g f dv t i j z v * shifted n (S t z) (Z.of_nat v - Z.of_nat v0) w)).
Proof.
  intros Hn He Hv2 Hv Hw Hf HW. assert (0 < INR (nv g)) by (apply lt_0_INR; lia). pose proof PI_RGT_0.
  rewrite (bin_claim W g f n dv v0 S v (PI * (INR v - INR v0)) w i j Hn He Hv Hf HW).
  - apply Sum_ext. intros t _. apply Sum_ext. intros z _. f_equal. rewrite <- conv_point by assumption.
    rewrite minus_IZR, <- !INR_IZR_INZ. replace (PI * (INR v - INR v0) / PI) with (INR v - INR v0) by (field; lra). reflexivity.
  - rewrite half_even by exact Hv2. lra.
  - rewrite half_even by exact Hv2. field. lra.
Qed.

(** odd numbers of velocity bins: displacements are too small by the factor (nv-1)/nv *)
Lemma odd_bins_claim W g f n dv v0 S v w i j : (0 < n)%nat -> (exists h, n = (2 * h)%nat) -> (exists h, nv g = (2 * h + 1)%nat) -> (3 <= nv g)%nat ->
  (v < nv g)%nat -> only_bin g f v -> exact_at W (nv g / 2 + 1) (n / 2 + 1) (PI * ((INR v - INR v0) * (1 - / INR (nv g)))) ->
  datacube W g f n dv v0 S w i j =
  Sum (nt g) (fun t => Sum (nz g) (fun z => bin_prob g f dv t i j z v *
    conv n (S t z) (point n ((INR v - INR v0) * (1 - / INR (nv g)))) w)).
Proof.
  intros Hn He Hv2 H3 Hv Hf HW. pose proof PI_RGT_0. assert (3 <= INR (nv g)) by (replace 3 with (INR 3) by (cbn; ring); apply le_INR; lia).
  rewrite (bin_claim W g f n dv v0 S v _ w i j Hn He Hv Hf HW).
  - apply Sum_ext. intros t _. apply Sum_ext. intros z _. f_equal. unfold Rdiv.
    replace (PI * ((INR v - INR v0) * (1 - / INR (nv g))) * / PI) with ((INR v - INR v0) * (1 - / INR (nv g))) by (field; lra). reflexivity.
  - rewrite half_odd by exact Hv2. lra.
  - rewrite half_odd by exact Hv2. field. split; lra.
Qed.

(** one template with unit flux in pixel 0, stars one bin from zero: pixel 1 gets less than all the flux *)
Lemma conv_unit n K w : (0 < n)%nat -> conv n (fun s => if Nat.eqb s 0 then 1 else 0) K w = K (INR w).
Proof.
  intros Hn. unfold conv. rewrite (Sum_single _ _ 0%nat Hn).
  - cbn [Nat.eqb INR]. rewrite Rminus_0_r. ring.
  - intros s _ Hs. destruct (Nat.eqb_spec s 0); [contradiction|ring].
Qed.
Lemma shifted_unit n : (2 <= n)%nat -> shifted n (fun s => if Nat.eqb s 0 then 1 else 0) 1 1 = 1.
Proof. intros Hn. unfold shifted. cbn [Z.of_nat]. change (Z.pos (Pos.of_succ_nat 0) - 1)%Z with 0%Z. rewrite Z.mod_0_l by lia. reflexivity. Qed.

Definition unit_template (S : spectra) : Prop := forall w, S 0%nat 0%nat w = if Nat.eqb w 0 then 1 else 0.

Lemma odd_bins_refuted_claim W g f n dv v0 S i j : (2 <= n)%nat -> (exists h, n = (2 * h)%nat) -> (exists h, nv g = (2 * h + 1)%nat) -> (3 <= nv g)%nat ->
  nt g = 1%nat -> nz g = 1%nat -> (v0 + 1 < nv g)%nat -> only_bin g f (v0 + 1) ->
  exact_at W (nv g / 2 + 1) (n / 2 + 1) (PI * (1 - / INR (nv g))) -> unit_template S -> 0 < bin_prob g f dv 0 i j 0 (v0 + 1) ->
  datacube W g f n dv v0 S 1 i j <
  Sum (nt g) (fun t => Sum (nz g) (fun z => bin_prob g f dv t i j z (v0 + 1) * shifted n (S t z) 1 1)).
Proof.
  intros Hn He Hv2 H3 Ht Hz Hv Hf HW HS Hp. assert (E1 : INR (v0 + 1) - INR v0 = 1) by (rewrite plus_INR; simpl (INR 1); ring).
  assert (3 <= INR (nv g)) by (replace 3 with (INR 3) by (cbn; ring); apply le_INR; lia).
  rewrite (odd_bins_claim W g f n dv v0 S (v0 + 1) 1 i j ltac:(lia) He Hv2 H3 Hv Hf) by (rewrite E1, Rmult_1_l; exact HW).
  rewrite Ht, Hz, E1, Rmult_1_l. cbn [Sum]. rewrite !Rplus_0_l.
  assert (C1 : conv n (S 0%nat 0%nat) (point n (1 - / INR (nv g))) 1 = point n (1 - / INR (nv g)) (INR 1)).
  { rewrite <- (conv_unit n (point n (1 - / INR (nv g))) 1) by lia. unfold conv. apply Sum_ext. intros s _. rewrite HS. reflexivity. }
  assert (C2 : shifted n (S 0%nat 0%nat) 1 1 = 1) by (rewrite <- (shifted_unit n Hn); unfold shifted; apply HS).
  rewrite C1, C2. apply Rmult_lt_compat_l; [exact Hp|]. apply point_below; [exact Hn|]. simpl (INR 1).
  replace (1 - (1 - / INR (nv g))) with (/ INR (nv g)) by ring. assert (0 < / INR (nv g)) by (apply Rinv_0_lt_compat; lra).
  rewrite Rabs_pos_eq by lra. split; [assumption|]. rewrite <- Rinv_1. apply Rinv_lt_contravar; lra.
Qed.

(** the same for the parametric datacube with an odd number of pixels *)
Lemma par_odd_refuted_claim g P mu sig n dv S i j : (exists h, n = (2 * h + 1)%nat) -> (3 <= n)%nat -> dv <> 0 ->
  nt g = 1%nat -> nz g = 1%nat -> mu 0%nat i j = dv -> sig 0%nat i j = 0 -> unit_template S -> 0 < P 0%nat i j 0%nat ->
  par_datacube g P mu sig n dv S 1 i j <
  Sum (nt g) (fun t => Sum (nz g) (fun z => P t i j z * shifted n (S t z) 1 1)).
Proof.
  intros He Hn Hdv Ht Hz Hm Hs HS Hp. assert (3 <= INR n) by (replace 3 with (INR 3) by (cbn; ring); apply le_INR; lia).
  rewrite (par_odd_claim g P mu sig n dv S 1 1 i j He Hn Hdv).
  - rewrite Ht, Hz, Rmult_1_l. cbn [Sum]. rewrite !Rplus_0_l.
    assert (C1 : conv n (S 0%nat 0%nat) (point n (INR n / (INR n - 1))) 1 = point n (INR n / (INR n - 1)) (INR 1)).
    { rewrite <- (conv_unit n (point n (INR n / (INR n - 1))) 1) by lia. unfold conv. apply Sum_ext. intros s _. rewrite HS. reflexivity. }
    assert (C2 : shifted n (S 0%nat 0%nat) 1 1 = 1) by (rewrite <- (shifted_unit n ltac:(lia)); unfold shifted; apply HS).
    rewrite C1, C2. apply Rmult_lt_compat_l; [exact Hp|]. apply point_below; [lia|]. simpl (INR 1).
    replace (1 - INR n / (INR n - 1)) with (- / (INR n - 1)) by (field; lra). assert (0 < / (INR n - 1)) by (apply Rinv_0_lt_compat; lra).
    rewrite Rabs_Ropp, Rabs_pos_eq by lra. split; [assumption|]. rewrite <- Rinv_1. apply Rinv_lt_contravar; lra.
  - intros t H0. rewrite Ht in H0. assert (t = 0%nat) by lia. subst t. split; [rewrite Hm; ring|exact Hs].
Qed.

(** odd symmetric velocity grids are accepted *)
Lemma symmetric_odd_ok nv E dv h : nv = (2 * h + 1)%nat -> 1 / 100000000 < dv ->
  (forall v, (v <= nv)%nat -> E v = (INR v - INR h - / 2) * dv) -> velocity_ok nv E dv h.
Proof.
  intros Hh Hdv HE.
  assert (Em : forall v, (v < nv)%nat -> mid E v = (INR v - INR h) * dv).
  { intros v Hv. unfold mid. rewrite (HE v), (HE (Datatypes.S v)) by lia. rewrite S_INR. field. }
  constructor.
  - intros v Hv. unfold wid, close. rewrite (HE v), (HE (Datatypes.S v)) by lia. rewrite S_INR.
    replace ((INR v + 1 - INR h - / 2) * dv - (INR v - INR h - / 2) * dv - dv) with 0 by ring. rewrite Rabs_R0.
    pose proof (Rabs_pos dv). lra.
  - intros v Hv. rewrite !Em by lia. rewrite S_INR. nra.
  - lia.
  - unfold close. rewrite Em by lia. replace ((INR h - INR h) * dv) with 0 by ring. rewrite Rminus_0_r, Rabs_R0. lra.
  - intros v Hv Hc. unfold close in Hc. rewrite Em in Hc by lia. rewrite Rminus_0_r, Rabs_R0 in Hc.
    assert (INR v + 1 <= INR h) by (rewrite <- S_INR; apply le_INR; lia).
    rewrite Rabs_left in Hc by nra. nra.
  - replace (nv mod 2)%nat with 1%nat; [cbn [Nat.eqb]; lia|]. subst nv. replace (2 * h + 1)%nat with (1 + h * 2)%nat by lia.
    rewrite Nat.mod_add by lia. reflexivity.
Qed.
