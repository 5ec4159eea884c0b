(** * MirrorCube: datacubes of mirror images. *)
From Coq Require Import Reals Lra Lia List Bool Arith ZArith String Ascii.
From Verif Require Import Num NumLemmas Arr ArrLemmas Cube CubeLemmas Base Spec SpecLemmas Repr Build MomSpec Fft FourierSpec Datacube DatacubeSpec DatacubeClaims
  CoarseCube MirrorSpec Mirror MirrorClaims.
Import ListNotations.
Local Open Scope R_scope.

Lemma signal_neg n (a b b' : nat -> R) r : (forall k, b' k = - b k) -> signal n a b' r = signal n a b (- r).
Proof.
  intros Hb. unfold signal. f_equal. apply Sum_ext. intros k _. rewrite Hb.
  replace (2 * PI * - r * INR k / INR n) with (- (2 * PI * r * INR k / INR n)) by (unfold Rdiv; ring).
  rewrite cos_neg, sin_neg. ring.
Qed.
Lemma angle_end v0 v : (v < 2 * v0 + 1)%nat -> INR (2 * v0 + 1 - 1 - v) - INR v0 = - (INR v - INR v0).
Proof. intros Hv. rewrite minus_INR by lia. replace (2 * v0 + 1 - 1)%nat with (2 * v0)%nat by lia. rewrite mult_INR. change (INR 2) with 2. ring. Qed.
Lemma broadening_rev W n v0 p r : let nv := (2 * v0 + 1)%nat in
  broadening W n nv v0 (fun v => p (nv - 1 - v)%nat) r = broadening W n nv v0 p (- r).
Proof.
  intros nv. assert (Re : forall j, vel_re nv v0 (fun v => p (nv - 1 - v)%nat) j = vel_re nv v0 p j).
  { intros j. unfold vel_re. rewrite (Sum_rev nv (fun v => p v * _)). apply Sum_ext. intros v Hv. f_equal. unfold nv in *. rewrite angle_end by exact Hv.
    replace (2 * PI * - (INR v - INR v0) * INR j / INR (2 * v0 + 1)) with (- (2 * PI * (INR v - INR v0) * INR j / INR (2 * v0 + 1))) by (unfold Rdiv; ring).
    symmetry. apply cos_neg. }
  assert (Im : forall j, vel_im nv v0 (fun v => p (nv - 1 - v)%nat) j = - vel_im nv v0 p j).
  { intros j. unfold vel_im. rewrite (Sum_rev nv (fun v => p v * _)). replace (- Sum nv (fun k => p (nv - 1 - k)%nat * - sin (2 * PI * (INR (nv - 1 - k) - INR v0) * INR j / INR nv)))
      with (-1 * Sum nv (fun k => p (nv - 1 - k)%nat * - sin (2 * PI * (INR (nv - 1 - k) - INR v0) * INR j / INR nv))) by ring.
    rewrite <- Sum_scal. apply Sum_ext. intros v Hv. unfold nv in *. rewrite angle_end by exact Hv.
    replace (2 * PI * - (INR v - INR v0) * INR j / INR (2 * v0 + 1)) with (- (2 * PI * (INR v - INR v0) * INR j / INR (2 * v0 + 1))) by (unfold Rdiv; ring).
    rewrite sin_neg. ring. }
  unfold broadening. etransitivity; [|apply signal_neg].
  - apply signal_ext. intros k _. split.
    + apply Sum_ext. intros j _. rewrite Re. reflexivity.
    + apply Sum_ext. intros j _. rewrite Im. reflexivity.
  - intros k. replace (- Sum (nv / 2 + 1) (fun j => W (nv / 2 + 1)%nat (n / 2 + 1)%nat k j * vel_im nv v0 p j))
      with (-1 * Sum (nv / 2 + 1) (fun j => W (nv / 2 + 1)%nat (n / 2 + 1)%nat k j * vel_im nv v0 p j)) by ring.
    rewrite <- Sum_scal. apply Sum_ext. intros j _. ring.
Qed.

Section Cube.
Context (W : nat -> nat -> nat -> nat -> R) (g : grid) (fl : flips) (ctr : coord -> R) (Hc : centred g fl ctr).
Context (c c' : component) (f f' : joint) (HI : image g fl f f').
Context (n : nat) (dv : R) (S : spectra) (v0 : nat) (He : evaluable c g f n dv S v0) (He' : evaluable c' g f' n dv S v0).
Context (Hv0 : fl_v fl = true -> nv g = (2 * v0 + 1)%nat).
Notation ex := (other_end (fl_x1 fl) (nx g)).
Notation ey := (other_end (fl_x2 fl) (ny g)).
Lemma bin_prob_image t i j z v : (t < nt g)%nat -> (i < nx g)%nat -> (j < ny g)%nat -> (z < nz g)%nat -> (v < nv g)%nat ->
  bin_prob g f' dv t i j z v = bin_prob g f dv t (ex i) (ey j) z (other_end (fl_v fl) (nv g) v).
Proof.
  intros Ht Hi Hj Hz Hv. unfold bin_prob. rewrite (image_eq g fl f f' HI) by assumption.
  pose proof (wid_end g fl ctr Hc Cx1 i Hi) as B. pose proof (wid_end g fl ctr Hc Cx2 j Hj) as D. cbn [cedge cn flipped] in *. rewrite B, D. reflexivity.
Qed.
Lemma mirror_ybar batch : is_batch batch ->
  exists y, evaluate_ybar W c' batch = Ok y /\ is_cube y n (nx g) (ny g) (fun w i j =>
    Sum (nt g) (fun t => Sum (nz g) (fun z =>
      conv n (S t z) (fun r => broadening W n (nv g) v0 (bin_prob g f dv t (ex i) (ey j) z) (sign fl Cv * r)) w))).
Proof.
  intros Hb. destruct (evaluate_claim W c' g f' n dv S v0 batch He' Hb) as (y & Ey & Hs & Hy).
  exists y. split; [exact Ey|]. split; [exact Hs|]. intros w i j Hw Hi Hj. rewrite Hy by assumption. f_equal. unfold datacube.
  apply Sum_ext. intros t Ht. apply Sum_ext. intros z Hz. unfold conv. apply Sum_ext. intros k _. f_equal.
  rewrite (broadening_within W n (nv g) v0 _ (fun v => bin_prob g f dv t (ex i) (ey j) z (other_end (fl_v fl) (nv g) v)))
    by (intros v Hv; apply bin_prob_image; assumption).
  unfold sign, flipped. destruct (fl_v fl) eqn:Ef; cbn [other_end].
  - specialize (Hv0 eq_refl). rewrite Hv0. rewrite (broadening_rev W n v0 (bin_prob g f dv t (ex i) (ey j) z)). f_equal. ring.
  - f_equal. ring.
Qed.
Lemma mirror_ybar_same batch batch' : is_batch batch -> is_batch batch' -> fl_v fl = false ->
  exists y y', evaluate_ybar W c batch = Ok y /\ evaluate_ybar W c' batch' = Ok y' /\ shp y = [n; nx g; ny g] /\ shp y' = [n; nx g; ny g] /\
    forall w i j, (w < n)%nat -> (i < nx g)%nat -> (j < ny g)%nat -> ent y' [w; i; j] = ent y [w; ex i; ey j].
Proof.
  intros Hb Hb' Ef. destruct (evaluate_claim W c g f n dv S v0 batch He Hb) as (y & Ey & Hs & Hy).
  destruct (mirror_ybar batch' Hb') as (y' & Ey' & Hs' & Hy'). exists y, y'. do 4 (split; [assumption|]). intros w i j Hw Hi Hj.
  rewrite Hy', Hy by (auto using end_lt). f_equal. unfold datacube. apply Sum_ext. intros t _. apply Sum_ext. intros z _.
  unfold conv. apply Sum_ext. intros k _. f_equal. unfold sign, flipped. rewrite Ef. f_equal. ring.
Qed.
End Cube.
