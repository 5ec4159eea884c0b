(** * FluxClaims: the flux of a pixel and the light-weighted p(x). *)
From Coq Require Import Reals Lra Lia List Bool Arith ZArith String Ascii.
From Verif Require Import Num NumLemmas Arr ArrLemmas MomArr PyStr Cube Base Parametric Spec SpecLemmas Repr DistLemmas CubeLemmas CubeGeom Build
  Fft Ssps SspLemmas Datacube ParYbar FourierSpec FourierLemmas DatacubeSpec DatacubeLemmas VelocityLemmas DatacubeMain DatacubeClaims ParYbarSpec ParYbarLemmas
  ParSpec ParRepr ParSetLemmas ParLemmas ParDist ParEval EvalSpec ParEvalLemmas DatacubeShift Sharing SharingLemmas SharingClaims DatacubeExample.
Import ListNotations.
Local Open Scope R_scope.

(** ages before pixels *)
Lemma Sum_pixels a b c (q : nat -> nat -> nat -> R) :
  Sum a (fun i => Sum b (fun j => Sum c (fun t => q t i j))) = Sum c (fun t => Sum a (fun i => Sum b (fun j => q t i j))).
Proof.
  rewrite <- (Sum_swap a c). apply Sum_ext. intros i _. apply Sum_swap.
Qed.

Section Par.
Context (L : stats_lib) (self : par) (g : grid) (m : par_model).
Context (H : par_on L self g m) (Hg : good_grid g) (Hm : good_par g m).
Context (n : nat) (dv : R) (S : spectra) (HT : templates (c_ssps (pa_cube self)) g n dv S) (Hdv : dv <> 0).
Let y := par_datacube g (txz_mass g m) (pm_mu m) (pm_sig m) n dv S.

Lemma par_light_flux k batch : (forall t z, (t < nt g)%nat -> (z < nz g)%nat -> Sum n (S t z) = k * Lw g t z) ->
  is_batch batch -> par_lw_ok g m true false ->
  exists ya a, par_evaluate_ybar L self batch = Ok ya /\ par_get_p L self "x" false true = Ok a /\
    is_cube ya n (nx g) (ny g) y /\ shp a = [nx g; ny g] /\
    forall i j, (i < nx g)%nat -> (j < ny g)%nat -> exists p, ent a [i; j] = Fin p /\ pixel_flux n y i j = p * all_flux n (nx g) (ny g) y.
Proof.
  intros HS Hb Hl. destruct (component_datacube L self g m H Hg Hm n dv S HT batch Hdv Hb) as (ya & E & Hy).
  destruct (par_p_marg L self g m H Hg Hm just_x false true eq_refl Hl) as (a & Ea & Hs & He).
  exists ya, a. split; [exact E|]. split; [exact Ea|]. split; [exact Hy|]. split; [exact Hs|]. intros i j Hi Hj.
  specialize (He (Bin 0 0 i j 0)). eexists. split.
  { apply He. pose proof (gg_t _ Hg). pose proof (gg_v _ Hg). pose proof (gg_z _ Hg). unfold in_grid; cbn; lia. }
  set (T := total (flat g) (lit (flat g) (pjoint g m false))).
  assert (HTp : 0 < T) by (exact (Hl eq_refl)).
  assert (F : forall i j, pixel_flux n y i j = k * Sum (nt g) (fun t => Sum (nz g) (fun z => txz_mass g m t i j z * Lw g t z))).
  { intros i' j'. unfold pixel_flux, y. rewrite par_flux_claim by (apply HT). rewrite <- Sum_scal. apply Sum_ext. intros t Ht.
    rewrite <- Sum_scal. apply Sum_ext. intros z Hz. rewrite HS by assumption. ring. }
  assert (A : all_flux n (nx g) (ny g) y = k * T).
  { unfold all_flux. erewrite Sum_ext; [|intros i' _; apply Sum_ext; intros j' _; apply F].
    erewrite Sum_ext; [|intros i' _; apply Sum_scal]. rewrite Sum_scal. f_equal. rewrite Sum_pixels.
    unfold T, total, lit, pjoint. cbn [flat nt nv nx ny nz Lw Sum]. apply Sum_ext. intros t _. rewrite Rplus_0_l.
    apply Sum_ext. intros i' _. apply Sum_ext. intros j' _. apply Sum_ext. intros z _. ring. }
  rewrite A, F. unfold pent, par_prob, marg, pprob, light, pgrid. cbn [just_x has_t has_v has_x has_z over flat nt nv nx ny nz bx by_ Sum].
  fold T. unfold Rdiv at 1. rewrite Rinv_1, Rmult_1_r.
  replace (Sum (nt g) (fun t => 0 + Sum (nz g) (fun z => lit (flat g) (pjoint g m false) t 0%nat i j z / T)))
    with (Sum (nt g) (fun t => Sum (nz g) (fun z => txz_mass g m t i j z * Lw g t z)) / T).
  - field. lra.
  - unfold Rdiv. rewrite <- Sum_scal_r. apply Sum_ext. intros t _. rewrite <- Sum_scal_r, Rplus_0_l. apply Sum_ext. intros z _.
    unfold lit, pjoint. cbn [flat Lw]. ring.
Qed.
End Par.

Section Base.
Context (W : weights) (self : component) (g : grid) (f : joint) (n : nat) (dv : R) (S : spectra) (v0 : nat).
Context (HE : evaluable self g f n dv S v0) (Hv : forall v, (v < nv g)%nat -> wid (vE g) v = dv).
Context (HW : forall q, (q < nv g / 2 + 1)%nat -> W (nv g / 2 + 1)%nat (n / 2 + 1)%nat 0%nat q = if Nat.eqb 0 q then 1 else 0).
Let y := datacube W g f n dv v0 S.

(** flux by ages, metallicities and velocities *)
Lemma base_pixel i j : pixel_flux n y i j = Sum (nt g) (fun t => Sum (nv g) (fun v => Sum (nz g) (fun z => mass g f t v i j z * Sum n (S t z)))).
Proof.
  unfold pixel_flux, y. rewrite (flux_claim W g f n dv v0 S i j (tp_n _ _ _ _ _ (ev_templates _ _ _ _ _ _ _ HE)) HW).
  apply Sum_ext. intros t _. rewrite Sum_swap. apply Sum_ext. intros z _. rewrite <- Sum_scal_r. apply Sum_ext. intros v Hv'.
  unfold bin_prob, mass. rewrite Hv by assumption. ring.
Qed.
Lemma base_light_flux k batch : (forall t z, (t < nt g)%nat -> (z < nz g)%nat -> Sum n (S t z) = k * Lw g t z) ->
  is_batch batch -> 0 < total g (lit g (mass g f)) ->
  exists ya a, evaluate_ybar W self batch = Ok ya /\ get_p self "x" false true = Ok a /\
    is_cube ya n (nx g) (ny g) y /\ shp a = [nx g; ny g] /\
    forall i j, (i < nx g)%nat -> (j < ny g)%nat -> exists p, ent a [i; j] = Fin p /\ pixel_flux n y i j = p * all_flux n (nx g) (ny g) y.
Proof.
  intros HS Hb Hl. destruct (evaluate_claim W self g f n dv S v0 batch HE Hb) as (ya & E & Hy).
  destruct (light_claim self g f just_x (ev_on _ _ _ _ _ _ _ HE) (ev_grid _ _ _ _ _ _ _ HE) (ev_nonneg _ _ _ _ _ _ _ HE) eq_refl Hl)
    as (a & Ea & Hs & He & _).
  exists ya, a. split; [exact E|]. split; [exact Ea|]. split; [exact Hy|]. split; [exact Hs|]. intros i j Hi Hj.
  specialize (He (Bin 0 0 i j 0)). pose proof (ev_grid _ _ _ _ _ _ _ HE) as Hg. eexists. split.
  { apply He. pose proof (gg_t _ Hg). pose proof (gg_v _ Hg). pose proof (gg_z _ Hg). unfold in_grid; cbn; lia. }
  set (T := total g (lit g (mass g f))) in *.
  assert (F : forall i j, pixel_flux n y i j = k * marg g (lit g (mass g f)) just_x (Bin 0 0 i j 0)).
  { intros i' j'. rewrite base_pixel. unfold marg. cbn [just_x has_t has_v has_x has_z over bx by_]. rewrite <- Sum_scal.
    apply Sum_ext. intros t Ht. rewrite <- Sum_scal. apply Sum_ext. intros v Hv'. rewrite <- Sum_scal. apply Sum_ext. intros z Hz.
    rewrite HS by assumption. unfold lit. ring. }
  assert (A : all_flux n (nx g) (ny g) y = k * T).
  { unfold all_flux. erewrite Sum_ext; [|intros i' _; apply Sum_ext; intros j' _; apply F].
    erewrite Sum_ext; [|intros i' _; apply Sum_scal]. rewrite Sum_scal. f_equal.
    unfold marg. cbn [just_x has_t has_v has_x has_z over bx by_]. unfold T, total.
    rewrite Sum_pixels. apply Sum_ext. intros t _. rewrite Sum_pixels. reflexivity. }
  rewrite A, F. fold T. field. lra.
Qed.
End Base.

(** half of the stars of one template in one pixel, the others of another
    template in the next one *)
Definition two_pixels (g : grid) (v0 t1 z1 t2 z2 : nat) : joint := fun t v x y z =>
  ((if Nat.eqb v v0 then 1 else 0) * (if Nat.eqb y 0 then 1 else 0)) *
  ((if Nat.eqb x 0 then 1 else 0) * (if Nat.eqb t t1 then 1 else 0) * (if Nat.eqb z z1 then 1 else 0) +
   (if Nat.eqb x 1 then 1 else 0) * (if Nat.eqb t t2 then 1 else 0) * (if Nat.eqb z z2 then 1 else 0)) /
  (wid (tE g) t * wid (vE g) v * wid (xE g) x * wid (yE g) y * wid (zE g) z).

Lemma Sum_at m k (h : nat -> R) : (k < m)%nat -> Sum m (fun j => (if Nat.eqb j k then 1 else 0) * h j) = h k.
Proof. intros Hk. rewrite <- (Sum_delta m k h Hk). apply Sum_ext. intros j _. rewrite Nat.eqb_sym. reflexivity. Qed.

Section Two.
Context (g : grid) (v0 t1 z1 t2 z2 : nat) (Hg : good_grid g).
Context (Hv0 : (v0 < nv g)%nat) (H1 : (t1 < nt g)%nat) (H2 : (z1 < nz g)%nat) (H3 : (t2 < nt g)%nat) (H4 : (z2 < nz g)%nat).
Let f := two_pixels g v0 t1 z1 t2 z2.
Definition amount (A1 A2 : R) (i j : nat) : R :=
  (if Nat.eqb j 0 then 1 else 0) * ((if Nat.eqb i 0 then 1 else 0) * A1 + (if Nat.eqb i 1 then 1 else 0) * A2).

Lemma two_vol t v x y z : (t < nt g)%nat -> (v < nv g)%nat -> (x < nx g)%nat -> (y < ny g)%nat -> (z < nz g)%nat ->
  0 < wid (tE g) t * wid (vE g) v * wid (xE g) x * wid (yE g) y * wid (zE g) z.
Proof.
  intros. repeat apply Rmult_lt_0_compat.
  - exact (wid_pos _ _ _ (gg_tE _ Hg) H).
  - exact (wid_pos _ _ _ (gg_vE _ Hg) H0).
  - exact (wid_pos _ _ _ (gg_xE _ Hg) H5).
  - exact (wid_pos _ _ _ (gg_yE _ Hg) H6).
  - exact (wid_pos _ _ _ (gg_zE _ Hg) H7).
Qed.
Lemma two_nonneg : nonneg g f.
Proof.
  intros t v x y z Ht Hv Hx Hy Hz. unfold f, two_pixels. pose proof (two_vol t v x y z Ht Hv Hx Hy Hz).
  apply Rmult_le_pos; [|left; apply Rinv_0_lt_compat; assumption].
  repeat match goal with |- context [Nat.eqb ?a ?b] => destruct (Nat.eqb a b) end; lra.
Qed.
Lemma two_sum (Q : nat -> nat -> R) i j : (i < nx g)%nat -> (j < ny g)%nat ->
  Sum (nt g) (fun t => Sum (nv g) (fun v => Sum (nz g) (fun z => mass g f t v i j z * Q t z))) = amount (Q t1 z1) (Q t2 z2) i j.
Proof.
  intros Hi Hj.
  transitivity (Sum (nt g) (fun t => Sum (nv g) (fun v => (if Nat.eqb v v0 then 1 else 0) * (
     (if Nat.eqb j 0 then 1 else 0) * ((if Nat.eqb i 0 then 1 else 0) * (if Nat.eqb t t1 then 1 else 0) * Q t z1 +
                                       (if Nat.eqb i 1 then 1 else 0) * (if Nat.eqb t t2 then 1 else 0) * Q t z2))))).
  - apply Sum_ext. intros t Ht. apply Sum_ext. intros v Hv.
    set (V := if Nat.eqb v v0 then 1 else 0). set (J := if Nat.eqb j 0 then 1 else 0). set (I0 := if Nat.eqb i 0 then 1 else 0).
    set (I1 := if Nat.eqb i 1 then 1 else 0). set (T1 := if Nat.eqb t t1 then 1 else 0). set (T2 := if Nat.eqb t t2 then 1 else 0).
    transitivity (Sum (nz g) (fun z => (if Nat.eqb z z1 then 1 else 0) * (V * J * I0 * T1 * Q t z)) +
                  Sum (nz g) (fun z => (if Nat.eqb z z2 then 1 else 0) * (V * J * I1 * T2 * Q t z))).
    + rewrite <- Sum_plus. apply Sum_ext. intros z Hz. unfold mass, f, two_pixels. fold V J I0 I1 T1 T2.
      pose proof (two_vol t v i j z Ht Hv Hi Hj Hz). field. split; [|split; [|split; [|split]]]; intros E; rewrite E in H; lra.
    + rewrite !Sum_at by assumption. ring.
  - rewrite (Sum_ext (nt g) _ (fun t => (if Nat.eqb j 0 then 1 else 0) * ((if Nat.eqb i 0 then 1 else 0) * (if Nat.eqb t t1 then 1 else 0) * Q t z1 +
                                       (if Nat.eqb i 1 then 1 else 0) * (if Nat.eqb t t2 then 1 else 0) * Q t z2)))
      by (intros t _; exact (Sum_at (nv g) v0 (fun _ => _) Hv0)).
    rewrite Sum_scal. unfold amount. f_equal. rewrite Sum_plus.
    rewrite (Sum_ext (nt g) _ (fun t => (if Nat.eqb t t1 then 1 else 0) * ((if Nat.eqb i 0 then 1 else 0) * Q t z1))) by (intros; ring).
    rewrite (Sum_ext (nt g) (fun t => (if Nat.eqb i 1 then 1 else 0) * _ * _) (fun t => (if Nat.eqb t t2 then 1 else 0) * ((if Nat.eqb i 1 then 1 else 0) * Q t z2))) by (intros; ring).
    rewrite !Sum_at by assumption. reflexivity.
Qed.
Lemma two_all A1 A2 : (2 <= nx g)%nat -> Sum (nx g) (fun i => Sum (ny g) (fun j => amount A1 A2 i j)) = A1 + A2.
Proof.
  clear v0 t1 z1 t2 z2 Hv0 H1 H2 H3 H4 f. intros Hx. pose proof (gg_y _ Hg).
  erewrite Sum_ext; [|intros i _; unfold amount; rewrite (Sum_at (ny g) 0 (fun _ => _)) by lia; reflexivity].
  rewrite Sum_plus, (Sum_at (nx g) 0 (fun _ => A1)), (Sum_at (nx g) 1 (fun _ => A2)) by lia. reflexivity.
Qed.
End Two.

Lemma light_flux_refuted W g n dv S v0 t1 z1 t2 z2 :
  good_grid g -> (2 <= nx g)%nat -> (v0 < nv g)%nat -> (forall v, (v < nv g)%nat -> wid (vE g) v = dv) ->
  (forall q, (q < nv g / 2 + 1)%nat -> W (nv g / 2 + 1)%nat (n / 2 + 1)%nat 0%nat q = if Nat.eqb 0 q then 1 else 0) ->
  (t1 < nt g)%nat -> (z1 < nz g)%nat -> (t2 < nt g)%nat -> (z2 < nz g)%nat -> 0 < Lw g t1 z1 -> 0 < Lw g t2 z2 ->
  Sum n (S t1 z1) * Lw g t2 z2 <> Sum n (S t2 z2) * Lw g t1 z1 ->
  exists f, nonneg g f /\ forall self batch, evaluable self g f n dv S v0 -> is_batch batch ->
    exists ya a p, evaluate_ybar W self batch = Ok ya /\ get_p self "x" false true = Ok a /\
      is_cube ya n (nx g) (ny g) (datacube W g f n dv v0 S) /\ ent a [0; 0]%nat = Fin p /\
      pixel_flux n (datacube W g f n dv v0 S) 0 0 <> p * all_flux n (nx g) (ny g) (datacube W g f n dv v0 S).
Proof.
  intros Hg Hx Hv0 Hv HW A B C D P1 P2 Hne. set (f := two_pixels g v0 t1 z1 t2 z2).
  exists f. split; [apply two_nonneg; assumption|]. intros self batch HE Hb.
  pose proof (gg_y _ Hg) as Gy.
  assert (HL : forall i j, (i < nx g)%nat -> (j < ny g)%nat -> marg g (lit g (mass g f)) just_x (Bin 0 0 i j 0) = amount (Lw g t1 z1) (Lw g t2 z2) i j).
  { intros i j Hi Hj. rewrite <- (two_sum g v0 t1 z1 t2 z2 Hg Hv0 A B C D (Lw g) i j Hi Hj). reflexivity. }
  assert (HT : total g (lit g (mass g f)) = Lw g t1 z1 + Lw g t2 z2).
  { rewrite <- (two_all g Hg _ _ Hx).
    transitivity (Sum (nx g) (fun i => Sum (ny g) (fun j => marg g (lit g (mass g f)) just_x (Bin 0 0 i j 0)))).
    - unfold marg, total. cbn [just_x has_t has_v has_x has_z over bx by_]. rewrite Sum_pixels. apply Sum_ext. intros t _. rewrite Sum_pixels. reflexivity.
    - apply Sum_ext. intros i Hi. apply Sum_ext. intros j Hj. apply HL; assumption. }
  assert (HF : forall i j, (i < nx g)%nat -> (j < ny g)%nat -> pixel_flux n (datacube W g f n dv v0 S) i j = amount (Sum n (S t1 z1)) (Sum n (S t2 z2)) i j).
  { intros i j Hi Hj. rewrite (base_pixel W self g f n dv S v0 HE Hv HW).
    exact (two_sum g v0 t1 z1 t2 z2 Hg Hv0 A B C D (fun t z => Sum n (S t z)) i j Hi Hj). }
  assert (HA : all_flux n (nx g) (ny g) (datacube W g f n dv v0 S) = Sum n (S t1 z1) + Sum n (S t2 z2)).
  { unfold all_flux. rewrite <- (two_all g Hg _ _ Hx). apply Sum_ext. intros i Hi. apply Sum_ext. intros j Hj. apply HF; assumption. }
  destruct (evaluate_claim W self g f n dv S v0 batch HE Hb) as (ya & E & Hy).
  assert (Hl : 0 < total g (lit g (mass g f))) by (rewrite HT; lra).
  destruct (light_claim self g f just_x (ev_on _ _ _ _ _ _ _ HE) Hg (two_nonneg g v0 t1 z1 t2 z2 Hg) eq_refl Hl)
    as (a & Ea & Hs & He & _).
  exists ya, a. eexists. split; [exact E|]. split; [exact Ea|]. split; [exact Hy|]. split.
  { apply (He (Bin 0 0 0 0 0)). pose proof (gg_t _ Hg). pose proof (gg_v _ Hg). pose proof (gg_z _ Hg). unfold in_grid; cbn; lia. }
  rewrite HA, HF, HL, HT by lia. unfold amount. cbn [Nat.eqb]. intros Q. apply Hne.
  apply (f_equal (fun r => r * (Lw g t1 z1 + Lw g t2 z2))) in Q. field_simplify in Q; lra.
Qed.
