(** * FluxResample: light weights against the log-resampled templates. *)
From Coq Require Import Reals Lra Lia List Bool Arith ZArith String Ascii Sorted.
From Verif Require Import Num NumLemmas Arr ArrLemmas Cube Base Spec SpecLemmas Repr Build Fft ReadMiles Ssps SspLemmas SspFlow CubeGeom Datacube FourierSpec FourierLemmas DatacubeSpec
  DatacubeLemmas DatacubeMain DatacubeClaims Sharing SharingLemmas.
Import ListNotations.
Local Open Scope R_scope.

(** interpolation passes through its knots *)
Definition through_knots (spline : list R -> list num -> R -> num) : Prop :=
  forall knots vals k, StronglySorted Rlt knots -> List.length vals = List.length knots -> (k < List.length knots)%nat ->
    spline knots vals (nth k knots 0) = nth k vals NaN.

(** one that does: look the point up among the knots *)
Fixpoint lookup_spline (knots : list R) (vals : list num) (w : R) : num :=
  match knots, vals with
  | k :: ks, v :: vs => if Reqb w k then v else lookup_spline ks vs w
  | _, _ => Fin 0
  end.
Lemma lookup_finite : finite_spline lookup_spline.
Proof.
  intros knots. induction knots as [|k ks IH]; intros vals w Hv; cbn [lookup_spline]; [eauto|].
  destruct vals as [|v vs]; [eauto|]. destruct (Reqb w k); [apply Hv; left; reflexivity|].
  apply IH. intros x Hx. apply Hv. right. exact Hx.
Qed.
Lemma lookup_through : through_knots lookup_spline.
Proof.
  intros knots. induction knots as [|k0 ks IH]; intros vals k Hs Hl Hk; [cbn in Hk; lia|].
  destruct vals as [|v vs]; [discriminate Hl|]. cbn [lookup_spline].
  destruct k as [|k]; cbn [nth].
  - replace (Reqb k0 k0) with true; [reflexivity|]. symmetry. apply Reqb_true. reflexivity.
  - inversion Hs; subst. cbn in Hl, Hk. assert (Hk' : (k < List.length ks)%nat) by lia.
    destruct (Reqb (nth k ks 0) k0) eqn:E.
    + apply Reqb_true in E. rewrite Forall_forall in H2. specialize (H2 _ (nth_In ks 0 Hk')). lra.
    + apply IH; [assumption|lia|assumption].
Qed.

(** two templates of different ages, equal up to their last wavelength; the
    wavelengths are spaced as the resampling will space them *)
Section Log4.
Context (dv : R) (Hdv : 0 < dv).
Let d := dv / speed_of_light.
Definition log4_flux (l z t : nat) : R := if Nat.eqb l 3 then INR t + 1 else 1.
Definition log4 : mgrid :=
  MGrid 1 [exp (0 * d); exp (1 * d); exp (2 * d); exp (3 * d)] (arr1 [Fin 0; Fin 1] NaN) (arr1 [Fin 0; Fin 1; Fin 2] NaN) (arr1 [Fin 0.5] NaN)
    (arr1 [Fin 0.5; Fin 1.5] NaN) (1, 2)%nat (index_table 1 2) 2
    (arr1 [Fin 1] NaN) (arr1 [Fin 1; Fin 1] NaN)
    (Arr [4; 2]%nat (fun idx => match idx with [l; c] => Fin (log4_flux l 0 c) | _ => NaN end)) [] [] [] [].
Definition log4_grid : grid := Grid 2 1 1 1 1 INR INR INR INR INR (fun t z => INR t + 4).
Lemma d_pos : 0 < d. Proof. unfold d, speed_of_light. lra. Qed.

Lemma log4_object : ssp_object log4 log4_grid 4 log4_flux.
Proof.
  pose proof d_pos as Hd. constructor.
  - split; try reflexivity.
    1-6: split; [reflexivity|]; intros i Hi; destruct i as [|[|[|i]]]; try (cbn in Hi; lia); cbn; unfold mid, wid; cbn; f_equal; lra.
    intros l z t Hl Hz Ht. cbn in Hz. replace z with 0%nat by lia. reflexivity.
  - cbn. lia.
  - cbn [log4 g_lmd]. repeat constructor; apply exp_increasing; lra.
  - intros w Hw. cbn in Hw. destruct Hw as [<-|[<-|[<-|[<-|[]]]]]; apply exp_pos.
  - intros t z _ _. cbn. unfold log4_flux. cbn. lra.
Qed.

Lemma ceil_3 : ceil ((3 * d - 0 * d) / d) = 3%Z.
Proof.
  pose proof d_pos. unfold ceil. replace (- ((3 * d - 0 * d) / d)) with (IZR (-3)) by (field; lra).
  replace (up (IZR (-3))) with (-2)%Z; [reflexivity|]. apply tech_up; cbn; lra.
Qed.

Lemma log4_not_proportional spline s S : through_knots spline -> resample spline dv log4 = Ok s ->
  templates s log4_grid (n_fft s) dv S -> n_fft s = 3%nat /\
  ~ exists k, forall t z, (t < 2)%nat -> (z < 1)%nat -> Sum (n_fft s) (S t z) = k * Lw log4_grid t z.
Proof.
  intros Hsp Es HT. pose proof d_pos as Hd.
  assert (E3 : n_fft s = 3%nat /\ forall w c, (w < 3)%nat -> (c < 2)%nat -> ent (Xw s) [w; c] = Fin 1).
  { unfold resample in Es. unfold np_min, np_max in Es. cbn [log4 g_lmd map bind fold_left] in Es. rewrite !ln_exp in Es. fold d in Es.
    rewrite (Rmin_left (0 * d) (1 * d)), (Rmin_left (0 * d) (2 * d)), (Rmin_left (0 * d) (3 * d)),
      (Rmax_right (0 * d) (1 * d)), (Rmax_right (1 * d) (2 * d)), (Rmax_right (2 * d) (3 * d)) in Es by lra.
    cbn [List.length Nat.ltb Nat.leb] in Es. destruct (Reqb d 0); [discriminate Es|].
    assert (Ew : arange (0 * d) (3 * d) d = [0 * d + 0 * d; 0 * d + 1 * d; 0 * d + (1 + 1) * d]).
    { unfold arange. rewrite ceil_3. reflexivity. }
    rewrite Ew in Es.
    destruct (rfft _ _) as [fx|]; cbn [bind] in Es; [|discriminate Es]. destruct (get_light_weights _) as [lw|]; cbn [bind] in Es; [|discriminate Es].
    injection Es as <-. cbn [n_fft Xw ent List.length]. split; [reflexivity|]. intros w c Hw Hc.
    assert (Hk : StronglySorted Rlt [0 * d; 1 * d; 2 * d; 3 * d]) by (repeat constructor; lra).
    transitivity (spline [0 * d; 1 * d; 2 * d; 3 * d] [Fin 1; Fin 1; Fin 1; Fin (INR c + 1)] (nth w [0 * d; 1 * d; 2 * d; 3 * d] 0)).
    - destruct w as [|[|[|w]]]; [| | |lia]; apply f_equal; cbn [nth]; lra.
    - rewrite Hsp; [|exact Hk|reflexivity|cbn; lia]. destruct w as [|[|[|w]]]; try reflexivity. lia. }
  destruct E3 as [E3 V]. split; [exact E3|]. intros (k & Hk).
  assert (A : forall t, (t < 2)%nat -> Sum (n_fft s) (S t 0%nat) = 3).
  { intros t Ht. rewrite E3. rewrite (Sum_ext 3 _ (fun _ => 1)); [cbn; lra|]. intros w Hw.
    pose proof (tp_S _ _ _ _ _ HT t 0%nat w Ht ltac:(cbn; lia) ltac:(rewrite E3; exact Hw)) as P.
    change (0 * nt log4_grid + t)%nat with t in P. rewrite (V w t Hw Ht) in P. injection P as <-. reflexivity. }
  pose proof (Hk 0%nat 0%nat ltac:(lia) ltac:(lia)) as K0. pose proof (Hk 1%nat 0%nat ltac:(lia) ltac:(lia)) as K1.
  rewrite A in K0, K1 by lia. cbn in K0, K1. lra.
Qed.
End Log4.

Lemma resampled_light_refuted dv spline : 0 < dv -> finite_spline spline -> through_knots spline ->
  exists mg g nL F s S, ssp_object mg g nL F /\ resample spline dv mg = Ok s /\ ssps_on s g /\ templates s g (n_fft s) dv S /\
    ~ exists k, forall t z, (t < nt g)%nat -> (z < nz g)%nat -> Sum (n_fft s) (S t z) = k * Lw g t z.
Proof.
  intros Hdv Hf Hk. destruct (resample_templates spline dv (log4 dv) log4_grid 4 log4_flux Hf (log4_object dv Hdv) Hdv) as (s & S & Es & Hs & HT).
  exists (log4 dv), log4_grid, 4%nat, log4_flux, s, S. split; [apply log4_object; exact Hdv|]. split; [exact Es|]. split; [exact Hs|]. split; [exact HT|].
  apply (log4_not_proportional dv Hdv spline s S Hk Es HT).
Qed.
