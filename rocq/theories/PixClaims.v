(** * PixClaims: lemmas for Props_Pix. *)
From Coq Require Import Reals Lra Lia List Bool Arith ZArith.
From Verif Require Import Num NumLemmas Arr PyStr Cube Datacube Fft  ReadMiles MilesLemmas2 Ssps SspFlow FluxUnits PixSpec.
Import ListNotations.
Local Open Scope R_scope.

Lemma fold_min l : forall x, least (x :: l) (fold_left Rmin l x).
Proof.
  induction l as [|y l IH]; intros x; cbn [fold_left].
  - split; [left; reflexivity|]. intros b [<-|[]]. lra.
  - destruct (IH (Rmin x y)) as [I L]. split.
    + destruct I as [<-|I]; [|right; right; exact I]. unfold Rmin. destruct (Rle_dec x y); [left|right; left]; reflexivity.
    + pose proof (L _ (or_introl eq_refl)). pose proof (Rmin_l x y). pose proof (Rmin_r x y).
      intros b [<-|[<-|Hb]]; [lra|lra|]. apply L. right. exact Hb.
Qed.
Lemma fold_max l : forall x, greatest (x :: l) (fold_left Rmax l x).
Proof.
  induction l as [|y l IH]; intros x; cbn [fold_left].
  - split; [left; reflexivity|]. intros b [<-|[]]. lra.
  - destruct (IH (Rmax x y)) as [I L]. split.
    + destruct I as [<-|I]; [|right; right; exact I]. unfold Rmax. destruct (Rle_dec x y); [right; left|left]; reflexivity.
    + pose proof (L _ (or_introl eq_refl)). pose proof (Rmax_l x y). pose proof (Rmax_r x y).
      intros b [<-|[<-|Hb]]; [lra|lra|]. apply L. right. exact Hb.
Qed.
Lemma np_min_least l a : np_min l = Ok a -> least l a.
Proof. destruct l as [|x l]; [discriminate|]. intros [= <-]. apply fold_min. Qed.
Lemma np_max_greatest l a : np_max l = Ok a -> greatest l a.
Proof. destruct l as [|x l]; [discriminate|]. intros [= <-]. apply fold_max. Qed.

Lemma ln_le_inv a b : 0 < a -> 0 < b -> ln a <= ln b -> a <= b.
Proof.
  intros Ha Hb H. destruct (Rle_or_lt a b) as [|C]; [assumption|]. pose proof (ln_increasing b a Hb C). lra.
Qed.
Lemma least_ln l a : (forall w, In w l -> 0 < w) -> least (map ln l) a -> exists lo, least l lo /\ a = ln lo.
Proof.
  intros Hp [I L]. apply in_map_iff in I as (lo & <- & I). exists lo. split; [|reflexivity]. split; [exact I|].
  intros b Hb. apply ln_le_inv; [apply Hp, I|apply Hp, Hb|]. apply L, in_map, Hb.
Qed.
Lemma greatest_ln l a : (forall w, In w l -> 0 < w) -> greatest (map ln l) a -> exists hi, greatest l hi /\ a = ln hi.
Proof.
  intros Hp [I L]. apply in_map_iff in I as (hi & <- & I). exists hi. split; [|reflexivity]. split; [exact I|].
  intros b Hb. apply ln_le_inv; [apply Hp, Hb|apply Hp, I|]. apply L, in_map, Hb.
Qed.

Lemma ceil_bounds x : x <= IZR (ceil x) < x + 1.
Proof. unfold ceil. rewrite minus_IZR. destruct (archimed (- x)). lra. Qed.

Lemma pixel_ln lo dv i : 0 < lo -> ln (pixel lo dv i) = ln lo + INR i * (dv / 299792).
Proof. intros H. unfold pixel. rewrite ln_mult by (try exact H; apply exp_pos). rewrite ln_exp. lra. Qed.
Lemma pixel_pos lo dv i : 0 < lo -> 0 < pixel lo dv i.
Proof. intros H. apply Rmult_lt_0_compat; [exact H|apply exp_pos]. Qed.
Lemma pixel_step lo dv i : 0 < lo -> 299792 * ln (pixel lo dv (S i) / pixel lo dv i) = dv.
Proof.
  intros H. unfold Rdiv at 1. pose proof (pixel_pos lo dv i H) as P. rewrite ln_mult by (try apply pixel_pos; try exact H; apply Rinv_0_lt_compat, P).
  rewrite ln_Rinv by exact P. rewrite !pixel_ln by exact H. rewrite S_INR. field.
Qed.

Lemma arange_nth a b h i : (i < List.length (arange a b h))%nat -> nth i (arange a b h) 0 = a + INR i * h.
Proof.
  unfold arange. rewrite map_length, seq_length. intros Hi. set (f := fun i => a + INR i * h).
  rewrite (nth_indep _ 0 (f O)) by (rewrite map_length, seq_length; exact Hi). rewrite (map_nth f), seq_nth by exact Hi. reflexivity.
Qed.

Lemma arange_bounds a b h : 0 < h -> a <= b -> let n := List.length (arange a b h) in
  (forall i, (i < n)%nat -> a + INR i * h < b) /\ b <= a + INR n * h.
Proof.
  intros Hh Hab. unfold arange. cbv zeta. rewrite map_length, seq_length. set (x := (b - a) / h).
  assert (X : x * h = b - a) by (unfold x; field; lra).
  assert (X0 : 0 <= x) by (unfold x; apply Rmult_le_pos; [lra|left; apply Rinv_0_lt_compat, Hh]).
  pose proof (ceil_bounds x) as [B1 B2].
  assert (C0 : (0 <= ceil x)%Z) by (apply le_IZR; lra).
  assert (N : INR (Z.to_nat (ceil x)) = IZR (ceil x)) by (rewrite INR_IZR_INZ, Z2Nat.id by exact C0; reflexivity).
  split.
  - intros i Hi. assert (INR i + 1 <= IZR (ceil x)) by (rewrite <- N, <- S_INR; apply le_INR; lia).
    assert (INR i * h < x * h) by (apply Rmult_lt_compat_r; lra). lra.
  - rewrite N. assert (x * h <= IZR (ceil x) * h) by (apply Rmult_le_compat_r; lra). lra.
Qed.

Lemma resample_fields spline dv mg s : resample spline dv mg = Ok s ->
  ssp_dv s = Fin dv /\ shp (Xw s) = [n_fft s; len0 (T (g_X mg))].
Proof.
  unfold resample. intros E. destruct (np_min _) as [lo|]; cbn [bind] in E; [|discriminate]. destruct (np_max _) as [hi|]; cbn [bind] in E; [|discriminate].
  destruct (Nat.ltb _ 4); [discriminate|]. destruct (Reqb _ 0); [discriminate|].
  destruct (rfft _ _) as [fx|]; cbn [bind] in E; [|discriminate]. destruct (get_light_weights mg); cbn [bind] in E; [|discriminate].
  injection E as <-. split; reflexivity.
Qed.

Lemma pixels_claim spline dv mg s nw nS : 0 < dv -> (forall w, In w (g_lmd mg) -> 0 < w) -> shp (g_X mg) = [nw; nS] ->
  resample spline dv mg = Ok s ->
  exists lo hi, least (g_lmd mg) lo /\ greatest (g_lmd mg) hi /\ ssp_dv s = Fin dv /\ shp (Xw s) = [n_fft s; nS] /\
    (forall i, 299792 * ln (pixel lo dv (S i) / pixel lo dv i) = dv) /\ pixel lo dv 0 = lo /\
    (forall i, (i < n_fft s)%nat -> pixel lo dv i < hi) /\ hi <= pixel lo dv (n_fft s) /\
    (forall i j, (i < n_fft s)%nat -> (j < nS)%nat ->
       ent (Xw s) [i; j] = spline (map ln (g_lmd mg)) (map (fun q => ent (g_X mg) [q; j]) (seq 0 nw)) (ln (pixel lo dv i))).
Proof.
  intros Hdv Hp Hs E. destruct (resample_fields _ _ _ _ E) as [F1 F2]. destruct (resample_Xw _ _ _ _ E) as (a & b & Ea & Eb & En & EX).
  apply np_min_least, (least_ln _ _ Hp) in Ea as (lo & Hlo & ->). apply np_max_greatest, (greatest_ln _ _ Hp) in Eb as (hi & Hhi & ->).
  pose proof (Hp lo (proj1 Hlo)) as Plo. pose proof (Hp hi (proj1 Hhi)) as Phi.
  assert (Hab : ln lo <= ln hi).
  { destruct (Rle_lt_or_eq_dec lo hi (proj2 Hlo hi (proj1 Hhi))) as [H| ->]; [left; apply ln_increasing; assumption|lra]. }
  assert (Hh : 0 < dv / speed_of_light) by (unfold speed_of_light; lra).
  destruct (arange_bounds (ln lo) (ln hi) _ Hh Hab) as [B1 B2]. rewrite <- En in B1, B2.
  exists lo, hi. split; [exact Hlo|]. split; [exact Hhi|]. split; [exact F1|]. split.
  { rewrite F2. unfold len0, T. rewrite Hs. reflexivity. }
  split; [intros i; apply pixel_step, Plo|]. split.
  { unfold pixel. cbn [INR]. replace (0 * dv / 299792) with 0 by lra. rewrite exp_0. lra. }
  split; [|split].
  - intros i Hi. apply ln_lt_inv; [apply pixel_pos, Plo|exact Phi|]. rewrite pixel_ln by exact Plo. exact (B1 i Hi).
  - apply ln_le_inv; [exact Phi|apply pixel_pos, Plo|]. rewrite pixel_ln by exact Plo. exact B2.
  - intros i j Hi Hj. rewrite EX. unfold len0. rewrite Hs. cbn [hd]. f_equal. rewrite pixel_ln by exact Plo. rewrite arange_nth by (rewrite <- En; exact Hi). reflexivity.
Qed.

Lemma wavelengths_claim : Z.of_nat (List.length default_lmd) = 4300%Z /\
  (forall i, (i < List.length default_lmd)%nat -> nth i default_lmd 0 = 3540.5 + INR i * 0.9) /\
  least default_lmd 3540.5 /\ greatest default_lmd 7409.6.
Proof.
  pose proof default_lmd_length as L. split; [exact L|]. split; [exact default_lmd_nth|].
  assert (V : forall w, In w default_lmd -> exists i, (i < List.length default_lmd)%nat /\ w = 3540.5 + INR i * 0.9).
  { intros w Hw. apply (In_nth _ _ 0) in Hw as (i & Hi & <-). exists i. split; [exact Hi|apply default_lmd_nth, Hi]. }
  split; split.
  - replace 3540.5 with (nth 0 default_lmd 0); [apply nth_In; lia|]. rewrite default_lmd_nth by lia. cbn [INR]. lra.
  - intros w Hw. destruct (V w Hw) as (i & _ & ->). pose proof (pos_INR i). lra.
  - assert (Hi : (Z.to_nat 4299 < List.length default_lmd)%nat) by lia.
    replace 7409.6 with (nth (Z.to_nat 4299) default_lmd 0); [apply nth_In; exact Hi|].
    rewrite default_lmd_nth by exact Hi. rewrite INR_IZR_INZ, Z2Nat.id by lia. lra.
  - intros w Hw. destruct (V w Hw) as (i & Hi & ->). assert (INR i <= 4299); [|lra].
    rewrite INR_IZR_INZ. apply IZR_le. lia.
Qed.

Lemma miles_pixels_claim spline dv mg s nw nS : 0 < dv -> g_lmd mg = default_lmd -> shp (g_X mg) = [nw; nS] ->
  resample spline dv mg = Ok s ->
  (forall i, (i < n_fft s)%nat -> 3540.5 <= 3540.5 * exp (INR i * dv / 299792) < 7409.6) /\
  7409.6 <= 3540.5 * exp (INR (n_fft s) * dv / 299792).
Proof.
  intros Hdv Hl Hs E. destruct (pixels_claim spline dv mg s nw nS Hdv) with (2 := Hs) (3 := E) as (lo & hi & [I1 L1] & [I2 L2] & _ & _ & _ & _ & B1 & B2 & _).
  { rewrite Hl. exact default_lmd_pos. }
  destruct wavelengths_claim as (_ & _ & [J1 M1] & [J2 M2]). rewrite Hl in *.
  assert (lo = 3540.5) by (apply Rle_antisym; [apply L1, J1|apply M1, I1]).
  assert (hi = 7409.6) by (apply Rle_antisym; [apply M2, I2|apply L2, J2]). subst lo hi.
  split; [|exact B2]. intros i Hi. split; [|exact (B1 i Hi)].
  assert (1 <= exp (INR i * dv / 299792)); [|lra]. rewrite <- exp_0.
  assert (0 <= INR i * dv / 299792) by (pose proof (pos_INR i); apply Rmult_le_pos; [apply Rmult_le_pos; lra|lra]).
  destruct (Rle_lt_or_eq_dec _ _ H) as [H0|H0]; [left; apply exp_increasing, H0|rewrite <- H0; lra].
Qed.
