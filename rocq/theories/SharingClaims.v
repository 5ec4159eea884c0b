(** * SharingClaims: a cube before and after another one is built on its SSPs. *)
From Coq Require Import Reals Lra Lia List Bool Arith ZArith String Ascii Sorted Classical.
From Verif Require Import Num NumLemmas Arr ArrLemmas MomArr PyStr Cube Base Spec SpecLemmas Repr CubeLemmas BaseLemmas CondLemmas
  DistLemmas VecLemmas Fft ReadMiles Ssps SspLemmas SspFlow CubeGeom Noise Datacube FourierSpec FourierLemmas DatacubeSpec DatacubeLemmas VelocityLemmas
  DatacubeMain DatacubeClaims ParYbar ParYbarSpec ParYbarLemmas DatacubeShift Sharing SharingLemmas.
Import ListNotations.
Local Open Scope R_scope.

Lemma args_grid_good g a : good_grid g -> good_args a -> good_grid (args_grid g a).
Proof.
  intros [G1 G2 G3 G4 G5 G6 G7 G8 G9 G10 G11] (A1 & A2 & A3 & A4 & A5 & A6).
  assert (L : forall lo hi n, lo < hi -> (0 < n)%nat -> increasing n (lin lo hi n)).
  { intros lo hi n H Hn i _. assert (wid (lin lo hi n) i > 0); [|unfold wid in *; lra].
    rewrite lin_wid. apply Rdiv_lt_0_compat; [lra|apply lt_0_INR; exact Hn]. }
  constructor; cbn [args_grid cube_grid nt nv nx ny nz tE vE xE yE zE Lw]; try assumption; apply L; assumption.
Qed.

(** the velocity grid of a cube with an odd number of bins on a symmetric range *)
Lemma symmetric_args_ok a g h : a_nv a = (2 * h + 1)%nat -> fst (a_v a) = - snd (a_v a) -> 1 / 100000000 < width a ->
  velocity_ok (nv (args_grid g a)) (vE (args_grid g a)) (width a) h.
Proof.
  intros Hh Hs Hw. cbn [args_grid cube_grid nv vE]. apply symmetric_odd_ok; [exact Hh|exact Hw|]. intros v _. unfold lin. fold (width a).
  assert (E : snd (a_v a) = (INR h + / 2) * width a).
  { unfold width. rewrite Hs, Hh, plus_INR, mult_INR. simpl (INR 2). simpl (INR 1). pose proof (pos_INR h). field. lra. }
  fold (width a). change ((snd (a_v a) - fst (a_v a)) / INR (a_nv a)) with (width a). rewrite Hs, E. ring.
Qed.

(** evaluated before and after *)
Lemma before_after_claim spline mg g nL F a b h : finite_spline spline -> ssp_object mg g nL F -> good_grid g -> good_args a -> good_args b ->
  a_nv b = (2 * h + 1)%nat -> (3 <= h)%nat -> fst (a_v b) = - snd (a_v b) -> 1 / 100000000 < width b -> ~ close (width b) (width a) ->
  exists w1 w2 c1 c2, builds spline (World mg None []) [b] = Ok w1 /\ builds spline (World mg None []) [b; a] = Ok w2 /\
    the_cube w1 0 = Some c1 /\ the_cube w2 0 = Some c2 /\
    forall W logp batch f, comp_on (Component c1 logp) (args_grid g b) f -> nonneg (args_grid g b) f -> is_batch batch ->
      (exists y, evaluate_ybar W (Component c1 logp) batch = Ok y) /\ evaluate_ybar W (Component c2 logp) batch = Err ValueError.
Proof.
  intros Hsp Ho Hg Ha Hb Hh H3 Hs Hw Hcl.
  assert (L1 : Forall good_args ([] ++ [b])) by (constructor; [exact Hb|constructor]).
  assert (L2 : Forall good_args ([b] ++ [a])) by (repeat (constructor; [assumption|]); constructor).
  pose proof (symmetric_args_ok b g h Hh Hs Hw) as Hv.
  destruct (last_wins_claim spline mg g nL F [] b Hsp Ho L1) as (w1 & s1 & S1 & E1 & _ & HT1 & Hc1).
  destruct (Hc1 0%nat b eq_refl) as (c1 & Ec1 & Ecs1 & Hon1).
  destruct (last_wins_claim spline mg g nL F [b] a Hsp Ho L2) as (w2 & s2 & S2 & E2 & _ & HT2 & Hc2).
  destruct (Hc2 0%nat b eq_refl) as (c2 & Ec2 & Ecs2 & Hon2).
  exists w1, w2, c1, c2. split; [exact E1|]. split; [exact E2|]. split; [exact Ec1|]. split; [exact Ec2|].
  intros W logp batch f Hcomp Hf Hbt. split.
  - destruct (evaluate_claim W (Component c1 logp) (args_grid g b) f (n_fft s1) (width b) S1 h batch) as (y & Ey & _); [|exact Hbt|exists y; exact Ey].
    constructor; [exact Hcomp|apply args_grid_good; assumption|exact Hf| |exact Hv|cbn [args_grid cube_grid nv]; lia].
    cbn [comp_cube]. rewrite Ecs1. destruct HT1 as [T1 T2 T3 T4 T5 T6 T7]. constructor; cbn [args_grid cube_grid nt nz]; assumption.
  - apply (rejected_claim W _ (args_grid g b) f batch (width a)).
    + destruct Hcomp as [C1 C2 C3]. constructor; [exact Hon2|exact C2|exact C3].
    + cbn [comp_cube]. rewrite Ecs2. exact (tp_dv _ _ _ _ _ HT2).
    + exists h. split; [exact (vo_in _ _ _ _ Hv)|exact (vo_zero _ _ _ _ Hv)].
    + intros v0 Hv0. apply Hcl. pose proof (vo_width _ _ _ _ Hv0 h (vo_in _ _ _ _ Hv)) as H. cbn [args_grid cube_grid vE] in H.
      rewrite lin_wid in H. exact H.
Qed.

(** ** the number of pixels *)
Definition span (l : list R) : R := match np_min (map ln l), np_max (map ln l) with Ok lo, Ok hi => hi - lo | _, _ => 0 end.
Lemma resample_pixels spline dv mg s : resample spline dv mg = Ok s -> n_fft s = Z.to_nat (ceil (span (g_lmd mg) / (dv / speed_of_light))).
Proof.
  unfold resample, span. intros E. destruct (np_min _) as [lo|]; cbn [bind] in E; [|discriminate]. destruct (np_max _) as [hi|]; cbn [bind] in E; [|discriminate].
  destruct (Nat.ltb _ 4); [discriminate|]. destruct (Reqb _ 0); [discriminate|].
  destruct (rfft _ _) as [fx|]; cbn [bind] in E; [|discriminate]. destruct (get_light_weights mg); cbn [bind] in E; [|discriminate].
  injection E as <-. cbn [n_fft]. unfold arange. rewrite map_length, seq_length. reflexivity.
Qed.

Lemma more_pixels spline mg dv dv' s s' : 0 < dv' <= dv / 2 -> dv / speed_of_light <= span (g_lmd mg) ->
  resample spline dv mg = Ok s -> resample spline dv' mg = Ok s' -> (n_fft s < n_fft s')%nat.
Proof.
  intros H Hsp E E'. rewrite (resample_pixels _ _ _ _ E), (resample_pixels _ _ _ _ E'). unfold speed_of_light in *.
  set (L := span (g_lmd mg)) in *. clearbody L.
  assert (X1 : 1 <= L / (dv / 299792)).
  { apply (Rmult_le_reg_r (dv / 299792)); [lra|]. replace (L / (dv / 299792) * (dv / 299792)) with L by (field; lra). lra. }
  assert (X2 : 2 * (L / (dv / 299792)) <= L / (dv' / 299792)).
  { apply (Rmult_le_reg_r (dv' / 299792)); [lra|]. replace (L / (dv' / 299792) * (dv' / 299792)) with L by (field; lra).
    replace (2 * (L / (dv / 299792)) * (dv' / 299792)) with (L * (2 * dv' / dv)) by (field; lra).
    rewrite <- (Rmult_1_r L) at 2. apply Rmult_le_compat_l; [lra|]. apply (Rmult_le_reg_r dv); [lra|]. replace (2 * dv' / dv * dv) with (2 * dv') by (field; lra). lra. }
  set (x := L / (dv / 299792)) in *. set (y := L / (dv' / 299792)) in *. clearbody x y.
  assert (C : forall r, IZR (ceil r) >= r /\ IZR (ceil r) < r + 1).
  { intros r. unfold ceil. destruct (archimed (- r)) as [A B]. rewrite minus_IZR. lra. }
  destruct (C x), (C y).
  assert (IZR (ceil x) < IZR (ceil y)) by lra. apply lt_IZR in H4. assert (0 <= IZR (ceil x)) by lra. apply le_IZR in H5. lia.
Qed.

(** parametric: the datacube of the first cube changes size *)
Lemma parametric_claim spline mg g nL F a b P mu sig P_txz mu_v sig_v batch : finite_spline spline -> ssp_object mg g nL F -> good_grid g ->
  good_args a -> good_args b -> is_batch batch -> width a <= width b / 2 -> width b / speed_of_light <= span (g_lmd mg) ->
  arr_is P_txz [nt g; a_nx1 b; a_nx2 b; nz g] (fun idx => match idx with [t; x; y; z] => Fin (P t x y z) | _ => NaN end) ->
  arr_is mu_v [nt g; a_nx1 b; a_nx2 b] (fun idx => match idx with [t; x; y] => Fin (mu t x y) | _ => NaN end) ->
  arr_is sig_v [nt g; a_nx1 b; a_nx2 b] (fun idx => match idx with [t; x; y] => Fin (sig t x y) | _ => NaN end) ->
  exists w1 w2 c1 c2 y1 y2 n1 n2, builds spline (World mg None []) [b] = Ok w1 /\ builds spline (World mg None []) [b; a] = Ok w2 /\
    the_cube w1 0 = Some c1 /\ the_cube w2 0 = Some c2 /\
    par_evaluate c1 P_txz mu_v sig_v batch = Ok y1 /\ par_evaluate c2 P_txz mu_v sig_v batch = Ok y2 /\
    shp y1 = [n1; a_nx1 b; a_nx2 b] /\ shp y2 = [n2; a_nx1 b; a_nx2 b] /\ (n1 < n2)%nat.
Proof.
  intros Hsp Ho Hg Ha Hb Hbt Hw Hs HP Hm Hsg.
  assert (L1 : Forall good_args ([] ++ [b])) by (constructor; [exact Hb|constructor]).
  assert (L2 : Forall good_args ([b] ++ [a])) by (repeat (constructor; [assumption|]); constructor).
  destruct (shared_par_claim spline mg g nL F [] b 0%nat b P mu sig P_txz mu_v sig_v batch Hsp Ho Hg L1 eq_refl Hbt HP Hm Hsg)
    as (w1 & c1 & s1 & S1 & y1 & E1 & C1 & R1 & _ & Y1 & D1).
  destruct (shared_par_claim spline mg g nL F [b] a 0%nat b P mu sig P_txz mu_v sig_v batch Hsp Ho Hg L2 eq_refl Hbt HP Hm Hsg)
    as (w2 & c2 & s2 & S2 & y2 & E2 & C2 & R2 & _ & Y2 & D2).
  exists w1, w2, c1, c2, y1, y2, (n_fft s1), (n_fft s2). repeat (split; [assumption|]). split; [exact (proj1 D1)|]. split; [exact (proj1 D2)|].
  eapply more_pixels; [|exact Hs|exact R1|exact R2]. split; [apply width_pos; exact Ha|exact Hw].
Qed.
