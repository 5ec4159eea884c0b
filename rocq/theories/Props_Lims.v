(** * Props_Lims: claim C109, limits of any number of values. *)
From Coq Require Import Reals Lra Lia List Bool Arith ZArith String Ascii.
From Verif Require Import Num NumLemmas Arr PyStr Cube Base Parametric GrowingDisk Stream Life Spec Repr ParSpec ParRepr
  ParSetSpec Build CubeGeom ParSetLemmas ParEnrich DiskLemmas StreamLemmas ParBuild ParClaims ParExample LifeExample
  Lims LimsSpec LimsClaims.
Import ListNotations.
Local Open Scope R_scope.

(** ** limits of two values do what the pairs of the other claims do *)
Theorem C109_disk_pairs : forall L self,
  (forall c, v_disk_step L self (v_of c) = disk_step L self c) /\ (forall h, v_disk_after L self (map v_of h) = disk_after L self h).
Proof. exact (fun L self => conj (disk_pairs_step L self) (disk_pairs_after L self)). Qed.
Print Assumptions C109_disk_pairs.
Theorem C109_stream_pairs : forall L w p, same_stream w p ->
  (forall c, same_stream (fst (v_stream_step L w (w_of c))) (fst (stream_step L p c)) /\
     snd (v_stream_step L w (w_of c)) = snd (stream_step L p c)) /\
  (forall h, same_stream (v_stream_after L w (map w_of h)) (stream_after L p h)).
Proof. exact (fun L w p H => conj (fun c => stream_pairs_step L w p c H) (fun h => stream_pairs_after L h w p H)). Qed.
Print Assumptions C109_stream_pairs.

(** ** a setter of a disk given anything but pairs raises and changes nothing *)
Theorem C109_disk_other : forall L self g s e, cube_on (pa_cube self) g -> t_pars_on self s e ->
  forall c, ~ disk_pairs c ->
  (disk_checks c -> v_disk_step L self c = (self, Err TypeError)) /\
  (~ disk_checks c -> v_disk_step L self c = (self, Err AssertionError)).
Proof. exact disk_other_step. Qed.
Print Assumptions C109_disk_other.
(** the star formation history of a disk or stream *)
Theorem C109_quantiles_other : forall L self lmd phi se, ~ two se ->
  v_p_t L self lmd phi se =
    Err (if Rle_dec (lmd * phi) 1 then (if Rle_dec (lmd * (1 - phi)) 1 then ValueError else unpack_error se) else unpack_error se).
Proof. exact p_t_other. Qed.
Print Assumptions C109_quantiles_other.

(** ** a track of a stream: angles out of range are refused before anything is kept;
    limits which are not two raise after theta_lims has been kept *)
Theorem C109_stream_track : forall L w th r sig n,
  (entries th = [] -> v_stream_step L w (WPxt th r sig n) = (w, Err ValueError)) /\
  (entries th <> [] -> ~ each (fun x => - PI <= x <= PI) th -> v_stream_step L w (WPxt th r sig n) = (w, Err AssertionError)) /\
  (entries th <> [] -> each (fun x => - PI <= x <= PI) th ->
     (~ two th -> v_stream_step L w (WPxt th r sig n) = ((fst w, Some th), Err (unpack_error th))) /\
     (two th -> ~ two r -> v_stream_step L w (WPxt th r sig n) = ((fst w, Some th), Err (unpack_error r)))).
Proof. exact stream_track_claim. Qed.
Print Assumptions C109_stream_track.
(** a call that raises never changes the component, and only set_p_x_t the kept angles *)
Theorem C109_stream_raised : forall L w c e, snd (v_stream_step L w c) = Err e ->
  fst (fst (v_stream_step L w c)) = fst w /\
  (snd (fst (v_stream_step L w c)) = snd w \/ exists th r sig n, c = WPxt th r sig n /\ snd (fst (v_stream_step L w c)) = Some th).
Proof. exact raised_keeps. Qed.
Print Assumptions C109_stream_raised.

(** ** velocities of a stream after such a call: with at least two angles kept, the
    first two give the direction and the extremes the range *)
Theorem C109_stream_velocities : forall L w a b l v lo hi,
  snd w = Some (Several (a :: b :: l)) -> least lo (a :: b :: l) -> greatest hi (a :: b :: l) ->
  let p := put_theta_lims (fst w) (if Rlt_dec a b then (lo, hi) else (hi, lo)) in
  but_theta (fst (fst (v_stream_step L w (WMu (of_pair v))))) = but_theta (fst (stream_step L p (SMu v))) /\
  snd (fst (v_stream_step L w (WMu (of_pair v)))) = snd w /\
  snd (v_stream_step L w (WMu (of_pair v))) = snd (stream_step L p (SMu v)).
Proof. exact stream_mu_values. Qed.
Print Assumptions C109_stream_velocities.
Theorem C109_stream_velocity_errors : forall L w g X Y, xy_on (fst w) g X Y -> forall v,
  (snd w = None -> v_stream_step L w (WMu v) = (w, Err AttributeError)) /\
  (forall x, snd w = Some (Single x) -> v_stream_step L w (WMu v) = (w, Err TypeError)) /\
  (forall x, snd w = Some (Several [x]) -> v_stream_step L w (WMu v) = (w, Err IndexError)) /\
  (forall a b l, snd w = Some (Several (a :: b :: l)) -> ~ two v -> v_stream_step L w (WMu v) = (w, Err (unpack_error v))).
Proof. exact stream_mu_errors. Qed.
Print Assumptions C109_stream_velocity_errors.

(** so a call that raises can spoil a later one: a valid track, a single angle by
    mistake, and set_mu_v with valid limits raises *)
Definition ex_track : v_stream_call := WPxt (of_pair (0, PI / 2)) (of_pair (1, 2)) (1 / 10) 3.
Definition ex_single : v_stream_call := WPxt (Single 1) (of_pair (1, 2)) (1 / 10) 3.
Definition ex_speed : v_stream_call := WMu (of_pair (10, 20)).
Lemma ex_spoiled : let w := v_stream_after exL (expar0, None) [ex_track] in
  v_stream_step exL w ex_single = ((fst w, Some (Single 1)), Err TypeError) /\
  snd (v_stream_step exL (fst w, Some (Single 1)) ex_speed) = Err TypeError /\ snd (v_stream_step exL w ex_speed) = Ok tt.
Proof.
  pose proof PI_RGT_0 as HP. pose proof PI_4. pose proof PI2_1 as H1.
  assert (A : angles_ok (0, PI / 2)) by (unfold angles_ok; cbn; lra).
  set (w := v_stream_after exL (expar0, None) [ex_track]). cbv zeta.
  destruct (track_kept exL (expar0, None) (0, PI / 2) (of_pair (1, 2)) (1 / 10) 3 A) as (K1 & K2 & K3 & K4).
  change (v_stream_step exL (expar0, None) (WPxt (of_pair (0, PI / 2)) (of_pair (1, 2)) (1 / 10) 3)) with (v_stream_step exL (expar0, None) ex_track) in *.
  change (fst (v_stream_step exL (expar0, None) ex_track)) with w in *. cbn [fst] in K2, K3, K4.
  destruct expar0_ok as (X & Y & _ & Ec & [HX HY] & _).
  assert (Hxy : xy_on (fst w) exg X Y) by (split; [rewrite K2; exact HX|rewrite K3; exact HY]).
  assert (Hc : cube_on (pa_cube (fst w)) exg) by (rewrite K4, Ec; exact excube_on).
  split; [|split].
  - apply (proj2 (proj2 (C109_stream_track exL w (Single 1) (of_pair (1, 2)) (1 / 10) 3))).
    + discriminate.
    + intros x [<-|[]]. lra.
    + intros [p E]. discriminate.
  - unfold ex_speed. rewrite (proj1 (proj2 (C109_stream_velocity_errors exL (fst w, Some (Single 1)) exg X Y Hxy (of_pair (10, 20)))) 1 eq_refl). reflexivity.
  - assert (S : least 0 [0; PI / 2] /\ greatest (PI / 2) [0; PI / 2]).
    { split; (split; [cbn; tauto|]); intros y [<-|[<-|[]]]; lra. }
    unfold ex_speed. destruct (C109_stream_velocities exL w 0 (PI / 2) [] (10, 20) 0 (PI / 2) K1 (proj1 S) (proj2 S)) as (_ & _ & ->).
    destruct (Rlt_dec 0 (PI / 2)) as [_|N]; [|lra]. cbn [stream_step].
    destruct (stream_mu_v_ok (put_theta_lims (fst w) (0, PI / 2)) exg X Y Hc Hxy (0, PI / 2) ltac:(cbn; lra) (10, 20) eq_refl) as (a & -> & _).
    reflexivity.
Qed.
Theorem C109_harmless_error_refuted : ~ forall L w c c' e, snd (v_stream_step L w c) = Err e ->
  snd (v_stream_step L (fst (v_stream_step L w c)) c') = snd (v_stream_step L w c').
Proof.
  intros H. destruct ex_spoiled as (E1 & E2 & E3). cbv zeta in *.
  specialize (H exL _ ex_single ex_speed TypeError (f_equal snd E1)). rewrite E1 in H. cbn [fst] in H. rewrite E2, E3 in H. discriminate.
Qed.
Print Assumptions C109_harmless_error_refuted.

(** ** cases *)
Example C109_disk_case :
  v_disk_step exL expar (VMu (Several [1; 1]) (Several [1 / 2]) (Several [100; 100])) = (expar, Err TypeError) /\
  v_disk_step exL expar (VMu (Several [1; 1; -1]) (Single 1) (Several [100; 100])) = (expar, Err AssertionError) /\
  v_disk_step exL expar (VPxt (Several []) (Several [1; 1]) (Single 1)) = (expar, Err TypeError) /\
  v_disk_step exL expar (VPt 3 (2 / 3) (Several [0; 1 / 2; 1])) = (expar, Err ValueError) /\
  v_disk_step exL expar (VPt 3 (2 / 3) (Single 1)) = (expar, Err TypeError).
Proof.
  destruct expar_ok as (X & Y & s & e & _ & _ & _ & _ & _ & _ & _ & _ & Ht & _).
  assert (N : forall l, List.length (entries l) <> 2%nat -> ~ two l) by (intros l Hl [p ->]; apply Hl; reflexivity).
  assert (O : forall x y : R, 0 < x -> 0 < y -> each (Rlt 0) (Several [x; y]) /\ each (Rle 0) (Several [x; y])).
  { intros x y Hx Hy. split; intros u [<-|[<-|[]]]; lra. }
  split; [|split; [|split; [|split]]].
  - apply (C109_disk_other exL expar exg s e expar_cube Ht).
    + intros (_ & K & _). apply (N (Several [1 / 2]) ltac:(cbn; discriminate) K).
    + split; [apply O; lra|left; apply O; lra].
  - apply (C109_disk_other exL expar exg s e expar_cube Ht).
    + intros (K & _). apply (N (Several [1; 1; -1]) ltac:(cbn; discriminate) K).
    + intros [K _]. pose proof (K (-1) ltac:(cbn; tauto)). lra.
  - apply (C109_disk_other exL expar exg s e expar_cube Ht).
    + intros (K & _). apply (N (Several []) ltac:(cbn; discriminate) K).
    + split; [intros x []|]. split; [apply O; lra|]. intros x [<-|[]]. lra.
  - unfold v_disk_step. rewrite (C109_quantiles_other exL expar 3 (2 / 3) (Several [0; 1 / 2; 1])) by (apply N; cbn; discriminate).
    destruct (Rle_dec (3 * (2 / 3)) 1); [lra|]. reflexivity.
  - unfold v_disk_step. rewrite (C109_quantiles_other exL expar 3 (2 / 3) (Single 1)) by (apply N; cbn; discriminate).
    destruct (Rle_dec (3 * (2 / 3)) 1); [lra|]. reflexivity.
Qed.
(** three angles: the track is refused, but the velocities then run over all three *)
Example C109_stream_case :
  let w := v_stream_after exL (expar0, None) [ex_track] in
  let w' := fst (v_stream_step exL w (WPxt (Several [1; 0; 3]) (of_pair (1, 2)) (1 / 10) 3)) in
  same_stream (v_stream_after exL (expar0, None) [ex_track]) (stream_after exL expar0 [SPxt (0, PI / 2) (1, 2) (1 / 10) 3]) /\
  w' = (fst w, Some (Several [1; 0; 3])) /\
  snd (v_stream_step exL w' ex_speed) = snd (stream_step exL (put_theta_lims (fst w) (3, 0)) (SMu (10, 20))).
Proof.
  cbv zeta. pose proof PI_RGT_0. pose proof PI2_3_2. set (w := v_stream_after exL (expar0, None) [ex_track]).
  split. { apply (C109_stream_pairs exL (expar0, None) expar0 (conj eq_refl eq_refl)) with (h := [SPxt (0, PI / 2) (1, 2) (1 / 10) 3]). }
  assert (E : v_stream_step exL w (WPxt (Several [1; 0; 3]) (of_pair (1, 2)) (1 / 10) 3) = ((fst w, Some (Several [1; 0; 3])), Err ValueError)).
  { destruct (C109_stream_track exL w (Several [1; 0; 3]) (of_pair (1, 2)) (1 / 10) 3) as (_ & _ & T).
    destruct T as [T _]; [discriminate|intros x [<-|[<-|[<-|[]]]]; lra|]. apply T. intros [p Ep]; discriminate. }
  rewrite E. cbn [fst]. split; [reflexivity|].
  destruct (C109_stream_velocities exL (fst w, Some (Several [1; 0; 3])) 1 0 [3] (10, 20) 0 3 eq_refl) as (_ & _ & R).
  - split; [cbn; tauto|]. intros y [<-|[<-|[<-|[]]]]; lra.
  - split; [cbn; tauto|]. intros y [<-|[<-|[<-|[]]]]; lra.
  - destruct (Rlt_dec 1 0); [lra|]. exact R.
Qed.
