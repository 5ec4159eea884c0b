(** * LimsClaims: limits of any number of values (claim C109). *)
From Coq Require Import Reals Lra Lia List Bool Arith ZArith String Ascii.
From Verif Require Import Num NumLemmas Arr ArrLemmas PyStr Cube Base Parametric GrowingDisk Stream Life Spec SpecLemmas Repr
  ParSpec ParRepr ParSetSpec CubeLemmas VecLemmas CubeGeom BaseLemmas CondLemmas ParLemmas ParSetLemmas ParEnrich DiskLemmas
  StreamLemmas Lims LimsSpec.
Import ListNotations.
Local Open Scope R_scope.

Lemma two_dec l : two l \/ (~ two l /\ star l = Err TypeError /\ unpack l = Err (unpack_error l)).
Proof.
  destruct l as [x|[|a [|b [|c l]]]]; try (right; split; [intros [p E]; discriminate|split; reflexivity]).
  left. exists (a, b). reflexivity.
Qed.
Lemma star_pair p : star (of_pair p) = Ok p. Proof. destruct p; reflexivity. Qed.
Lemma unpack_pair p : unpack (of_pair p) = Ok p. Proof. destruct p; reflexivity. Qed.
Lemma pos_pair p : all_pos_v (of_pair p) = all_pos p.
Proof. unfold all_pos_v, all_pos. cbn. rewrite andb_true_r. reflexivity. Qed.
Lemma nonneg_pair p : all_nonneg_v (of_pair p) = all_nonneg p.
Proof. unfold all_nonneg_v, all_nonneg. cbn. rewrite andb_true_r. reflexivity. Qed.
Lemma nonpos_pair p : all_nonpos_v (of_pair p) = (Rleb (fst p) 0 && Rleb (snd p) 0)%bool.
Proof. unfold all_nonpos_v. cbn. rewrite andb_true_r. reflexivity. Qed.
Lemma interp_pair self p : v_interp self (of_pair p) = interp_t3 self p.
Proof. unfold v_interp. rewrite star_pair. reflexivity. Qed.

Lemma p_t_pair L self lmd phi se : v_p_t L self lmd phi (of_pair se) = set_p_t L self lmd phi se.
Proof. unfold v_p_t. rewrite unpack_pair. cbn [bind]. unfold set_p_t. destruct (negb _) eqn:E; [reflexivity|]. rewrite ?E. reflexivity. Qed.

(** ** disks *)
Lemma disk_pairs_step L self c : v_disk_step L self (v_of c) = disk_step L self c.
Proof.
  destruct c; cbn [v_disk_step disk_step v_of]; unfold v_disk_step, disk_step; f_equal.
  - apply p_t_pair.
  - unfold v_disk_p_x_t. rewrite !pos_pair, nonneg_pair, !interp_pair, !star_pair. cbn [bind]. unfold disk_set_p_x_t.
    destruct (all_pos q_lims), (all_pos rc_lims), (all_nonneg alpha_lims); try reflexivity. cbn [py_assert bind].
    destruct (interp_t3 self q_lims); [|reflexivity]. destruct (interp_t3 self rc_lims); [|reflexivity].
    destruct (interp_t3 self alpha_lims); reflexivity.
  - unfold v_disk_mu_v. rewrite !pos_pair, nonneg_pair, nonpos_pair, !interp_pair, !star_pair. cbn [bind]. unfold disk_set_mu_v.
    fold (all_nonneg vmax_lims). destruct (all_pos q_lims), (all_nonneg vmax_lims || _)%bool; try reflexivity. cbn [py_assert bind].
    destruct (interp_t3 self q_lims); [|reflexivity]. destruct (interp_t3 self rmax_lims); [|reflexivity].
    destruct (interp_t3 self vmax_lims); reflexivity.
  - unfold v_disk_sig_v. rewrite !pos_pair, nonneg_pair, !interp_pair, !star_pair. cbn [bind]. unfold disk_set_sig_v.
    destruct (all_pos q_lims), (all_nonneg alpha_lims), (all_pos sig_v_in_lims), (all_pos sig_v_out_lims); try reflexivity.
    cbn [py_assert bind].
    destruct (interp_t3 self q_lims); [|reflexivity]. destruct (interp_t3 self alpha_lims); [|reflexivity].
    destruct (interp_t3 self sig_v_in_lims); [|reflexivity]. destruct (interp_t3 self sig_v_out_lims); reflexivity.
Qed.
Lemma disk_pairs_after L self h : v_disk_after L self (map v_of h) = disk_after L self h.
Proof.
  unfold v_disk_after, disk_after. revert self. induction h as [|c h IH]; intros self; cbn [map fold_left]; [reflexivity|].
  rewrite disk_pairs_step. apply IH.
Qed.

Lemma each_true (b : R -> bool) (P : R -> Prop) l : (forall x, b x = true <-> P x) -> (forallb b (entries l) = true <-> each P l).
Proof. intros H. rewrite forallb_forall. unfold each. split; intros K x Hx; apply H, K, Hx. Qed.
Lemma pos_each l : all_pos_v l = true <-> each (Rlt 0) l. Proof. apply each_true. intros x. apply Rltb_true. Qed.
Lemma nonneg_each l : all_nonneg_v l = true <-> each (Rle 0) l. Proof. apply each_true. intros x. apply Rleb_true. Qed.
Lemma nonpos_each l : all_nonpos_v l = true <-> each (fun x => x <= 0) l. Proof. apply each_true. intros x. apply Rleb_true. Qed.

Section Disk.
Context (L : stats_lib) (self : par) (g : grid) (s e : R).
Context (Hc : cube_on (pa_cube self) g) (Ht : t_pars_on self s e).

Lemma v_interp_cases l : (two l /\ exists a, v_interp self l = Ok a) \/ (~ two l /\ v_interp self l = Err TypeError).
Proof.
  destruct (two_dec l) as [H|(H & E & _)]; [left|right].
  - split; [exact H|]. destruct H as [p ->]. rewrite interp_pair. destruct (interp3_ok self g s e Hc Ht p) as (a & E & _). exists a; exact E.
  - split; [exact H|]. unfold v_interp. rewrite E. reflexivity.
Qed.
Ltac step l := destruct (v_interp_cases l) as [(? & ? & ->)|(? & ->)]; cbn [bind]; [|reflexivity].

Lemma disk_other_step c : ~ disk_pairs c ->
  (disk_checks c -> v_disk_step L self c = (self, Err TypeError)) /\ (~ disk_checks c -> v_disk_step L self c = (self, Err AssertionError)).
Proof.
  intros Hp. destruct c as [|q rc al| |q r v|q al vi vo hi lo]; cbn [disk_pairs disk_checks] in *; try tauto; unfold v_disk_step.
  - unfold v_disk_p_x_t. rewrite <- !pos_each, <- nonneg_each. split.
    + intros (-> & -> & ->). cbn [py_assert bind]. step q. step rc. step al. tauto.
    + intros H. destruct (all_pos_v q); [|reflexivity]. destruct (all_pos_v rc); [|reflexivity]. destruct (all_nonneg_v al); [tauto|reflexivity].
  - unfold v_disk_mu_v. rewrite <- pos_each, <- nonneg_each, <- nonpos_each, <- orb_true_iff. split.
    + intros (-> & ->). cbn [py_assert bind]. step q. step r. step v. tauto.
    + intros H. destruct (all_pos_v q); [|reflexivity]. destruct (all_nonneg_v v || all_nonpos_v v)%bool; [tauto|reflexivity].
  - unfold v_disk_sig_v. rewrite <- !pos_each, <- nonneg_each. split.
    + intros (-> & -> & -> & ->). cbn [py_assert bind]. step q. step al. step vi. step vo. tauto.
    + intros H. destruct (all_pos_v q); [|reflexivity]. destruct (all_nonneg_v al); [|reflexivity]. destruct (all_pos_v vi); [|reflexivity].
      destruct (all_pos_v vo); [tauto|reflexivity].
Qed.
End Disk.

Lemma p_t_other L self lmd phi se : ~ two se ->
  v_p_t L self lmd phi se = Err (if Rle_dec (lmd * phi) 1 then (if Rle_dec (lmd * (1 - phi)) 1 then ValueError else unpack_error se) else unpack_error se).
Proof.
  intros H. unfold v_p_t. destruct (two_dec se) as [?|(_ & _ & ->)]; [contradiction|]. cbn [bind].
  destruct (Rle_dec (lmd * phi) 1) as [H1|H1], (Rle_dec (lmd * (1 - phi)) 1) as [H2|H2].
  - rewrite !(proj2 (Rltb_false _ _)) by lra. reflexivity.
  - rewrite (proj2 (Rltb_true _ (lmd * (1 - phi)))) by lra. rewrite orb_true_r. reflexivity.
  - rewrite (proj2 (Rltb_true _ (lmd * phi))) by lra. reflexivity.
  - rewrite (proj2 (Rltb_true _ (lmd * phi))) by lra. reflexivity.
Qed.

(** ** streams *)
Lemma angles_pair th : v_angles (of_pair th) = stream_angles_ok th.
Proof. reflexivity. Qed.
Lemma stream_pairs_step L w p c : same_stream w p ->
  same_stream (fst (v_stream_step L w (w_of c))) (fst (stream_step L p c)) /\ snd (v_stream_step L w (w_of c)) = snd (stream_step L p c).
Proof.
  intros [H1 H2]. destruct w as [u th]. cbn [fst snd] in *. destruct u as [u1 u2 u3 u4 u5 u6 u7 u8 u9 u10 u11 u12], p as [p1 p2 p3 p4 p5 p6 p7 p8 p9 p10 p11 p12].
  unfold but_theta in H1. cbn in H1. injection H1 as -> -> -> -> -> -> -> -> -> -> ->. cbn [pa_theta_lims] in H2. subst th.
  destruct c as [lmd phi se|th r sig n|td|v|sg]; cbn [w_of v_stream_step stream_step].
  - rewrite p_t_pair. cbn [fst]. unfold set_p_t. cbn [pa_cube pa_xxp pa_yyp pa_zgrid pa_log_p_x_t pa_t_dep pa_log_p_z_tx pa_mu_v pa_sig_v pa_theta_lims].
    destruct (negb _); [split; [split|]; reflexivity|].
    repeat match goal with |- context [bind ?r _] => destruct r; cbn [bind]; [|split; [split|]; reflexivity] end.
    split; [split|]; reflexivity.
  - unfold v_stream_p_x_t, stream_step_p_x_t. rewrite angles_pair. destruct (stream_angles_ok th); [|split; [split|]; reflexivity].
    rewrite !unpack_pair. cbn [bind fst].
    change (stream_log_p_x_t L (Par p1 p2 p3 p4 p5 p6 p7 p8 p9 p10 p11 u12) th r sig n) with
           (stream_log_p_x_t L (put_theta_lims (Par p1 p2 p3 p4 p5 p6 p7 p8 p9 p10 p11 p12) th) th r sig n).
    destruct (stream_log_p_x_t L _ th r sig n); cbn [bind finish]; split; try split; reflexivity.
  - unfold stream_set_t_dep, set_p_z_tx. cbn [fst pa_cube pa_zgrid pa_xxp pa_yyp].
    set (tds := full _ _). change (enrichment_base L (Par p1 p2 p3 p4 p5 p6 p7 p8 p9 p10 p11 u12) tds) with
      (enrichment_base L (Par p1 p2 p3 p4 p5 p6 p7 p8 p9 p10 p11 p12) tds).
    destruct (enrichment_base L _ tds); cbn [bind]; [|split; [split|]; reflexivity].
    split; [split|]; reflexivity.
  - unfold v_stream_mu_v, stream_set_mu_v. cbn [fst snd pa_cube pa_xxp pa_yyp pa_theta_lims].
    destruct (bop narctan2 p3 p2); cbn [bind]; [|split; [split|]; reflexivity].
    destruct p12 as [[t0 t1]|]; cbn [option_map attr bind of_pair ascending unpack entries fst snd]; [|split; [split|]; reflexivity].
    unfold lmin, lmax. cbn [fold_left].
    destruct v as [v0 v1]. cbn [fst snd].
    repeat match goal with |- context [bind ?r _] => destruct r; cbn [bind]; [|split; [split|]; reflexivity] end.
    split; [split|]; reflexivity.
  - split; [split|]; reflexivity.
Qed.
Lemma stream_pairs_after L h : forall w p, same_stream w p -> same_stream (v_stream_after L w (map w_of h)) (stream_after L p h).
Proof.
  unfold v_stream_after, stream_after. induction h as [|c h IH]; intros w p H; cbn [map fold_left]; [exact H|].
  apply IH. apply (stream_pairs_step L w p c H).
Qed.

Lemma lmin_spec l : forall x, least (lmin x l) (x :: l).
Proof.
  unfold lmin. induction l as [|b l IH]; intros x; cbn [fold_left].
  - split; [left; reflexivity|]. intros y [<-|[]]. lra.
  - destruct (IH (Rmin x b)) as [I1 I2]. split.
    + destruct I1 as [I1|I1]; [|right; right; exact I1]. rewrite <- I1. unfold Rmin; destruct (Rle_dec x b); [left|right; left]; reflexivity.
    + intros y [<-|[<-|Hy]]; [| |apply I2; right; exact Hy]; eapply Rle_trans; try (apply I2; left; reflexivity); [apply Rmin_l|apply Rmin_r].
Qed.
Lemma lmax_spec l : forall x, greatest (lmax x l) (x :: l).
Proof.
  unfold lmax. induction l as [|b l IH]; intros x; cbn [fold_left].
  - split; [left; reflexivity|]. intros y [<-|[]]. lra.
  - destruct (IH (Rmax x b)) as [I1 I2]. split.
    + destruct I1 as [I1|I1]; [|right; right; exact I1]. rewrite <- I1. unfold Rmax; destruct (Rle_dec x b); [right; left|left]; reflexivity.
    + intros y [<-|[<-|Hy]]; [| |apply I2; right; exact Hy]; (eapply Rle_trans; [|apply I2; left; reflexivity]); [apply Rmax_l|apply Rmax_r].
Qed.

Lemma v_angles_ok th : entries th <> [] -> each (fun x => - PI <= x <= PI) th -> v_angles th = Ok tt.
Proof.
  intros Hn Ha. unfold v_angles, each in *. destruct (entries th) as [|x l]; [contradiction|].
  pose proof (Ha _ (proj1 (lmin_spec l x))). pose proof (Ha _ (proj1 (lmax_spec l x))).
  rewrite !(proj2 (Rleb_true _ _)) by lra. reflexivity.
Qed.
Lemma v_angles_bad th : entries th <> [] -> ~ each (fun x => - PI <= x <= PI) th -> v_angles th = Err AssertionError.
Proof.
  intros Hn Ha. unfold v_angles, each in *. destruct (entries th) as [|x l]; [contradiction|].
  destruct (Rleb (- PI) _) eqn:E1; [|reflexivity]. cbn [py_assert bind]. destruct (Rleb _ PI) eqn:E2; [|reflexivity].
  exfalso. apply Ha. apply Rleb_true in E1, E2. intros y Hy.
  pose proof (proj2 (lmin_spec l x) y Hy). pose proof (proj2 (lmax_spec l x) y Hy). lra.
Qed.

Lemma stream_track_claim L w th r sig n :
  (entries th = [] -> v_stream_step L w (WPxt th r sig n) = (w, Err ValueError)) /\
  (entries th <> [] -> ~ each (fun x => - PI <= x <= PI) th -> v_stream_step L w (WPxt th r sig n) = (w, Err AssertionError)) /\
  (entries th <> [] -> each (fun x => - PI <= x <= PI) th ->
     (~ two th -> v_stream_step L w (WPxt th r sig n) = ((fst w, Some th), Err (unpack_error th))) /\
     (two th -> ~ two r -> v_stream_step L w (WPxt th r sig n) = ((fst w, Some th), Err (unpack_error r)))).
Proof.
  cbn [v_stream_step]. unfold v_stream_p_x_t. split; [|split].
  - intros E. unfold v_angles. rewrite E. reflexivity.
  - intros H1 H2. rewrite v_angles_bad by assumption. reflexivity.
  - intros H1 H2. rewrite v_angles_ok by assumption. split.
    + intros H. destruct (two_dec th) as [?|(_ & _ & ->)]; [contradiction|]. reflexivity.
    + intros [p ->] H. rewrite unpack_pair. cbn [bind]. destruct (two_dec r) as [?|(_ & _ & ->)]; [contradiction|]. reflexivity.
Qed.

Section Mu.
Context (L : stats_lib) (w : v_stream) (g : grid) (X Y : map2d) (Hxy : xy_on (fst w) g X Y).
Lemma stream_mu_errors v :
  (snd w = None -> v_stream_step L w (WMu v) = (w, Err AttributeError)) /\
  (forall x, snd w = Some (Single x) -> v_stream_step L w (WMu v) = (w, Err TypeError)) /\
  (forall x, snd w = Some (Several [x]) -> v_stream_step L w (WMu v) = (w, Err IndexError)) /\
  (forall a b l, snd w = Some (Several (a :: b :: l)) -> ~ two v -> v_stream_step L w (WMu v) = (w, Err (unpack_error v))).
Proof.
  cbn [v_stream_step]. unfold v_stream_mu_v. destruct Hxy as [HX HY]. s_bop.
  split; [|split; [|split]].
  - intros ->. reflexivity.
  - intros x ->. reflexivity.
  - intros x ->. reflexivity.
  - intros a b l -> Hv. cbn [attr bind ascending]. destruct (two_dec v) as [?|(_ & _ & ->)]; [contradiction|]. reflexivity.
Qed.
End Mu.
Lemma stream_mu_values L w a b l v lo hi : snd w = Some (Several (a :: b :: l)) -> least lo (a :: b :: l) -> greatest hi (a :: b :: l) ->
  let p := put_theta_lims (fst w) (if Rlt_dec a b then (lo, hi) else (hi, lo)) in
  but_theta (fst (fst (v_stream_step L w (WMu (of_pair v))))) = but_theta (fst (stream_step L p (SMu v))) /\
  snd (fst (v_stream_step L w (WMu (of_pair v)))) = snd w /\
  snd (v_stream_step L w (WMu (of_pair v))) = snd (stream_step L p (SMu v)).
Proof.
  intros Ew Hlo Hhi. cbv zeta. set (q := if Rlt_dec a b then (lo, hi) else (hi, lo)).
  destruct w as [u th]. cbn [fst snd] in *. subst th.
  assert (El : lmin a (b :: l) = lo).
  { destruct (lmin_spec (b :: l) a) as [I1 I2], Hlo as [J1 J2]. apply Rle_antisym; [apply I2, J1|apply J2, I1]. }
  assert (Eh : lmax a (b :: l) = hi).
  { destruct (lmax_spec (b :: l) a) as [I1 I2], Hhi as [J1 J2]. apply Rle_antisym; [apply J2, I1|apply I2, J1]. }
  assert (Hlh : lo <= hi) by (apply (proj2 Hlo), (proj1 Hhi)).
  assert (Hab : a < b -> lo < hi).
  { intros H. pose proof (proj2 Hlo a ltac:(left; reflexivity)). pose proof (proj2 Hhi b ltac:(right; left; reflexivity)). lra. }
  assert (Q : Rltb (fst q) (snd q) = Rltb a b /\ Rmin (fst q) (snd q) = lo /\ Rmax (fst q) (snd q) = hi).
  { unfold q. destruct (Rlt_dec a b) as [H|H]; cbn [fst snd].
    - rewrite (proj2 (Rltb_true _ _) (Hab H)), (proj2 (Rltb_true _ _) H). split; [reflexivity|]. rewrite Rmin_left, Rmax_right by lra. split; reflexivity.
    - rewrite (proj2 (Rltb_false a b)), (proj2 (Rltb_false hi lo)) by lra. split; [reflexivity|]. rewrite Rmin_right, Rmax_left by lra. split; reflexivity. }
  destruct Q as (Q1 & Q2 & Q3).
  cbn [v_stream_step stream_step]. unfold v_stream_mu_v, stream_set_mu_v. cbn [fst snd].
  change (pa_yyp (put_theta_lims u q)) with (pa_yyp u). change (pa_xxp (put_theta_lims u q)) with (pa_xxp u).
  change (pa_cube (put_theta_lims u q)) with (pa_cube u). change (pa_theta_lims (put_theta_lims u q)) with (Some q).
  destruct (bop narctan2 (pa_yyp u) (pa_xxp u)); cbn [bind]; [|repeat split; reflexivity].
  cbn [attr bind ascending entries]. rewrite unpack_pair. cbn [bind fst snd]. rewrite El, Eh, Q1, Q2, Q3.
  destruct (get_variable_values (pa_cube u) "t"); cbn [bind]; [|repeat split; reflexivity].
  match goal with |- context [broadcast_to ?m ?s] => destruct (broadcast_to m s) end; cbn [bind v_finish finish fst snd]; repeat split; reflexivity.
Qed.

Lemma raised_keeps L w c e : snd (v_stream_step L w c) = Err e ->
  fst (fst (v_stream_step L w c)) = fst w /\
  (snd (fst (v_stream_step L w c)) = snd w \/ exists th r sig n, c = WPxt th r sig n /\ snd (fst (v_stream_step L w c)) = Some th).
Proof.
  assert (F : forall r, snd (v_finish w r) = Err e -> fst (fst (v_finish w r)) = fst w /\ snd (fst (v_finish w r)) = snd w).
  { intros [p|e'] H; [discriminate|]. split; reflexivity. }
  intros H. destruct c as [lmd phi se|th r sig n|td|v|sg]; cbn [v_stream_step] in *.
  - destruct (F _ H). split; [assumption|left; assumption].
  - unfold v_stream_p_x_t in *. destruct (v_angles th); [|split; [reflexivity|left; reflexivity]].
    match goal with |- context [match ?x with Ok _ => _ | Err _ => _ end] => destruct x end; [discriminate|].
    split; [reflexivity|]. right. exists th, r, sig, n. split; reflexivity.
  - destruct (F _ H). split; [assumption|left; assumption].
  - destruct (F _ H). split; [assumption|left; assumption].
  - discriminate.
Qed.
Lemma track_kept L w th r sig n : angles_ok th ->
  snd (fst (v_stream_step L w (WPxt (of_pair th) r sig n))) = Some (of_pair th) /\
  pa_xxp (fst (fst (v_stream_step L w (WPxt (of_pair th) r sig n)))) = pa_xxp (fst w) /\
  pa_yyp (fst (fst (v_stream_step L w (WPxt (of_pair th) r sig n)))) = pa_yyp (fst w) /\
  pa_cube (fst (fst (v_stream_step L w (WPxt (of_pair th) r sig n)))) = pa_cube (fst w).
Proof.
  intros H. cbn [v_stream_step]. unfold v_stream_p_x_t. rewrite angles_pair, angles_ok_true by exact H.
  match goal with |- context [match ?x with Ok _ => _ | Err _ => _ end] => destruct x end; repeat split; reflexivity.
Qed.
