(** * ArgsModel: the components which the default arguments make (claim C106). *)
From Coq Require Import Reals Lra Lia List Bool Arith.
From Verif Require Import Num NumLemmas Arr PyStr Cube Base Parametric GrowingDisk Stream Spec Repr ParSpec ParRepr ParSetSpec ParSetLemmas ParClaims
  DiskLemmas StreamLemmas ParBuild Life LifeSpec LifeLemmas LifeClaims Args ArgsSpec ArgsClaims.
Import ListNotations.
Local Open Scope R_scope.

(** the defaults as documented: growing_disk.py lines 30, 70-78, 116-118 and 171-179,
    stream.py lines 28-30, 93, 103 and 129 *)
Definition default_disk : disk_args :=
  Disk (5 / 10, 1 / 10) (5 / 10, 1 / 10) (5 / 10, 2) (1 / 10) (15 / 10) (5 / 10) 6 (1 / 10) 13
       (5 / 10, 5 / 10) (1 / 10, 1) (50, 250) (5 / 10, 1 / 10) (15 / 10, 25 / 10) (50, 250) (10, 50) 500 10.
Definition default_track : stream_args := Strm (0, PI / 2) (7 / 10, 1 / 10) (3 / 100) 75 3 (-100, 100) 100.
Definition default_sfh (lmd phi : R) : sfh_args := Sfh lmd phi (5 / 100, 95 / 100).
(** the calls of stream i *)
Definition of_stream (i : nat) (e : event) : bool := match e with Call j _ => Nat.eqb j i | Edit _ _ => false end.

Lemma default_disk_ok : disk_ok default_disk.
Proof. constructor; cbn; unfold posl, nonnegl, one_sign, tdep_args_ok, nonnegl; cbn; try lra. Qed.
Lemma default_track_ok : stream_ok default_track.
Proof.
  pose proof PI_RGT_0. constructor; cbn; unfold angles_ok; cbn; try lra; lia.
Qed.

Section Disk.
Context (lmd phi : R) (V : valid_sfh lmd phi = true).
Let f := DPt lmd phi (5 / 100, 95 / 100).
Let cx := DPxt (5 / 10, 1 / 10) (5 / 10, 1 / 10) (5 / 10, 2).
Let cz := DTdep (1 / 10) (15 / 10) (5 / 10) 6 (1 / 10) 13.
Let cm := DMu (5 / 10, 5 / 10) (1 / 10, 1) (50, 250).
Let cs := DSig (5 / 10, 1 / 10) (15 / 10, 25 / 10) (50, 250) (10, 50) 500 10.
Definition opt_is {A} (o : option A) (a : A) : Prop := o = None \/ o = Some a.
Definition toward (k : disk_known) : Prop :=
  dk_t k = Some f /\ opt_is (dk_x k) (f, cx) /\ opt_is (dk_z k) cz /\ opt_is (dk_mu k) (f, cm) /\ opt_is (dk_sig k) (f, cs).
Lemma toward_step k c d : toward k -> In c default_setters -> disk_fill c = Ok d -> toward (disk_learn k d).
Proof.
  intros (Ht & Hx & Hz & Hm & Hs) Hc Ed.
  destruct (default_valid c Hc) as (d' & Ed' & Vd & _). rewrite Ed in Ed'. injection Ed' as <-.
  unfold disk_learn, disk_sees. rewrite Vd, Ht.
  destruct Hc as [<-|[<-|[<-|[<-|[]]]]]; cbn [disk_fill or_else] in Ed; injection Ed as <-; cbn [uses_age];
    unfold toward; cbn [dk_t dk_x dk_z dk_mu dk_sig]; repeat split; try assumption; right; reflexivity.
Qed.
Lemma toward_all h : forall k, toward k -> incl h default_setters -> toward (fold_left disk_learn (filled h) k).
Proof.
  induction h as [|c h IH]; intros k Hk Hi; [exact Hk|]. cbn [filled].
  destruct (default_valid c (Hi c (or_introl eq_refl))) as (d & Ed & _). rewrite Ed. cbn [fold_left].
  apply IH; [|intros y Hy; apply Hi; right; exact Hy]. eapply toward_step; eauto. apply Hi. left. reflexivity.
Qed.
Lemma default_history h : incl default_setters h -> incl h default_setters ->
  disk_history (filled (KPt (Some lmd) (Some phi) None :: h)) = disk_history [f; cx; cz; cm; cs].
Proof.
  assert (G : forall h, incl default_setters h -> incl h default_setters ->
    disk_history (filled (KPt (Some lmd) (Some phi) None :: h)) = DiskKnown (Some f) (Some (f, cx)) (Some cz) (Some (f, cm)) (Some (f, cs))).
  { intros h0 H1 H2. pose proof (default_done lmd phi None h0 V H1 H2) as D.
    assert (T : toward (disk_history (filled (KPt (Some lmd) (Some phi) None :: h0)))).
    { unfold disk_history. cbn [filled disk_fill pt_args bind fst snd or_else fold_left].
      apply toward_all; [|exact H2]. unfold disk_learn, disk_sees. cbn [disk_valid]. rewrite V. cbn [uses_age disk_nothing dk_t dk_x dk_z dk_mu dk_sig].
      unfold toward. cbn [dk_t dk_x dk_z dk_mu dk_sig]. repeat split; left; reflexivity. }
    destruct (disk_history _) as [t x z m s]. unfold toward in T. cbn [dk_t dk_x dk_z dk_mu dk_sig] in T.
    destruct T as (-> & Tx & Tz & Tm & Ts).
    pose proof (D Kx) as Dx. pose proof (D Kz) as Dz. pose proof (D Kmu) as Dm. pose proof (D Ksig) as Ds.
    cbn [disk_done dk_x dk_z dk_mu dk_sig] in *.
    destruct Tx as [-> | ->]; [discriminate Dx|]. destruct Tz as [-> | ->]; [discriminate Dz|].
    destruct Tm as [-> | ->]; [discriminate Dm|]. destruct Ts as [-> | ->]; [discriminate Ds|]. reflexivity. }
  intros H1 H2. rewrite (G h H1 H2). rewrite <- (G default_setters (incl_refl _) (incl_refl _)). reflexivity.
Qed.
End Disk.

Section Built.
Context (L : stats_lib) (c : cube) (g : grid) (X0 Y0 : map2d) (x0 y0 rot lmd phi : R).
Context (Hc : cube_on c g) (Hg : good_grid g) (Hxy : cube_xy c g X0 Y0) (Hf : sfh_ok L (default_sfh lmd phi)) (HN : good_norm (norm_cdf L)).
Lemma sfh_valid : valid_sfh lmd phi = true.
Proof. unfold valid_sfh. rewrite orb_true_iff, !Rltb_true. exact (so_ab _ _ Hf). Qed.

Lemma default_disk_model s0 h : par_init c (x0, y0) rot = Ok s0 -> incl default_setters h -> incl h default_setters ->
  (exists x y, (x < nx g)%nat /\ (y < ny g)%nat /\ cos rot * (X0 x y - x0) <> sin rot * (Y0 x y - y0)) ->
  exists self m, disk_kw_after L s0 (KPt (Some lmd) (Some phi) None :: h) = self /\
    build_disk L c (x0, y0) rot (default_sfh lmd phi) default_disk = Ok self /\ par_on L self g m /\ good_par g m.
Proof.
  intros E0 H1 H2 HX. destruct (disk_represents L c g X0 Y0 x0 y0 rot _ Hc Hg Hxy Hf HN default_disk default_disk_ok HX) as (self & m & E & Hon & Hm & _).
  exists self, m. split; [|split; [exact E|split; assumption]].
  assert (F : fresh s0 g) by exact (fresh_init _ _ _ _ _ _ _ Hc Hg Hxy E0).
  rewrite kw_after, (after_denote L s0 g F), (default_history lmd phi sfh_valid h H1 H2), <- (after_denote L s0 g F).
  unfold build_disk in E. rewrite E0 in E. cbn [bind] in E. unfold set_age in E.
  cbn [default_sfh default_disk sa_lmd sa_phi sa_se dx_q dx_rc dx_al dt_q dt_al dt_in dt_out dt_min dt_max dm_q dm_rmax dm_vmax ds_q ds_al ds_in ds_out ds_max ds_min] in E.
  unfold disk_after. cbn [fold_left]. unfold disk_step at 5.
  destruct (set_p_t L s0 lmd phi (5 / 100, 95 / 100)) as [p1|]; [|discriminate E]. cbn [bind finish fst] in *. unfold disk_step at 4.
  destruct (disk_set_p_x_t p1 _ _ _) as [p2|]; [|discriminate E]. cbn [bind finish fst] in *. unfold disk_step at 3.
  destruct (disk_set_t_dep L p2 _ _ _ _ _ _) as [p3|]; [|discriminate E]. cbn [bind finish fst] in *. unfold disk_step at 2.
  destruct (disk_set_mu_v p3 _ _ _) as [p4|]; [|discriminate E]. cbn [bind finish fst] in *. unfold disk_step.
  rewrite E. reflexivity.
Qed.
End Built.

Lemma said_of lists i h : (forall r v, ~ In (Edit r v) h) -> said lists i h = said lists i (filter (of_stream i) h).
Proof.
  induction h as [|[r v|j k] h IH]; intros N; [reflexivity|exfalso; eapply N; left; reflexivity|].
  cbn [said filter of_stream]. rewrite IH by (intros r v I; eapply N; right; exact I).
  destruct (Nat.eqb j i) eqn:E; [cbn [said]; rewrite E; reflexivity|reflexivity].
Qed.
Lemma unedited lists i h : (forall r v, ~ In (Edit r v) h) -> forall held, untouched lists i held h.
Proof.
  induction h as [|[r v|j k] h IH]; intros N held; [exact I|exfalso; eapply N; left; reflexivity|].
  assert (N' : forall r v, ~ In (Edit r v) h) by (intros r v Hr; eapply N; right; exact Hr).
  destruct k; cbn [untouched]; apply IH, N'.
Qed.

Section BuiltStream.
Context (L : stats_lib) (c : cube) (g : grid) (X0 Y0 : map2d) (x0 y0 rot lmd phi : R).
Context (Hc : cube_on c g) (Hg : good_grid g) (Hxy : cube_xy c g X0 Y0) (Hf : sfh_ok L (default_sfh lmd phi)) (HN : good_norm (norm_cdf L)).
Lemma default_stream_model s0 gs i h : (forall j, new_component (s0 j) (gs j)) -> par_init c (x0, y0) rot = Ok (s0 i) ->
  (forall r v, ~ In (Edit r v) h) -> filter (of_stream i) h = default_stream i lmd phi ->
  let w := world_after L (new_world default_lists s0) h in
  exists self m, look (w_list w) (w_stream w i) = self /\
    build_stream L c (x0, y0) rot (default_sfh lmd phi) default_track = Ok self /\ par_on L self g m /\ good_par g m.
Proof.
  intros N E0 He Hi. destruct (stream_represents L c g X0 Y0 x0 y0 rot _ Hc Hg Hxy Hf HN default_track default_track_ok) as (self & m & E & Hon & Hm & _).
  cbv zeta. exists self, m. split; [|split; [exact E|split; assumption]].
  rewrite (handed_over L s0 gs (fun j => new_fresh _ _ (N j)) i) by (apply unedited; exact He).
  rewrite (said_of _ _ _ He), Hi. unfold default_stream. cbn [said]. rewrite Nat.eqb_refl. cbn [stream_fill pt_args bind fst snd or_else app].
  unfold build_stream in E. rewrite E0 in E. cbn [bind] in E. unfold set_age in E.
  cbn [default_sfh default_track sa_lmd sa_phi sa_se sx_th sx_r sx_sig sx_n st_dep sm_v ss_sig] in E.
  change (default_lists theta_default) with (0, PI / 2). change (default_lists mu_r_default) with (7 / 10, 1 / 10).
  change (default_lists mu_v_default) with (-100, 100).
  unfold stream_after. cbn [fold_left]. unfold stream_step at 5.
  destruct (set_p_t L (s0 i) lmd phi (5 / 100, 95 / 100)) as [p1|]; [|discriminate E]. cbn [bind finish fst] in *. unfold stream_step at 4.
  unfold stream_step_p_x_t. unfold stream_set_p_x_t in E.
  destruct (stream_angles_ok (0, PI / 2)); [|discriminate E]. cbn [bind] in E. cbv zeta.
  destruct (stream_log_p_x_t L _ _ _ _ _) as [a1|]; [|discriminate E].
  cbn [bind finish fst] in *. unfold stream_step at 3.
  destruct (stream_set_t_dep L _ _) as [p3|]; [|discriminate E]. cbn [bind finish fst] in *. unfold stream_step at 2.
  destruct (stream_set_mu_v p3 _) as [p4|]; [|discriminate E]. cbn [bind finish fst] in *. unfold stream_step. cbn [finish fst].
  injection E as <-. reflexivity.
Qed.
End BuiltStream.
