(** * ArgsClaims: arguments left out and lists handed over (claim C106). *)
From Coq Require Import Reals Lra Lia List Bool Arith ZArith String Ascii.
From Verif Require Import Num NumLemmas Arr ArrLemmas PyStr Cube Base Parametric GrowingDisk Stream Spec SpecLemmas Repr
  CubeLemmas CubeGeom CondLemmas BaseLemmas DistLemmas ParSpec ParRepr ParSetLemmas ParEnrich
  Life LifeSpec LifeShape LifeLemmas LifeClaims Args ArgsSpec.
Import ListNotations.
Local Open Scope R_scope.

(** ** disks *)
Lemma default_valid :
  (forall c, In c [KPxt None None None; KTdep None None None None None None; KMu None None None; KSig None None None None None None] ->
     exists d, disk_fill c = Ok d /\ disk_valid d = true /\ disk_setter d <> Kt).
Proof.
  intros c [<-|[<-|[<-|[<-|[]]]]]; eexists; (split; [reflexivity|]); (split; [|discriminate]); cbn [disk_valid or_else];
    unfold both_pos, both_ge0, both_le0, between; cbn [fst snd];
    rewrite ?andb_true_iff, ?orb_true_iff, ?andb_true_iff, ?Rleb_true, ?Rltb_true; repeat split; try lra.
Qed.

Lemma kw_after L h : forall s, disk_kw_after L s h = disk_after L s (filled h).
Proof.
  induction h as [|k h IH]; intros s; [reflexivity|]. cbn [disk_kw_after fold_left filled]. unfold disk_kw_step at 2.
  destruct (disk_fill k) as [c|e]; apply IH.
Qed.
Lemma fill_error k e : disk_fill k = Err e -> e = TypeError /\ exists l p se, k = KPt l p se /\ (l = None \/ p = None).
Proof.
  destruct k as [[l|] [p|] se| | | |]; cbn; try discriminate; intros [= <-]; (split; [reflexivity|]); eauto 6.
Qed.

Lemma missing L s lmd phi se : lmd = None \/ phi = None -> disk_kw_step L s (KPt lmd phi se) = (s, Err TypeError).
Proof. intros [-> | ->]; [reflexivity|]. destruct lmd; reflexivity. Qed.

Lemma default_done lmd phi se h : valid_sfh lmd phi = true -> incl default_setters h -> incl h default_setters ->
  forall x, disk_done (disk_history (filled (KPt (Some lmd) (Some phi) se :: h))) x = true.
Proof.
  intros V Hin Hout.
  set (f := DPt lmd phi (or_else se (5 / 100, 95 / 100))).
  assert (E0 : disk_history (filled (KPt (Some lmd) (Some phi) se :: h)) = fold_left disk_learn (filled h) (DiskKnown (Some f) None None None None)).
  { unfold disk_history. cbn [filled disk_fill pt_args bind fst snd fold_left]. fold f. rewrite (learn_t disk_nothing f V). reflexivity. }
  rewrite E0.
  assert (G : forall h0 k, incl h0 default_setters -> dk_t k = Some f ->
     dk_t (fold_left disk_learn (filled h0) k) = Some f /\
     (forall x, x <> Kt -> (disk_done k x = true \/ exists c d, In c h0 /\ disk_fill c = Ok d /\ disk_setter d = x) ->
        disk_done (fold_left disk_learn (filled h0) k) x = true)).
  { induction h0 as [|c h0 IH]; intros k Hi Hk.
    - split; [exact Hk|]. intros x Hx [H|(c & d & [] & _)]. exact H.
    - destruct (default_valid c (Hi c (or_introl eq_refl))) as (d & Ed & Vd & Nd). cbn [filled]. rewrite Ed. cbn [fold_left].
      assert (L1 : dk_t (disk_learn k d) = Some f /\ (forall x, disk_done k x = true \/ disk_setter d = x /\ x <> Kt -> disk_done (disk_learn k d) x = true)).
      { unfold disk_learn, disk_sees. rewrite Vd, Hk. destruct d; [cbn [disk_setter] in Nd; congruence|..]; cbn [uses_age dk_t disk_setter]; (split; [try exact Hk|]).
        all: try reflexivity.
        all: intros x [H|(<- & Hn)]; try (destruct x; cbn [disk_done dk_t dk_x dk_z dk_mu dk_sig is_some] in *; solve [exact H|reflexivity]); try reflexivity; try congruence. }
      destruct L1 as (L1 & L2).
      destruct (IH (disk_learn k d)) as (I1 & I2); [intros y Hy; apply Hi; right; exact Hy|exact L1|].
      split; [exact I1|]. intros x Hx Hd. apply I2; [exact Hx|].
      destruct Hd as [H|(c' & d' & [<-|Hc] & Ed' & Sd)].
      + left. apply L2. left. exact H.
      + left. apply L2. right. split; [congruence|exact Hx].
      + right. exists c', d'. auto. }
  destruct (G h (DiskKnown (Some f) None None None None) Hout eq_refl) as (G1 & G2).
  intros x. destruct x; [cbn [disk_done]; rewrite G1; reflexivity|..]; apply G2; try discriminate; right.
  - exists (KPxt None None None); eexists. split; [apply Hin; left; reflexivity|split; reflexivity].
  - exists (KTdep None None None None None None); eexists. split; [apply Hin; right; left; reflexivity|split; reflexivity].
  - exists (KMu None None None); eexists. split; [apply Hin; right; right; left; reflexivity|split; reflexivity].
  - exists (KSig None None None None None None); eexists. split; [apply Hin; right; right; right; left; reflexivity|split; reflexivity].
Qed.
Lemma all_done_true f h : (forall x, h x = true) -> all_done f h = true.
Proof. intros H. unfold all_done. cbn [forallb]. rewrite !H. destruct (f Kt), (f Kx), (f Kz), (f Kmu), (f Ksig); reflexivity. Qed.

Section Defaults.
Context (L : stats_lib) (s0 : par) (g : grid) (F : fresh s0 g).
Lemma default_queries lmd phi se h S (d lw : bool) : valid_sfh lmd phi = true -> incl default_setters h -> incl h default_setters ->
  nonempty S = true ->
  exists a, par_get_p L (disk_kw_after L s0 (KPt (Some lmd) (Some phi) se :: h)) (name S) d lw = Ok a /\ shp a = dims S g.
Proof.
  intros V H1 H2 HS. rewrite kw_after. pose proof (proj1 (disk_marg L s0 g F (filled (KPt (Some lmd) (Some phi) se :: h)) S d lw HS)) as H.
  rewrite all_done_true in H by (apply default_done; assumption). exact H.
Qed.
End Defaults.

(** ** streams: what is remembered with lists as objects *)
Lemma s_history_app h c : stream_history (h ++ [c]) = stream_learn (stream_history h) c.
Proof. unfold stream_history. rewrite fold_left_app. reflexivity. Qed.
Section Stream.
Context (L : stats_lib) (s0 : nat -> par) (g : nat -> grid) (F : forall i, fresh (s0 i) (g i)).
Context (i : nat).
Let den := s_denote L (s0 i).

Definition aim (k : stream_known) (th : option (R * R)) : stream_known :=
  StreamKnown (sk_t k) (sk_x k) th (sk_z k) (sk_mu k) (sk_sig k).
Lemma look_aim lists k r : look lists (den k, Some r) = den (aim k (Some (lists r))).
Proof. reflexivity. Qed.
Lemma look_self lists p held k : look lists (p, held) = den k -> look lists (look lists (p, held), held) = den k.
Proof. unfold look. cbn [fst snd]. destruct held; intros <-; reflexivity. Qed.

(** the list kept has the angles in force *)
Definition kept (lists : nat -> R * R) (s : par * option nat) (k : stream_known) : Prop :=
  look lists s = den k /\ match snd s with Some r => sk_angles k = Some (lists r) | None => sk_angles k = None end.

Lemma keeps_spec lists k held : keeps lists k held =
  match k with TPxt th _ _ _ => if valid_angles (lists (or_else th theta_default)) then Some (or_else th theta_default) else held | _ => held end.
Proof. destruct k; try reflexivity. cbn [keeps]. rewrite stream_angles_done. destruct (valid_angles _); reflexivity. Qed.

Lemma kept_call w k s c : kept (w_list w) (w_stream w i) s -> stream_fill (w_list w) k = Ok c ->
  let w' := fst (world_step L w (Call i k)) in
  w_list w' = w_list w /\ kept (w_list w) (w_stream w' i) (stream_learn s c) /\
  snd (world_step L w (Call i k)) = stream_sees s c /\ snd (w_stream w' i) = keeps (w_list w) k (snd (w_stream w i)).
Proof.
  intros (Hl & Hk) Hc. cbv zeta. cbn [world_step]. rewrite Hc, Hl. unfold den. rewrite (s_step_ok L (s0 i) (g i) (F i) s c).
  cbn [fst snd w_list w_stream]. unfold put. rewrite Nat.eqb_refl. split; [reflexivity|]. split; [|split; reflexivity].
  assert (A : match keeps (w_list w) k (snd (w_stream w i)) with
              | Some r => sk_angles (stream_learn s c) = Some (w_list w r)
              | None => sk_angles (stream_learn s c) = None end).
  { rewrite keeps_spec. destruct k as [l p se|th r sg n|td|v|sg]; cbn [stream_fill] in Hc.
    - destruct l as [l|], p as [p|]; try discriminate. cbn in Hc. injection Hc as <-. cbn [stream_learn].
      destruct (valid_sfh l p); destruct (snd (w_stream w i)); exact Hk.
    - injection Hc as <-. cbn [stream_learn]. destruct (valid_angles _); [reflexivity|exact Hk].
    - injection Hc as <-. exact Hk.
    - injection Hc as <-. cbn [stream_learn]. destruct (sk_angles s) eqn:E; destruct (snd (w_stream w i)); cbn [sk_angles]; rewrite ?E; assumption.
    - injection Hc as <-. exact Hk. }
  split; [|exact A]. unfold look. cbn [fst snd]. fold den.
  destruct (keeps _ _ _) as [r|]; [|reflexivity].
  unfold den, s_denote, put_theta_lims. cbn [pa_cube pa_xxp pa_yyp pa_zgrid pa_t_pars pa_log_p_t pa_log_p_x_t pa_t_dep pa_log_p_z_tx pa_mu_v pa_sig_v].
  rewrite A. reflexivity.
Qed.
Lemma kept_other w j k s : j <> i -> kept (w_list w) (w_stream w i) s ->
  let w' := fst (world_step L w (Call j k)) in w_list w' = w_list w /\ w_stream w' i = w_stream w i.
Proof.
  intros Hj Hk. cbv zeta. cbn [world_step]. destruct (stream_fill (w_list w) k) as [c|e]; [|split; reflexivity].
  destruct (stream_step L _ c) as [p out]. cbn [fst w_list w_stream]. split; [reflexivity|]. unfold put.
  destruct (Nat.eqb_spec i j); [congruence|reflexivity].
Qed.

(** nobody edits what stream i keeps: it is as if values had been handed over *)
Lemma run_untouched h : forall w hist, kept (w_list w) (w_stream w i) (stream_history hist) ->
  untouched (w_list w) i (snd (w_stream w i)) h ->
  kept (w_list (world_after L w h)) (w_stream (world_after L w h) i) (stream_history (hist ++ said (w_list w) i h)).
Proof.
  induction h as [|e h IH]; intros w hist K U.
  - cbn [said]. rewrite app_nil_r. exact K.
  - cbn [world_after fold_left]. fold (world_after L (fst (world_step L w e)) h). destruct e as [r v|j k].
    + destruct U as (U1 & U2). cbn [world_step fst]. apply (IH (World (put (w_list w) r v) (w_stream w)) hist); [|exact U2].
      cbn [w_list w_stream]. destruct K as (K1 & K2). unfold kept, look in *. unfold put.
      destruct (snd (w_stream w i)) as [r'|] eqn:E; [|split; assumption].
      destruct (Nat.eqb_spec r' r) as [->|N]; [congruence|]. split; assumption.
    + destruct (Nat.eqb_spec j i) as [->|Hj].
      * destruct (stream_fill (w_list w) k) as [c|e] eqn:Ec.
        -- destruct (kept_call w k _ c K Ec) as (E1 & K' & _ & E2). cbv zeta in *.
           cbn [said]. rewrite Nat.eqb_refl, Ec. cbn [app].
           replace (hist ++ c :: said (w_list w) i h)%list with ((hist ++ [c]) ++ said (w_list w) i h)%list by (rewrite <- app_assoc; reflexivity).
           rewrite <- E1. apply IH.
           ++ rewrite E1. rewrite s_history_app. exact K'.
           ++ rewrite E1, E2, keeps_spec. destruct k; cbn [untouched] in U; try exact U.
              rewrite Nat.eqb_refl in U. cbn [andb] in U. exact U.
        -- assert (Ew : fst (world_step L w (Call i k)) = w) by (cbn [world_step]; rewrite Ec; reflexivity).
           rewrite Ew. cbn [said]. rewrite Nat.eqb_refl, Ec. cbn [app]. apply IH; [exact K|].
           destruct k; cbn [untouched] in U; try exact U. discriminate.
      * destruct (kept_other w j k _ Hj K) as (E1 & E2). cbv zeta in *. cbn [said].
        destruct (Nat.eqb_spec j i); [congruence|]. cbn [app]. rewrite <- E1. apply IH.
        -- rewrite E1, E2. exact K.
        -- rewrite E1, E2. destruct k; cbn [untouched] in U; try exact U.
           destruct (Nat.eqb_spec j i); [congruence|]. exact U.
Qed.

Lemma kept_edit w r v k : kept (w_list w) (w_stream w i) k ->
  kept (put (w_list w) r v) (w_stream w i)
    (match snd (w_stream w i) with Some r' => aim k (Some (put (w_list w) r v r')) | None => k end).
Proof.
  intros (K1 & K2). unfold kept, look in *. destruct (snd (w_stream w i)) as [r'|]; [|split; assumption].
  split; [|reflexivity]. unfold den, s_denote, aim in *. cbn [sk_t sk_x sk_z sk_mu sk_sig sk_angles].
  destruct (fst (w_stream w i)). unfold put_theta_lims in *. cbn in *. injection K1 as -> -> -> -> -> -> -> -> -> -> -> _. reflexivity.
Qed.
(** whatever is edited, only the angles and the mean velocities can differ *)
Definition rest_same (k k' : stream_known) : Prop :=
  sk_t k = sk_t k' /\ sk_x k = sk_x k' /\ sk_z k = sk_z k' /\ sk_sig k = sk_sig k'.
Lemma rest_learn k k' c : rest_same k k' -> rest_same (stream_learn k c) (stream_learn k' c).
Proof.
  intros (H1 & H2 & H3 & H4). destruct c as [l p se|th r sg n|td|v|sg]; cbn [stream_learn].
  - destruct (valid_sfh l p); repeat split; assumption.
  - destruct (valid_angles th); [|repeat split; assumption]. destruct n; repeat split; assumption.
  - repeat split; assumption.
  - destruct (sk_angles k), (sk_angles k'); repeat split; assumption.
  - repeat split; assumption.
Qed.
Lemma run_any h : forall w hist k, kept (w_list w) (w_stream w i) k -> rest_same k (stream_history hist) ->
  exists k', kept (w_list (world_after L w h)) (w_stream (world_after L w h) i) k' /\
    rest_same k' (stream_history (hist ++ said (w_list w) i h)).
Proof.
  induction h as [|e h IH]; intros w hist k K R.
  - exists k. cbn [said]. rewrite app_nil_r. split; assumption.
  - cbn [world_after fold_left]. fold (world_after L (fst (world_step L w e)) h). destruct e as [r v|j c0].
    + cbn [world_step fst said].
      set (k1 := match snd (w_stream w i) with Some r' => aim k (Some (put (w_list w) r v r')) | None => k end).
      apply (IH (World (put (w_list w) r v) (w_stream w)) hist k1).
      * cbn [w_list w_stream]. apply kept_edit, K.
      * unfold k1. destruct (snd (w_stream w i)); exact R.
    + destruct (Nat.eqb_spec j i) as [->|Hj].
      * destruct (stream_fill (w_list w) c0) as [c|e] eqn:Ec.
        -- destruct (kept_call w c0 _ c K Ec) as (E1 & K' & _ & E2). cbv zeta in *.
           cbn [said]. rewrite Nat.eqb_refl, Ec. cbn [app].
           replace (hist ++ c :: said (w_list w) i h)%list with ((hist ++ [c]) ++ said (w_list w) i h)%list by (rewrite <- app_assoc; reflexivity).
           rewrite <- E1. apply (IH _ _ (stream_learn k c)).
           ++ rewrite E1. exact K'.
           ++ rewrite s_history_app. apply rest_learn, R.
        -- assert (Ew : fst (world_step L w (Call i c0)) = w) by (cbn [world_step]; rewrite Ec; reflexivity).
           rewrite Ew. cbn [said]. rewrite Nat.eqb_refl, Ec. cbn [app]. apply (IH _ _ k); assumption.
      * destruct (kept_other w j c0 _ Hj K) as (E1 & E2). cbv zeta in *. cbn [said].
        destruct (Nat.eqb_spec j i); [congruence|]. cbn [app]. rewrite <- E1. apply (IH _ _ k).
        -- rewrite E1, E2. exact K.
        -- exact R.
Qed.

Lemma new_kept lists : kept (w_list (new_world lists s0)) (w_stream (new_world lists s0) i) (stream_history []).
Proof. split; [|reflexivity]. unfold new_world, look. cbn [w_list w_stream fst snd]. symmetry. apply (s_denote_nothing L (s0 i) (g i) (F i)). Qed.

Lemma handed_over lists h : untouched lists i None h ->
  let w := world_after L (new_world lists s0) h in
  look (w_list w) (w_stream w i) = stream_after L (s0 i) (said lists i h).
Proof.
  intros U. cbv zeta. pose proof (run_untouched h (new_world lists s0) [] (new_kept lists) U) as (E & _).
  cbn [app new_world w_list] in E. rewrite (s_after_denote L (s0 i) (g i) (F i)). exact E.
Qed.
Lemma handed_over_says lists h k c : untouched lists i None h ->
  let w := world_after L (new_world lists s0) h in
  stream_fill (w_list w) k = Ok c -> snd (world_step L w (Call i k)) = stream_sees (stream_history (said lists i h)) c.
Proof.
  intros U. cbv zeta. pose proof (run_untouched h (new_world lists s0) [] (new_kept lists) U) as K. intros Ec.
  cbn [app new_world w_list] in K. exact (proj1 (proj2 (proj2 (kept_call _ _ _ _ K Ec)))).
Qed.
Lemma edits_harmless lists h :
  let w := world_after L (new_world lists s0) h in let p := look (w_list w) (w_stream w i) in
  let q := stream_after L (s0 i) (said lists i h) in
  p = Par (pa_cube q) (pa_xxp q) (pa_yyp q) (pa_zgrid q) (pa_t_pars q) (pa_log_p_t q) (pa_log_p_x_t q) (pa_t_dep q)
        (pa_log_p_z_tx q) (pa_mu_v p) (pa_sig_v q) (pa_theta_lims p).
Proof.
  cbv zeta. destruct (run_any h (new_world lists s0) [] _ (new_kept lists)) as (k' & (K & _) & R); [repeat split|].
  cbn [app new_world w_list] in *. rewrite K, (s_after_denote L (s0 i) (g i) (F i)). destruct R as (R1 & R2 & R3 & R4).
  unfold den, s_denote. cbn. rewrite R1, R2, R3, R4. reflexivity.
Qed.
Lemma entries_ok h : forall w r, w_list (world_after L w h) r = entries (w_list w) h r.
Proof.
  induction h as [|e h IH]; intros w r; [reflexivity|]. cbn [world_after fold_left]. fold (world_after L (fst (world_step L w e)) h).
  rewrite IH. destruct e as [r' v|j k]; [reflexivity|]. cbn [entries]. f_equal. cbn [world_step].
  destruct (stream_fill (w_list w) k); [|reflexivity]. destruct (stream_step L _ _). reflexivity.
Qed.
End Stream.

Lemma default_angles : valid_angles (0, PI / 2) = true.
Proof.
  pose proof PI_RGT_0. unfold valid_angles, between. cbn [fst snd]. rewrite !andb_true_iff, !Rleb_true. repeat split; lra.
Qed.
Lemma default_stream_marg L s0 g i lmd phi S (d lw : bool) : (forall j, fresh (s0 j) (g j)) -> valid_sfh lmd phi = true -> nonempty S = true ->
  let w := world_after L (new_world default_lists s0) (default_stream i lmd phi) in
  exists a, par_get_p L (look (w_list w) (w_stream w i)) (name S) d lw = Ok a /\ shp a = dims S (g i).
Proof.
  intros F V HS. cbv zeta. rewrite (handed_over L s0 g F i); [|cbn [default_stream untouched]; exact I].
  pose proof (proj1 (stream_marg L (s0 i) (g i) (F i) (said default_lists i (default_stream i lmd phi)) S d lw HS)) as H.
  rewrite all_done_true in H; [exact H|].
  intros x. unfold default_stream. cbn [said]. rewrite Nat.eqb_refl.
  cbn [stream_fill pt_args bind fst snd app or_else default_lists theta_default mu_r_default mu_v_default].
  unfold stream_history. cbn [fold_left stream_learn]. rewrite V, default_angles. destruct x; reflexivity.
Qed.
(** distributions without velocities do not read mean velocities or angles *)
Lemma marg_no_v L c x y z tp lt lx td lz mu mu' sg th th' S (d lw : bool) : has_v S = false -> nonempty S = true ->
  par_get_p L (Par c x y z tp lt lx td lz mu sg th) (name S) d lw = par_get_p L (Par c x y z tp lt lx td lz mu' sg th') (name S) d lw.
Proof. destruct S as [[|] [|] [|] [|]]; cbn; intros H1 H2; try discriminate; reflexivity. Qed.
Lemma marginals_no_v L s0 g : (forall i, fresh (s0 i) (g i)) -> forall i lists h S (d lw : bool), has_v S = false -> nonempty S = true ->
  let w := world_after L (new_world lists s0) h in
  par_get_p L (look (w_list w) (w_stream w i)) (name S) d lw =
  par_get_p L (stream_after L (s0 i) (said lists i h)) (name S) d lw.
Proof.
  intros F i lists h S d lw H1 H2. cbv zeta. rewrite (edits_harmless L s0 g F i lists h).
  set (q := stream_after L (s0 i) (said lists i h)).
  rewrite (marg_no_v L _ _ _ _ _ _ _ _ _ _ (pa_mu_v q) _ _ (pa_theta_lims q) S d lw H1 H2).
  f_equal. destruct q; reflexivity.
Qed.
