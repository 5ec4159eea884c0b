(** * LifeClaims: histories of setter calls (claim C54). *)
From Coq Require Import Reals Lra Lia List Bool Arith ZArith String Ascii.
From Verif Require Import Num NumLemmas Arr ArrLemmas PyStr Cube Base Parametric GrowingDisk Stream Spec SpecLemmas Repr
  CubeLemmas CubeGeom CondLemmas BaseLemmas DistLemmas ParSpec ParRepr ParSetLemmas ParEnrich Life LifeSpec LifeShape LifeLemmas.
Import ListNotations.
Local Open Scope R_scope.

(** a component on which no setter has been called *)
Record fresh (s0 : par) (g : grid) : Prop := {
  fr_c : cube_on (pa_cube s0) g;
  fr_g : good_grid g;
  fr_x : shp (pa_xxp s0) = [nx g; ny g];
  fr_y : shp (pa_yyp s0) = [nx g; ny g];
  fr_z : shp (zg_z (pa_zgrid s0)) = [n_grid; nt g];
  fr_none : s0 = Par (pa_cube s0) (pa_xxp s0) (pa_yyp s0) (pa_zgrid s0) None None None None None None None None
}.
Lemma fresh_init c g X Y center rotation s0 : cube_on c g -> good_grid g -> cube_xy c g X Y ->
  par_init c center rotation = Ok s0 -> fresh s0 g.
Proof.
  intros Hc Hg Hxy E. destruct (par_init_ok c g X Y center rotation Hc Hg Hxy) as
    (s & E' & Ec & Exy & Ez & H1 & H2 & H3 & H4 & H5 & H6 & H7 & H8).
  rewrite E in E'. injection E' as <-. destruct (z_grid_ok n_grid c g Hc Hg) as (zg & Ez' & Hz).
  rewrite Ez in Ez'. injection Ez' as <-.
  split.
  - rewrite Ec; exact Hc.
  - exact Hg.
  - exact (proj1 (proj1 Exy)).
  - exact (proj1 (proj2 Exy)).
  - exact (proj1 (proj1 Hz)).
  - destruct s0; cbn in *; subst; reflexivity.
Qed.

(** a component as the constructor makes it on a cube with grid g *)
Definition new_component (s0 : par) (g : grid) : Prop :=
  exists c X Y center rotation, cube_on c g /\ good_grid g /\ cube_xy c g X Y /\ par_init c center rotation = Ok s0.
Lemma new_fresh s0 g : new_component s0 g -> fresh s0 g.
Proof. intros (c & X & Y & center & rotation & H1 & H2 & H3 & H4). exact (fresh_init _ _ _ _ _ _ _ H1 H2 H3 H4). Qed.

Section Disk.
Context (L : stats_lib) (s0 : par) (g : grid) (F : fresh s0 g).

Definition aged (o : option disk_call) : par := disk_after L s0 (one_call o).
Definition pair_run (o : option (disk_call * disk_call)) : par := disk_after L s0 (pair_calls o).
Definition denote (k : disk_known) : par :=
  Par (pa_cube s0) (pa_xxp s0) (pa_yyp s0) (pa_zgrid s0)
    (pa_t_pars (aged (dk_t k))) (pa_log_p_t (aged (dk_t k)))
    (pa_log_p_x_t (pair_run (dk_x k)))
    (pa_t_dep (aged (dk_z k))) (pa_log_p_z_tx (aged (dk_z k)))
    (pa_mu_v (pair_run (dk_mu k))) (pa_sig_v (pair_run (dk_sig k))) None.

Definition t_call c := match c with DPt _ _ _ => disk_valid c | _ => false end.
Definition x_call c := match c with DPxt _ _ _ => disk_valid c | _ => false end.
Definition z_call c := match c with DTdep _ _ _ _ _ _ => disk_valid c | _ => false end.
Definition mu_call c := match c with DMu _ _ _ => disk_valid c | _ => false end.
Definition sig_call c := match c with DSig _ _ _ _ _ _ => disk_valid c | _ => false end.
Definition one (p : disk_call -> bool) (o : option disk_call) : Prop := match o with Some c => p c = true | None => True end.
Definition two (p : disk_call -> bool) (o : option (disk_call * disk_call)) : Prop :=
  match o with Some (f, c) => t_call f = true /\ p c = true | None => True end.
Definition well (k : disk_known) : Prop :=
  one t_call (dk_t k) /\ two x_call (dk_x k) /\ one z_call (dk_z k) /\ two mu_call (dk_mu k) /\ two sig_call (dk_sig k).

Lemma well_learn k c : well k -> well (disk_learn k c).
Proof.
  intros (H1 & H2 & H3 & H4 & H5). unfold disk_learn, disk_sees. destruct (disk_valid c) eqn:V.
  - destruct c; cbn [uses_age]; try (repeat split; cbn; assumption);
    destruct (dk_t k) as [f|] eqn:E; repeat split; cbn; rewrite ?E; try assumption.
  - destruct c; repeat split; assumption.
Qed.
Lemma well_history h : well (disk_history h).
Proof.
  unfold disk_history. assert (H : forall h k, well k -> well (fold_left disk_learn h k)).
  { induction h0 as [|c h0 IH]; intros k Hk; [exact Hk|]. apply IH, well_learn, Hk. }
  apply H. repeat split.
Qed.

(** after an accepted set_p_t on a fresh component *)
Lemma aged_ok f : t_call f = true ->
  exists tp lp, aged (Some f) = put_age s0 (Some tp) (Some lp) /\ shp lp = [nt g].
Proof.
  destruct f as [lmd phi se| | | |]; try discriminate. cbn [t_call disk_valid]. intros V.
  pose proof (set_p_t_done L s0 g (fr_c _ _ F) (fr_g _ _ F) lmd phi se) as H. rewrite V in H.
  destruct H as (tp & lp & E & Sl). exists tp, lp. split; [|exact Sl].
  unfold aged, disk_after, disk_step. cbn [one_call fold_left]. rewrite E. reflexivity.
Qed.
Lemma aged_frame o : one t_call o -> same_frame (aged o) s0 /\ match o with Some _ => pa_t_pars (aged o) <> None | None => pa_t_pars (aged o) = None end.
Proof.
  destruct o as [f|]; cbn [one].
  - intros V. destruct (aged_ok f V) as (tp & lp & -> & _). split; [repeat split|discriminate].
  - intros _. split; [repeat split|]. cbn. rewrite (fr_none _ _ F). reflexivity.
Qed.
Lemma denote_frame s k : same_frame s s0 -> same_frame s (denote k).
Proof. intros H. exact H. Qed.

Section Step.
Context (k : disk_known) (W : well k).
Definition sa := aged (dk_t k).
Lemma sa_frame : same_frame sa (denote k).
Proof. apply denote_frame. apply aged_frame. apply W. Qed.
Lemma sa_c : cube_on (pa_cube sa) g.
Proof. destruct (proj1 (aged_frame _ (proj1 W))) as (E & _). fold sa in E. rewrite <- E. apply (fr_c _ _ F). Qed.
Lemma sa_x : shp (pa_xxp sa) = [nx g; ny g].
Proof. destruct (proj1 (aged_frame _ (proj1 W))) as (_ & E & _). fold sa in E. rewrite <- E. apply (fr_x _ _ F). Qed.
Lemma sa_y : shp (pa_yyp sa) = [nx g; ny g].
Proof. destruct (proj1 (aged_frame _ (proj1 W))) as (_ & _ & E & _). fold sa in E. rewrite <- E. apply (fr_y _ _ F). Qed.
Lemma sa_pars : match dk_t k with Some _ => pa_t_pars sa <> None | None => pa_t_pars sa = None end.
Proof. apply aged_frame, W. Qed.

Lemma aged_some f : dk_t k = Some f -> disk_after L s0 [f] = sa.
Proof. intros E. unfold sa. rewrite E. reflexivity. Qed.

Lemma pair_some f c : dk_t k = Some f -> pair_run (Some (f, c)) = fst (disk_step L sa c).
Proof. intros E. unfold sa. rewrite E. reflexivity. Qed.

(** the three setters which vary their parameters with age *)
Lemma step_aged (call : disk_call) (run : par -> res par) (get : par -> option (arr num)) put s :
  (forall p, disk_step L p call = finish p (run p)) -> uses_age call = true ->
  (match call with DPt _ _ _ => False | _ => True end) ->
  run (denote k) = rmap (fun p => put (denote k) (get p)) (run sa) ->
  (forall a, get (put sa a) = a) ->
  outcome sa (disk_valid call) (pa_t_pars sa) put s (run sa) ->
  (forall f, dk_t k = Some f -> disk_valid call = true -> put (denote k) (get (pair_run (Some (f, call)))) = denote (disk_learn k call)) ->
  disk_step L (denote k) call = (denote (disk_learn k call), disk_sees k call).
Proof.
  intros Hs Hu Hn Hr Hg Ho Hd. rewrite Hs, Hr. unfold outcome in Ho. unfold disk_sees. rewrite Hu.
  destruct (disk_valid call) eqn:V.
  - pose proof sa_pars as P. destruct (dk_t k) as [f|] eqn:E.
    + destruct (pa_t_pars sa); [|congruence]. destruct Ho as (a & E1 & Sa). rewrite E1. cbn [rmap finish].
      rewrite <- (Hd f eq_refl eq_refl). rewrite (pair_some f call E), Hs, E1. reflexivity.
    + rewrite P in Ho. rewrite Ho. cbn [rmap finish]. unfold disk_learn, disk_sees. rewrite V, Hu, E. reflexivity.
  - rewrite Ho. cbn [rmap finish]. unfold disk_learn, disk_sees. rewrite V. destruct call; [contradiction|reflexivity..].
Qed.

Lemma step_ok c : disk_step L (denote k) c = (denote (disk_learn k c), disk_sees k c).
Proof.
  pose proof sa_frame as Fr.
  destruct c as [lmd phi se|q rc al|q al a b lo hi|q r v|q al vi vo x y].
  - unfold disk_step, disk_learn, disk_sees. cbn [uses_age].
    pose proof (set_p_t_done L s0 g (fr_c _ _ F) (fr_g _ _ F) lmd phi se) as H.
    rewrite (set_p_t_reads L s0 (denote k) lmd phi se) by (repeat split). cbn [disk_valid].
    destruct (valid_sfh lmd phi) eqn:V.
    + destruct H as (tp & lp & E & Sl). rewrite E. cbn [rmap finish]. f_equal.
      assert (E' : aged (Some (DPt lmd phi se)) = put_age s0 (Some tp) (Some lp)).
      { unfold aged, disk_after, disk_step. cbn [one_call fold_left]. rewrite E. reflexivity. }
      unfold denote. cbn [dk_t dk_x dk_z dk_mu dk_sig]. rewrite E'. reflexivity.
    + rewrite H. reflexivity.
  - eapply step_aged with (get := pa_log_p_x_t).
    + reflexivity.
    + reflexivity.
    + exact I.
    + apply disk_x_reads; [exact Fr|reflexivity].
    + reflexivity.
    + apply (disk_x_done sa g sa_c (fr_g _ _ F) sa_x sa_y).
    + intros f Ef V. unfold disk_learn, disk_sees. rewrite V, Ef. unfold denote. rewrite Ef. reflexivity.
  - unfold disk_step, disk_learn, disk_sees. cbn [uses_age].
    pose proof (disk_tdep_done L s0 g (fr_c _ _ F) (fr_g _ _ F) (fr_x _ _ F) (fr_y _ _ F) (fr_z _ _ F) q al a b lo hi) as H.
    rewrite (disk_tdep_reads L s0 (denote k) q al a b lo hi) by (repeat split).
    destruct (disk_valid (DTdep q al a b lo hi)) eqn:V.
    + destruct H as (tp & lp & E & Sl). rewrite E. cbn [rmap finish]. f_equal.
      assert (E' : aged (Some (DTdep q al a b lo hi)) = put_z s0 (Some tp) (Some lp)).
      { unfold aged, disk_after, disk_step. cbn [one_call fold_left]. rewrite E. reflexivity. }
      unfold denote. cbn [dk_t dk_x dk_z dk_mu dk_sig]. rewrite E'. reflexivity.
    + rewrite H. reflexivity.
  - eapply step_aged with (get := pa_mu_v).
    + reflexivity.
    + reflexivity.
    + exact I.
    + apply disk_mu_reads; [exact Fr|reflexivity].
    + reflexivity.
    + apply (disk_mu_done sa g sa_c sa_x sa_y).
    + intros f Ef V. unfold disk_learn, disk_sees. rewrite V, Ef. unfold denote. rewrite Ef. reflexivity.
  - eapply step_aged with (get := pa_sig_v).
    + reflexivity.
    + reflexivity.
    + exact I.
    + apply disk_sig_reads; [exact Fr|reflexivity].
    + reflexivity.
    + apply (disk_sig_done sa g sa_c (fr_g _ _ F) sa_x sa_y).
    + intros f Ef V. unfold disk_learn, disk_sees. rewrite V, Ef. unfold denote. rewrite Ef. reflexivity.
Qed.
End Step.

Lemma denote_nothing : denote disk_nothing = s0.
Proof.
  transitivity (Par (pa_cube s0) (pa_xxp s0) (pa_yyp s0) (pa_zgrid s0) None None None None None None None None);
    [|symmetry; apply (fr_none _ _ F)].
  unfold denote, aged, pair_run, disk_after. cbn [disk_nothing dk_t dk_x dk_z dk_mu dk_sig one_call pair_calls fold_left].
  generalize (fr_none _ _ F). destruct s0; cbn. intros E. injection E as -> -> -> -> -> -> -> ->. reflexivity.
Qed.
Lemma after_denote h : disk_after L s0 h = denote (disk_history h).
Proof.
  induction h as [|c h IH] using rev_ind; [symmetry; apply denote_nothing|].
  unfold disk_after, disk_history in *. rewrite !fold_left_app. cbn [fold_left]. rewrite IH.
  change (fold_left disk_learn h disk_nothing) with (disk_history h). rewrite step_ok by apply well_history. reflexivity.
Qed.

(** what each call says *)
Lemma disk_says h c : snd (disk_step L (disk_after L s0 h) c) = disk_sees (disk_history h) c.
Proof. rewrite after_denote, step_ok by apply well_history. reflexivity. Qed.
Lemma disk_rejected h c e : disk_sees (disk_history h) c = Err e -> fst (disk_step L (disk_after L s0 h) c) = disk_after L s0 h.
Proof.
  intros E. rewrite after_denote, step_ok by apply well_history. cbn [fst]. unfold disk_learn. rewrite E. reflexivity.
Qed.
(** the memory is all that matters *)
Lemma disk_memory h h' : disk_history h = disk_history h' -> disk_after L s0 h = disk_after L s0 h'.
Proof. intros E. rewrite !after_denote, E. reflexivity. Qed.

Lemma history_app h h' : disk_history (h ++ h') = fold_left disk_learn h' (disk_history h).
Proof. unfold disk_history. apply fold_left_app. Qed.
Lemma learn_t k c : t_call c = true -> disk_learn k c = DiskKnown (Some c) (dk_x k) (dk_z k) (dk_mu k) (dk_sig k).
Proof. destruct c; try discriminate. cbn [t_call]. intros V. unfold disk_learn, disk_sees. rewrite V. reflexivity. Qed.
Lemma learn_z k c : z_call c = true -> disk_learn k c = DiskKnown (dk_t k) (dk_x k) (Some c) (dk_mu k) (dk_sig k).
Proof. destruct c; try discriminate. cbn [z_call]. intros V. unfold disk_learn, disk_sees. rewrite V. reflexivity. Qed.
Lemma learn_x k f c : x_call c = true -> dk_t k = Some f -> disk_learn k c = DiskKnown (dk_t k) (Some (f, c)) (dk_z k) (dk_mu k) (dk_sig k).
Proof. destruct c; try discriminate. cbn [x_call]. intros V E. unfold disk_learn, disk_sees. rewrite V, E. reflexivity. Qed.
Lemma learn_mu k f c : mu_call c = true -> dk_t k = Some f -> disk_learn k c = DiskKnown (dk_t k) (dk_x k) (dk_z k) (Some (f, c)) (dk_sig k).
Proof. destruct c; try discriminate. cbn [mu_call]. intros V E. unfold disk_learn, disk_sees. rewrite V, E. reflexivity. Qed.
Lemma learn_sig k f c : sig_call c = true -> dk_t k = Some f -> disk_learn k c = DiskKnown (dk_t k) (dk_x k) (dk_z k) (dk_mu k) (Some (f, c)).
Proof. destruct c; try discriminate. cbn [sig_call]. intros V E. unfold disk_learn, disk_sees. rewrite V, E. reflexivity. Qed.

(** a component which has set_p_t called whenever anything depends on it *)
Definition timed k := match dk_t k with None => dk_x k = None /\ dk_mu k = None /\ dk_sig k = None | Some _ => True end.
Lemma timed_history h : timed (disk_history h).
Proof.
  unfold disk_history. assert (H : forall h k, timed k -> timed (fold_left disk_learn h k)).
  { induction h0 as [|c h0 IH]; intros k Hk; [exact Hk|]. cbn [fold_left]. apply IH. unfold timed in *.
    unfold disk_learn, disk_sees. destruct (disk_valid c), c, (dk_t k) eqn:E; cbn; rewrite ?E; auto. }
  apply H. cbn. auto.
Qed.

Lemma replay_history h : disk_history (disk_replay (disk_history h)) = disk_history h.
Proof.
  pose proof (well_history h) as W. pose proof (timed_history h) as T. destruct (disk_history h) as [t x z m s].
  destruct W as (W1 & W2 & W3 & W4 & W5). cbn [dk_t dk_x dk_z dk_mu dk_sig] in *. unfold timed in T. cbn [dk_t dk_x dk_z dk_mu dk_sig] in T.
  unfold disk_replay. cbn [dk_t dk_x dk_z dk_mu dk_sig].
  rewrite history_app, !fold_left_app.
  assert (X : forall a b k, two x_call (Some (a, b)) -> fold_left disk_learn [a; b] k = DiskKnown (Some a) (Some (a, b)) (dk_z k) (dk_mu k) (dk_sig k)).
  { intros a b k (Ha & Hb). cbn [fold_left]. rewrite (learn_t k a Ha). apply (learn_x (DiskKnown (Some a) (dk_x k) (dk_z k) (dk_mu k) (dk_sig k)) a b Hb eq_refl). }
  assert (M : forall a b k, two mu_call (Some (a, b)) -> fold_left disk_learn [a; b] k = DiskKnown (Some a) (dk_x k) (dk_z k) (Some (a, b)) (dk_sig k)).
  { intros a b k (Ha & Hb). cbn [fold_left]. rewrite (learn_t k a Ha). apply (learn_mu (DiskKnown (Some a) (dk_x k) (dk_z k) (dk_mu k) (dk_sig k)) a b Hb eq_refl). }
  assert (G : forall a b k, two sig_call (Some (a, b)) -> fold_left disk_learn [a; b] k = DiskKnown (Some a) (dk_x k) (dk_z k) (dk_mu k) (Some (a, b))).
  { intros a b k (Ha & Hb). cbn [fold_left]. rewrite (learn_t k a Ha). apply (learn_sig (DiskKnown (Some a) (dk_x k) (dk_z k) (dk_mu k) (dk_sig k)) a b Hb eq_refl). }
  assert (Hx : exists o, fold_left disk_learn (pair_calls x) disk_nothing = DiskKnown o x None None None /\ (t = None -> o = None)).
  { destruct x as [[a b]|]; cbn [pair_calls].
    - exists (Some a). rewrite X by assumption. split; [reflexivity|]. intros ->. destruct T as (T & _). discriminate.
    - exists None. split; reflexivity. }
  destruct Hx as (o1 & H1 & O1). change (fold_left disk_learn (pair_calls x) disk_nothing) with (disk_history (pair_calls x)) in H1. rewrite H1.
  assert (Hm : exists o, fold_left disk_learn (pair_calls m) (DiskKnown o1 x None None None) = DiskKnown o x None m None /\ (t = None -> o = None)).
  { destruct m as [[a b]|]; cbn [pair_calls].
    - exists (Some a). rewrite M by assumption. split; [reflexivity|]. intros ->. destruct T as (_ & T & _). discriminate.
    - exists o1. split; [reflexivity|exact O1]. }
  destruct Hm as (o2 & -> & O2).
  assert (Hs : exists o, fold_left disk_learn (pair_calls s) (DiskKnown o2 x None m None) = DiskKnown o x None m s /\ (t = None -> o = None)).
  { destruct s as [[a b]|]; cbn [pair_calls].
    - exists (Some a). rewrite G by assumption. split; [reflexivity|]. intros ->. destruct T as (_ & _ & T). discriminate.
    - exists o2. split; [reflexivity|exact O2]. }
  destruct Hs as (o3 & -> & O3).
  assert (Hz : fold_left disk_learn (one_call z) (DiskKnown o3 x None m s) = DiskKnown o3 x z m s).
  { destruct z as [c|]; cbn [one_call fold_left]; [apply learn_z; exact W3|reflexivity]. }
  rewrite Hz. destruct t as [c|]; cbn [one_call fold_left].
  - apply learn_t. exact W1.
  - rewrite (O3 eq_refl). reflexivity.
Qed.
Lemma disk_replays h : disk_after L s0 h = disk_after L s0 (disk_replay (disk_history h)).
Proof. apply disk_memory. symmetry. apply replay_history. Qed.

(** queries *)
Section Query.
Context (k : disk_known) (W : well k).
Lemma held_t : held (is_some (dk_t k)) [nt g] (pa_log_p_t (denote k)).
Proof.
  cbn [denote pa_log_p_t]. destruct (dk_t k) as [f|] eqn:E; cbn [is_some held].
  - destruct W as (W1 & _). rewrite E in W1. destruct (aged_ok f W1) as (tp & lp & -> & Sl). exists lp. split; [reflexivity|exact Sl].
  - cbn. rewrite (fr_none _ _ F). reflexivity.
Qed.
Lemma held_z : held (is_some (dk_z k)) [nz g; nt g; nx g; ny g] (pa_log_p_z_tx (denote k)).
Proof.
  cbn [denote pa_log_p_z_tx]. destruct (dk_z k) as [f|] eqn:E; cbn [is_some held].
  - destruct W as (_ & _ & W1 & _). rewrite E in W1. cbn [one] in W1. destruct f as [| |q al a b lo hi| |]; try discriminate. cbn [z_call] in W1.
    pose proof (disk_tdep_done L s0 g (fr_c _ _ F) (fr_g _ _ F) (fr_x _ _ F) (fr_y _ _ F) (fr_z _ _ F) q al a b lo hi) as H.
    rewrite W1 in H. destruct H as (tp & lp & E' & Sl). exists lp. split; [|exact Sl].
    unfold aged, disk_after, disk_step. cbn [one_call fold_left]. rewrite E'. reflexivity.
  - cbn. rewrite (fr_none _ _ F). reflexivity.
Qed.
(** the pair of an accepted set_p_t and an accepted later call *)
Lemma held_pair (p : disk_call -> bool) o (get : par -> option (arr num)) put s :
  two p o -> get s0 = None ->
  (forall c, p c = true -> disk_valid c = true /\ exists run, (forall q, disk_step L q c = finish q (run q)) /\
     forall tp lp, outcome (put_age s0 (Some tp) (Some lp)) (disk_valid c) (Some tp) put s (run (put_age s0 (Some tp) (Some lp)))) ->
  (forall q a, get (put q a) = a) ->
  held (is_some o) s (get (pair_run o)).
Proof.
  intros Ho Hn Hc Hp. destruct o as [[f c]|]; cbn [is_some held].
  - destruct Ho as (Hf & Hcc). destruct (aged_ok f Hf) as (tp & lp & Ea & _). destruct (Hc c Hcc) as (V & run & Hr & Hout).
    specialize (Hout tp lp). rewrite V in Hout. destruct Hout as (a & E & Sa). exists a. split; [|exact Sa].
    change (pair_run (Some (f, c))) with (fst (disk_step L (aged (Some f)) c)). rewrite Ea, Hr, E. cbn [finish fst]. apply Hp.
  - exact Hn.
Qed.
Lemma held_x : held (is_some (dk_x k)) [nx g; ny g; nt g] (pa_log_p_x_t (denote k)).
Proof.
  apply (held_pair x_call _ pa_log_p_x_t put_x); [apply W|rewrite (fr_none _ _ F); reflexivity| |reflexivity].
  intros c V. destruct c as [|q rc al| | |]; try discriminate. split; [exact V|]. eexists. split; [reflexivity|].
  intros tp lp. apply (disk_x_done (put_age s0 (Some tp) (Some lp)) g (fr_c _ _ F) (fr_g _ _ F) (fr_x _ _ F) (fr_y _ _ F)).
Qed.
Lemma held_mu : held (is_some (dk_mu k)) [nt g; nx g; ny g] (pa_mu_v (denote k)).
Proof.
  apply (held_pair mu_call _ pa_mu_v put_mu); [apply W|rewrite (fr_none _ _ F); reflexivity| |reflexivity].
  intros c V. destruct c as [| | |q r v|]; try discriminate. split; [exact V|]. eexists. split; [reflexivity|].
  intros tp lp. apply (disk_mu_done (put_age s0 (Some tp) (Some lp)) g (fr_c _ _ F) (fr_x _ _ F) (fr_y _ _ F)).
Qed.
Lemma held_sig : held (is_some (dk_sig k)) [nt g; nx g; ny g] (pa_sig_v (denote k)).
Proof.
  apply (held_pair sig_call _ pa_sig_v put_sig); [apply W|rewrite (fr_none _ _ F); reflexivity| |reflexivity].
  intros c V. destruct c as [| | | |q al vi vo x y]; try discriminate. split; [exact V|]. eexists. split; [reflexivity|].
  intros tp lp. apply (disk_sig_done (put_age s0 (Some tp) (Some lp)) g (fr_c _ _ F) (fr_g _ _ F) (fr_x _ _ F) (fr_y _ _ F)).
Qed.
End Query.

Lemma done_disk k : forall x, done (is_some (dk_t k)) (is_some (dk_x k)) (is_some (dk_z k)) (is_some (dk_mu k)) (is_some (dk_sig k)) x = disk_done k x.
Proof. destruct x; reflexivity. Qed.
Lemma all_done_ext f h h' : (forall x, h x = h' x) -> all_done f h = all_done f h'.
Proof. intros E. unfold all_done. cbn [forallb]. rewrite !E. reflexivity. Qed.

Lemma disk_marg h S (d lw : bool) : nonempty S = true ->
  out (all_done (needs_marg lw S) (disk_done (disk_history h))) (dims S g) (par_get_p L (disk_after L s0 h) (name S) d lw) /\
  out (all_done (needs_marg lw S) (disk_done (disk_history h))) (dims S g) (par_get_log_p L (disk_after L s0 h) (name S) d lw).
Proof.
  intros HS. rewrite after_denote. pose proof (well_history h) as W. rewrite <- (all_done_ext _ _ _ (done_disk (disk_history h))).
  split; [apply o_get_p_marg|apply o_get_log_p_marg];
    first [exact HS | exact (fr_c _ _ F) | exact (fr_g _ _ F) | apply held_t; exact W | apply held_x; exact W | apply held_z; exact W
          | apply held_mu; exact W | apply held_sig; exact W].
Qed.
Lemma disk_cond h A C (d lw : bool) : nonempty A = true -> nonempty C = true -> disjoint A C = true ->
  out (all_done (needs_cond lw A C) (disk_done (disk_history h))) (dims A g ++ dims C g) (par_get_p L (disk_after L s0 h) (cname A C) d lw) /\
  out (all_done (needs_cond lw A C) (disk_done (disk_history h))) (dims A g ++ dims C g) (par_get_log_p L (disk_after L s0 h) (cname A C) d lw).
Proof.
  intros HA HC HD. rewrite after_denote. pose proof (well_history h) as W. rewrite <- (all_done_ext _ _ _ (done_disk (disk_history h))).
  split; [apply o_get_p_cond|apply o_get_log_p_cond];
    first [exact HA | exact HC | exact HD | exact (fr_c _ _ F) | exact (fr_g _ _ F) | apply held_t; exact W | apply held_x; exact W | apply held_z; exact W
          | apply held_mu; exact W | apply held_sig; exact W].
Qed.

(** a call is forgotten once a later call of its setter is accepted, unless it
    is of set_p_t and something in between depends on it *)
Definition erase (x : setter) (k : disk_known) : disk_known :=
  match x with
  | Kt => DiskKnown None (dk_x k) (dk_z k) (dk_mu k) (dk_sig k)
  | Kx => DiskKnown (dk_t k) None (dk_z k) (dk_mu k) (dk_sig k)
  | Kz => DiskKnown (dk_t k) (dk_x k) None (dk_mu k) (dk_sig k)
  | Kmu => DiskKnown (dk_t k) (dk_x k) (dk_z k) None (dk_sig k)
  | Ksig => DiskKnown (dk_t k) (dk_x k) (dk_z k) (dk_mu k) None
  end.
Lemma erase_own k c : erase (disk_setter c) (disk_learn k c) = erase (disk_setter c) k.
Proof.
  unfold disk_learn, disk_sees. destruct (disk_valid c), c, (dk_t k) eqn:E; cbn; rewrite ?E; reflexivity.
Qed.
Lemma erase_learn x k k' c : (x = Kt -> uses_age c = false) -> erase x k = erase x k' ->
  erase x (disk_learn k c) = erase x (disk_learn k' c).
Proof.
  intros Hx E. destruct k as [t a b m s], k' as [t' a' b' m' s'].
  destruct x; cbn in E; injection E; intros; subst;
    unfold disk_learn, disk_sees; cbn [dk_t]; destruct (disk_valid c), c; cbn [uses_age];
    try (specialize (Hx eq_refl); discriminate);
    repeat match goal with |- context [match ?o with Some _ => _ | None => _ end] => is_var o; destruct o end; reflexivity.
Qed.
Lemma learn_erase k k' c : erase (disk_setter c) k = erase (disk_setter c) k' -> disk_sees k c = Ok tt ->
  disk_learn k c = disk_learn k' c.
Proof.
  intros E Hs. destruct k as [t a b m s], k' as [t' a' b' m' s'].
  destruct c; cbn in E; injection E; intros; subst; unfold disk_learn;
    unfold disk_sees in *; cbn [dk_t dk_x dk_z dk_mu dk_sig uses_age] in *; destruct (disk_valid _); try discriminate;
    repeat match goal with |- context [match ?o with Some _ => _ | None => _ end] => is_var o; destruct o end; try discriminate; reflexivity.
Qed.
Lemma disk_overwritten h1 c1 h2 c2 : disk_setter c1 = disk_setter c2 ->
  (disk_setter c1 = Kt -> forall c, In c h2 -> uses_age c = false) ->
  disk_sees (disk_history (h1 ++ c1 :: h2)) c2 = Ok tt ->
  disk_after L s0 (h1 ++ c1 :: h2 ++ [c2]) = disk_after L s0 (h1 ++ h2 ++ [c2]).
Proof.
  intros Hk Hage Hs. apply disk_memory. rewrite !history_app. cbn [fold_left]. rewrite !fold_left_app. cbn [fold_left].
  rewrite history_app in Hs. cbn [fold_left] in Hs.
  apply learn_erase; [|exact Hs]. clear Hs. rewrite <- Hk. pose proof (erase_own (disk_history h1) c1) as E.
  revert E. generalize (disk_learn (disk_history h1) c1) as k. generalize (disk_history h1) as k'. induction h2 as [|c h2 IH]; intros k' k E; [exact E|].
  cbn [fold_left]. apply IH; [intros; apply Hage; [assumption|right; assumption]|].
  apply erase_learn; [|exact E]. intros Ht. apply Hage; [exact Ht|left; reflexivity].
Qed.

(** when nothing is out of date *)
Definition others (k : disk_known) : list disk_call :=
  one_call (option_map snd (dk_x k)) ++ one_call (dk_z k) ++ one_call (option_map snd (dk_mu k)) ++ one_call (option_map snd (dk_sig k)).
Lemma disk_in_order h : (forall o, In o [dk_x (disk_history h); dk_mu (disk_history h); dk_sig (disk_history h)] ->
    option_map fst o = dk_t (disk_history h) \/ o = None) ->
  disk_after L s0 h = disk_after L s0 (one_call (dk_t (disk_history h)) ++ others (disk_history h)).
Proof.
  intros Hin. apply disk_memory. symmetry.
  pose proof (well_history h) as W. pose proof (timed_history h) as T. destruct (disk_history h) as [t x z m s].
  destruct W as (W1 & W2 & W3 & W4 & W5). unfold timed, others in *. cbn [dk_t dk_x dk_z dk_mu dk_sig] in *.
  rewrite history_app, !fold_left_app.
  assert (H0 : disk_history (one_call t) = DiskKnown t None None None None).
  { destruct t as [c|]; [|reflexivity]. unfold disk_history. cbn [one_call fold_left]. apply learn_t. exact W1. }
  rewrite H0.
  assert (Hx : fold_left disk_learn (one_call (option_map snd x)) (DiskKnown t None None None None) = DiskKnown t x None None None).
  { destruct x as [[f c]|]; [|reflexivity]. destruct (Hin _ (or_introl eq_refl)) as [E|E]; [|discriminate]. cbn in E.
    cbn [option_map snd one_call fold_left]. subst t. apply (learn_x (DiskKnown (Some f) None None None None) f c); [apply W2|reflexivity]. }
  rewrite Hx.
  assert (Hz : fold_left disk_learn (one_call z) (DiskKnown t x None None None) = DiskKnown t x z None None).
  { destruct z as [c|]; cbn [one_call fold_left]; [apply learn_z; exact W3|reflexivity]. }
  rewrite Hz.
  assert (Hm : fold_left disk_learn (one_call (option_map snd m)) (DiskKnown t x z None None) = DiskKnown t x z m None).
  { destruct m as [[f c]|]; [|reflexivity]. destruct (Hin _ (or_intror (or_introl eq_refl))) as [E|E]; [|discriminate]. cbn in E.
    cbn [option_map snd one_call fold_left]. subst t. apply (learn_mu (DiskKnown (Some f) x z None None) f c); [apply W4|reflexivity]. }
  rewrite Hm. destruct s as [[f c]|]; [|reflexivity].
  destruct (Hin _ (or_intror (or_intror (or_introl eq_refl)))) as [E|E]; [|discriminate]. cbn in E.
  cbn [option_map snd one_call fold_left]. subst t. apply (learn_sig (DiskKnown (Some f) x z m None) f c); [apply W5|reflexivity].
Qed.
End Disk.

Section Stream.
Context (L : stats_lib) (s0 : par) (g : grid) (F : fresh s0 g).

Definition s_run (o : option stream_call) : par := stream_after L s0 (one_call o).
Definition s_aimed (o : option ((R * R) * stream_call)) : par :=
  match o with Some (th, c) => fst (stream_step L (put_theta_lims s0 th) c) | None => s0 end.
Definition s_denote (k : stream_known) : par :=
  Par (pa_cube s0) (pa_xxp s0) (pa_yyp s0) (pa_zgrid s0)
    (pa_t_pars (s_run (sk_t k))) (pa_log_p_t (s_run (sk_t k)))
    (pa_log_p_x_t (s_run (sk_x k)))
    (pa_t_dep (s_run (sk_z k))) (pa_log_p_z_tx (s_run (sk_z k)))
    (pa_mu_v (s_aimed (sk_mu k))) (pa_sig_v (s_run (sk_sig k))) (sk_angles k).

Definition st_call c := match c with SPt lmd phi _ => valid_sfh lmd phi | _ => false end.
Definition sx_call c := match c with SPxt th _ _ (S _) => valid_angles th | _ => false end.
Definition sz_call c := match c with STdep _ => true | _ => false end.
Definition smu_call c := match c with SMu _ => true | _ => false end.
Definition ssig_call c := match c with SSig _ => true | _ => false end.
Definition s_one (p : stream_call -> bool) (o : option stream_call) : Prop := match o with Some c => p c = true | None => True end.
Definition s_two (o : option ((R * R) * stream_call)) : Prop := match o with Some (_, c) => smu_call c = true | None => True end.
Definition s_well (k : stream_known) : Prop :=
  s_one st_call (sk_t k) /\ s_one sx_call (sk_x k) /\ s_one sz_call (sk_z k) /\ s_two (sk_mu k) /\ s_one ssig_call (sk_sig k).

Lemma s_well_learn k c : s_well k -> s_well (stream_learn k c).
Proof.
  intros (H1 & H2 & H3 & H4 & H5). destruct c as [lmd phi se|th r sg n|td|v|sg]; cbn [stream_learn].
  - destruct (valid_sfh lmd phi) eqn:V; repeat split; cbn; assumption.
  - destruct (valid_angles th) eqn:V; [|repeat split; assumption]. destruct n; repeat split; cbn; assumption.
  - repeat split; cbn; assumption.
  - destruct (sk_angles k); repeat split; cbn; assumption.
  - repeat split; cbn; assumption.
Qed.
Lemma s_well_history h : s_well (stream_history h).
Proof.
  unfold stream_history. assert (H : forall h k, s_well k -> s_well (fold_left stream_learn h k)).
  { induction h0 as [|c h0 IH]; intros k Hk; [exact Hk|]. apply IH, s_well_learn, Hk. }
  apply H. repeat split.
Qed.

Lemma same_x s th r sg n : same_frame s0 s -> stream_log_p_x_t L s th r sg n = stream_log_p_x_t L s0 th r sg n.
Proof. intros H. apply stream_coord_x_reads. exact H. Qed.

Lemma s_step_ok k c : stream_step L (s_denote k) c = (s_denote (stream_learn k c), stream_sees k c).
Proof.
  destruct c as [lmd phi se|th r sg n|td|v|sg]; cbn [stream_learn stream_sees].
  - unfold stream_step. pose proof (set_p_t_done L s0 g (fr_c _ _ F) (fr_g _ _ F) lmd phi se) as H.
    rewrite (set_p_t_reads L s0 (s_denote k) lmd phi se) by (repeat split).
    destruct (valid_sfh lmd phi) eqn:V.
    + destruct H as (tp & lp & E & Sl). rewrite E. cbn [rmap finish]. f_equal.
      assert (E' : s_run (Some (SPt lmd phi se)) = put_age s0 (Some tp) (Some lp)).
      { unfold s_run, stream_after, stream_step. cbn [one_call fold_left]. rewrite E. reflexivity. }
      unfold s_denote. cbn [sk_t sk_x sk_angles sk_z sk_mu sk_sig]. rewrite E'. reflexivity.
    + rewrite H. reflexivity.
  - unfold stream_step, stream_step_p_x_t. rewrite stream_angles_done. destruct (valid_angles th) eqn:V; [|reflexivity].
    cbv zeta. rewrite same_x by (repeat split). destruct n as [|n].
    + rewrite (stream_x_empty L s0 g (fr_c _ _ F) (fr_x _ _ F) (fr_y _ _ F)). reflexivity.
    + destruct (stream_x_done L s0 g (fr_c _ _ F) (fr_g _ _ F) (fr_x _ _ F) (fr_y _ _ F) th r sg (S n)) as (a & E & Sa); [lia|].
      rewrite E. cbn [bind finish]. f_equal.
      assert (E' : pa_log_p_x_t (s_run (Some (SPxt th r sg (S n)))) = Some a).
      { unfold s_run, stream_after, stream_step, stream_step_p_x_t. cbn [one_call fold_left]. rewrite stream_angles_done, V.
        cbv zeta. rewrite same_x by (repeat split). rewrite E. reflexivity. }
      unfold s_denote. cbn [sk_t sk_x sk_angles sk_z sk_mu sk_sig]. rewrite E'. reflexivity.
  - unfold stream_step. rewrite (stream_tdep_reads L s0 (s_denote k) td) by (repeat split).
    destruct (stream_tdep_done L s0 g (fr_c _ _ F) (fr_g _ _ F) (fr_z _ _ F) td) as (t & lp & E & Sl).
    rewrite E. cbn [rmap finish]. f_equal.
    assert (E' : s_run (Some (STdep td)) = put_z s0 (Some t) (Some lp)).
    { unfold s_run, stream_after, stream_step. cbn [one_call fold_left]. rewrite E. reflexivity. }
    unfold s_denote. cbn [sk_t sk_x sk_angles sk_z sk_mu sk_sig]. rewrite E'. reflexivity.
  - unfold stream_step. destruct (sk_angles k) as [th|] eqn:Ea.
    + rewrite (stream_mu_reads (put_theta_lims s0 th) (s_denote k) v); [|repeat split|cbn; exact Ea].
      destruct (stream_mu_done (put_theta_lims s0 th) g (fr_c _ _ F) (fr_x _ _ F) (fr_y _ _ F) v) as (a & E & Sa).
      rewrite E. cbn [rmap finish]. f_equal.
      assert (E' : pa_mu_v (s_aimed (Some (th, SMu v))) = Some a).
      { unfold s_aimed, stream_step. rewrite E. reflexivity. }
      unfold s_denote. cbn [sk_t sk_x sk_angles sk_z sk_mu sk_sig]. rewrite E', Ea. reflexivity.
    + assert (E : stream_set_mu_v (s_denote k) v = Err AttributeError).
      { pose proof (stream_mu_done (s_denote k) g (fr_c _ _ F) (fr_x _ _ F) (fr_y _ _ F) v) as H. cbn [s_denote pa_theta_lims] in H.
        rewrite Ea in H. exact H. }
      rewrite E. reflexivity.
  - unfold stream_step. rewrite (stream_sig_reads s0 (s_denote k) sg) by (repeat split). reflexivity.
Qed.

Lemma s_denote_nothing : s_denote stream_nothing = s0.
Proof.
  unfold s_denote, s_run, s_aimed, stream_after. cbn [stream_nothing sk_t sk_x sk_angles sk_z sk_mu sk_sig one_call fold_left].
  generalize (fr_none _ _ F). destruct s0; cbn. intros E. injection E as -> -> -> -> -> -> -> ->. reflexivity.
Qed.
Lemma s_after_denote h : stream_after L s0 h = s_denote (stream_history h).
Proof.
  induction h as [|c h IH] using rev_ind; [symmetry; apply s_denote_nothing|].
  unfold stream_after, stream_history in *. rewrite !fold_left_app. cbn [fold_left]. rewrite IH.
  change (fold_left stream_learn h stream_nothing) with (stream_history h). rewrite s_step_ok. reflexivity.
Qed.
Lemma stream_says h c : snd (stream_step L (stream_after L s0 h) c) = stream_sees (stream_history h) c.
Proof. rewrite s_after_denote, s_step_ok. reflexivity. Qed.
(** a rejected call changes nothing, but for the angles when it wants points *)
Lemma stream_rejected h c e : stream_sees (stream_history h) c = Err e ->
  (match c with SPxt th _ _ _ => valid_angles th = false | _ => True end) ->
  fst (stream_step L (stream_after L s0 h) c) = stream_after L s0 h.
Proof.
  intros E Hx. rewrite s_after_denote, s_step_ok. cbn [fst]. f_equal.
  destruct c as [lmd phi se|th r sg n|td|v|sg]; cbn [stream_learn stream_sees] in *; try discriminate.
  - destruct (valid_sfh lmd phi); [discriminate|reflexivity].
  - rewrite Hx. reflexivity.
  - destruct (sk_angles _); [discriminate|reflexivity].
Qed.
Lemma stream_memory h h' : stream_history h = stream_history h' -> stream_after L s0 h = stream_after L s0 h'.
Proof. intros E. rewrite !s_after_denote, E. reflexivity. Qed.
Lemma s_history_app h h' : stream_history (h ++ h') = fold_left stream_learn h' (stream_history h).
Proof. unfold stream_history. apply fold_left_app. Qed.

Definition s_erase (x : setter) (k : stream_known) : stream_known :=
  match x with
  | Kt => StreamKnown None (sk_x k) (sk_angles k) (sk_z k) (sk_mu k) (sk_sig k)
  | Kx => StreamKnown (sk_t k) None None (sk_z k) (sk_mu k) (sk_sig k)
  | Kz => StreamKnown (sk_t k) (sk_x k) (sk_angles k) None (sk_mu k) (sk_sig k)
  | Kmu => StreamKnown (sk_t k) (sk_x k) (sk_angles k) (sk_z k) None (sk_sig k)
  | Ksig => StreamKnown (sk_t k) (sk_x k) (sk_angles k) (sk_z k) (sk_mu k) None
  end.
Lemma s_erase_own k c : s_erase (stream_setter c) (stream_learn k c) = s_erase (stream_setter c) k.
Proof.
  destruct c as [lmd phi se|th r sg n|td|v|sg]; cbn [stream_learn stream_setter]; try reflexivity.
  - destruct (valid_sfh lmd phi); reflexivity.
  - destruct (valid_angles th); reflexivity.
  - destruct (sk_angles k) eqn:E; cbn; rewrite ?E; reflexivity.
Qed.
Lemma s_erase_learn x k k' c : (x = Kx -> stream_setter c <> Kmu) -> s_erase x k = s_erase x k' ->
  s_erase x (stream_learn k c) = s_erase x (stream_learn k' c).
Proof.
  intros Hx E. destruct k as [t a an b m s], k' as [t' a' an' b' m' s'].
  destruct x; cbn in E; injection E; intros; subst;
    destruct c as [lmd phi se|th r sg n|td|v|sg]; cbn [stream_learn sk_t sk_x sk_angles sk_z sk_mu sk_sig];
    try (exfalso; apply (Hx eq_refl); reflexivity);
    repeat match goal with
    | |- context [if ?b then _ else _] => destruct b
    | |- context [match ?o with Some _ => _ | None => _ end] => is_var o; destruct o
    | |- context [match ?o with O => _ | S _ => _ end] => is_var o; destruct o end; reflexivity.
Qed.
Lemma s_learn_erase k k' c : s_erase (stream_setter c) k = s_erase (stream_setter c) k' -> stream_sees k c = Ok tt ->
  stream_learn k c = stream_learn k' c.
Proof.
  intros E Hs. destruct k as [t a an b m s], k' as [t' a' an' b' m' s'].
  destruct c as [lmd phi se|th r sg n|td|v|sg]; cbn in E; injection E; intros; subst;
    cbn [stream_learn stream_sees sk_t sk_x sk_angles sk_z sk_mu sk_sig] in *; try reflexivity.
  - destruct (valid_sfh lmd phi); [reflexivity|discriminate].
  - destruct (valid_angles th); [|discriminate]. destruct n; [discriminate|reflexivity].
  - destruct an'; [reflexivity|discriminate].
Qed.
Lemma stream_overwritten h1 c1 h2 c2 : stream_setter c1 = stream_setter c2 ->
  (stream_setter c1 = Kx -> forall c, In c h2 -> stream_setter c <> Kmu) ->
  stream_sees (stream_history (h1 ++ c1 :: h2)) c2 = Ok tt ->
  stream_after L s0 (h1 ++ c1 :: h2 ++ [c2]) = stream_after L s0 (h1 ++ h2 ++ [c2]).
Proof.
  intros Hk Hage Hs. apply stream_memory. rewrite !s_history_app. cbn [fold_left]. rewrite !fold_left_app. cbn [fold_left].
  rewrite s_history_app in Hs. cbn [fold_left] in Hs.
  apply s_learn_erase; [|exact Hs]. clear Hs. rewrite <- Hk. pose proof (s_erase_own (stream_history h1) c1) as E.
  revert E. generalize (stream_learn (stream_history h1) c1) as k. generalize (stream_history h1) as k'. induction h2 as [|c h2 IH]; intros k' k E; [exact E|].
  cbn [fold_left]. apply IH; [intros; apply Hage; [assumption|right; assumption]|].
  apply s_erase_learn; [|exact E]. intros Ht. apply Hage; [exact Ht|left; reflexivity].
Qed.

(** queries *)
Section Query.
Context (k : stream_known) (W : s_well k).
Lemma s_held_t : held (is_some (sk_t k)) [nt g] (pa_log_p_t (s_denote k)).
Proof.
  cbn [s_denote pa_log_p_t]. destruct (sk_t k) as [f|] eqn:E; cbn [is_some held].
  - destruct W as (W1 & _). rewrite E in W1. destruct f as [lmd phi se| | | |]; try discriminate. cbn in W1.
    pose proof (set_p_t_done L s0 g (fr_c _ _ F) (fr_g _ _ F) lmd phi se) as H. rewrite W1 in H.
    destruct H as (tp & lp & E' & Sl). exists lp. split; [|exact Sl].
    unfold s_run, stream_after, stream_step. cbn [one_call fold_left]. rewrite E'. reflexivity.
  - cbn. rewrite (fr_none _ _ F). reflexivity.
Qed.
Lemma s_held_x : held (is_some (sk_x k)) [nx g; ny g; nt g] (pa_log_p_x_t (s_denote k)).
Proof.
  cbn [s_denote pa_log_p_x_t]. destruct (sk_x k) as [f|] eqn:E; cbn [is_some held].
  - destruct W as (_ & W1 & _). rewrite E in W1. destruct f as [|th r sg [|n]| | |]; try discriminate. cbn in W1.
    destruct (stream_x_done L s0 g (fr_c _ _ F) (fr_g _ _ F) (fr_x _ _ F) (fr_y _ _ F) th r sg (S n)) as (a & E' & Sa); [lia|].
    exists a. split; [|exact Sa].
    unfold s_run, stream_after, stream_step, stream_step_p_x_t. cbn [one_call fold_left]. rewrite stream_angles_done, W1.
    cbv zeta. rewrite same_x by (repeat split). rewrite E'. reflexivity.
  - cbn. rewrite (fr_none _ _ F). reflexivity.
Qed.
Lemma s_held_z : held (is_some (sk_z k)) [nz g; nt g; nx g; ny g] (pa_log_p_z_tx (s_denote k)).
Proof.
  cbn [s_denote pa_log_p_z_tx]. destruct (sk_z k) as [f|] eqn:E; cbn [is_some held].
  - destruct W as (_ & _ & W1 & _). rewrite E in W1. destruct f as [| |td| |]; try discriminate.
    destruct (stream_tdep_done L s0 g (fr_c _ _ F) (fr_g _ _ F) (fr_z _ _ F) td) as (t & lp & E' & Sl).
    exists lp. split; [|exact Sl]. unfold s_run, stream_after, stream_step. cbn [one_call fold_left]. rewrite E'. reflexivity.
  - cbn. rewrite (fr_none _ _ F). reflexivity.
Qed.
Lemma s_held_mu : held (is_some (sk_mu k)) [nt g; nx g; ny g] (pa_mu_v (s_denote k)).
Proof.
  cbn [s_denote pa_mu_v]. destruct (sk_mu k) as [[th f]|] eqn:E; cbn [is_some held].
  - destruct W as (_ & _ & _ & W1 & _). rewrite E in W1. destruct f as [| | |v|]; try discriminate.
    destruct (stream_mu_done (put_theta_lims s0 th) g (fr_c _ _ F) (fr_x _ _ F) (fr_y _ _ F) v) as (a & E' & Sa).
    exists a. split; [|exact Sa]. unfold s_aimed, stream_step. rewrite E'. reflexivity.
  - cbn. rewrite (fr_none _ _ F). reflexivity.
Qed.
Lemma s_held_sig : held (is_some (sk_sig k)) [nt g; nx g; ny g] (pa_sig_v (s_denote k)).
Proof.
  cbn [s_denote pa_sig_v]. destruct (sk_sig k) as [f|] eqn:E; cbn [is_some held].
  - destruct W as (_ & _ & _ & _ & W1). rewrite E in W1. destruct f as [| | | |sg]; try discriminate.
    destruct (stream_sig_done s0 g (fr_c _ _ F) sg) as (a & E' & Sa).
    exists a. split; [|exact Sa]. unfold s_run, stream_after, stream_step. cbn [one_call fold_left finish fst]. rewrite E'. reflexivity.
  - cbn. rewrite (fr_none _ _ F). reflexivity.
Qed.
End Query.

Lemma s_done k : forall x, done (is_some (sk_t k)) (is_some (sk_x k)) (is_some (sk_z k)) (is_some (sk_mu k)) (is_some (sk_sig k)) x = stream_done k x.
Proof. destruct x; reflexivity. Qed.

Lemma stream_marg h S (d lw : bool) : nonempty S = true ->
  out (all_done (needs_marg lw S) (stream_done (stream_history h))) (dims S g) (par_get_p L (stream_after L s0 h) (name S) d lw) /\
  out (all_done (needs_marg lw S) (stream_done (stream_history h))) (dims S g) (par_get_log_p L (stream_after L s0 h) (name S) d lw).
Proof.
  intros HS. rewrite s_after_denote. pose proof (s_well_history h) as W. rewrite <- (all_done_ext _ _ _ (s_done (stream_history h))).
  split; [apply o_get_p_marg|apply o_get_log_p_marg];
    first [exact HS | exact (fr_c _ _ F) | exact (fr_g _ _ F) | apply s_held_t; exact W | apply s_held_x; exact W | apply s_held_z; exact W
          | apply s_held_mu; exact W | apply s_held_sig; exact W].
Qed.
Lemma stream_cond h A C (d lw : bool) : nonempty A = true -> nonempty C = true -> disjoint A C = true ->
  out (all_done (needs_cond lw A C) (stream_done (stream_history h))) (dims A g ++ dims C g) (par_get_p L (stream_after L s0 h) (cname A C) d lw) /\
  out (all_done (needs_cond lw A C) (stream_done (stream_history h))) (dims A g ++ dims C g) (par_get_log_p L (stream_after L s0 h) (cname A C) d lw).
Proof.
  intros HA HC HD. rewrite s_after_denote. pose proof (s_well_history h) as W. rewrite <- (all_done_ext _ _ _ (s_done (stream_history h))).
  split; [apply o_get_p_cond|apply o_get_log_p_cond];
    first [exact HA | exact HC | exact HD | exact (fr_c _ _ F) | exact (fr_g _ _ F) | apply s_held_t; exact W | apply s_held_x; exact W | apply s_held_z; exact W
          | apply s_held_mu; exact W | apply s_held_sig; exact W].
Qed.
End Stream.
