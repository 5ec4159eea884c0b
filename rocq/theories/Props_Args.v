(** * Props_Args: claim C106, arguments left out and lists handed over.

    Calls with [None] for what is left out (Args.v); the lists given to a Stream
    are objects, which the caller and the stream share.  [said lists i h] are the
    calls of stream i with the entries the lists had when they were made,
    [entries lists h] the entries after the events h, and [untouched lists i None h]
    says that no list was edited while stream i kept it (ArgsSpec.v). *)
From Coq Require Import Reals Lra Lia List Bool Arith ZArith String Ascii.
From Verif Require Import Num NumLemmas Arr PyStr Cube Base Parametric GrowingDisk Stream Spec Repr Build ParSpec ParSetSpec ParRepr ParSetLemmas ParBuild ParClaims ParExample ParMoments
  Life LifeSpec LifeLemmas LifeClaims LifeExample Args ArgsSpec ArgsClaims ArgsModel ArgsExample.
Import ListNotations.
Local Open Scope R_scope.

(** ** disks: set_p_t needs lmd and phi; without them it raises TypeError and changes nothing *)
Theorem C106_disk_missing : forall L s k e,
  (disk_fill k = Err e -> e = TypeError /\ exists lmd phi se, k = KPt lmd phi se /\ (lmd = None \/ phi = None)) /\
  (forall lmd phi se, lmd = None \/ phi = None -> disk_kw_step L s (KPt lmd phi se) = (s, Err TypeError)).
Proof. exact (fun L s k e => conj (fill_error k e) (missing L s)). Qed.
Print Assumptions C106_disk_missing.
(** the other setters may be called without arguments: their defaults are valid *)
Theorem C106_disk_defaults : forall c,
  In c [KPxt None None None; KTdep None None None None None None; KMu None None None; KSig None None None None None None] ->
  exists d, disk_fill c = Ok d /\ disk_valid d = true /\ disk_setter d <> Kt.
Proof. exact default_valid. Qed.
Print Assumptions C106_disk_defaults.
(** a history with arguments left out is the history with them filled in *)
Theorem C106_disk_history : forall L s h, disk_kw_after L s h = disk_after L s (filled h).
Proof. exact (fun L s h => kw_after L h s). Qed.
Print Assumptions C106_disk_history.
(** after a valid set_p_t and the other setters without arguments, in any order and
    any number of times, every query succeeds *)
Theorem C106_disk_queries : forall L s0 g, new_component s0 g -> forall lmd phi se h S (density lw : bool),
  valid_sfh lmd phi = true -> incl default_setters h -> incl h default_setters -> nonempty S = true ->
  exists a, par_get_p L (disk_kw_after L s0 (KPt (Some lmd) (Some phi) se :: h)) (name S) density lw = Ok a /\ shp a = dims S g.
Proof. exact (fun L s0 g N => default_queries L s0 g (new_fresh s0 g N)). Qed.
Print Assumptions C106_disk_queries.
Example C106_disk_case :
  disk_kw_step exL expar0 (KPt (Some 4) None None) = (expar0, Err TypeError) /\
  disk_fill (KMu None None (Some (10, 20))) = Ok (DMu (5 / 10, 5 / 10) (1 / 10, 1) (10, 20)) /\
  exists a, par_get_p exL (disk_kw_after exL expar0 (KPt (Some 4) (Some (1 / 2)) None :: default_setters)) "tvxz" true true = Ok a /\
    shp a = [2; 2; 2; 1; 2]%nat.
Proof.
  split; [reflexivity|]. split; [reflexivity|].
  apply (C106_disk_queries exL expar0 exg exnew 4 (1 / 2) None default_setters (VSet true true true true) true true); try reflexivity.
  - unfold valid_sfh. apply orb_true_iff. left. apply Rltb_true. lra.
  - apply incl_refl.
  - apply incl_refl.
Qed.

(** and the component is the disk of the documented values, a proper model *)
Theorem C106_disk_default_model : forall L c g X0 Y0 x0 y0 rot lmd phi,
  cube_on c g -> good_grid g -> cube_xy c g X0 Y0 -> sfh_ok L (default_sfh lmd phi) -> good_norm (norm_cdf L) ->
  forall s0 h, par_init c (x0, y0) rot = Ok s0 -> incl default_setters h -> incl h default_setters ->
  (exists x y, (x < nx g)%nat /\ (y < ny g)%nat /\ cos rot * (X0 x y - x0) <> sin rot * (Y0 x y - y0)) ->
  exists self m, disk_kw_after L s0 (KPt (Some lmd) (Some phi) None :: h) = self /\
    build_disk L c (x0, y0) rot (default_sfh lmd phi) default_disk = Ok self /\ par_on L self g m /\ good_par g m.
Proof. exact default_disk_model. Qed.
Print Assumptions C106_disk_default_model.
Example C106_disk_default_model_case : exists self m,
  disk_kw_after exL expar0 (KPt (Some 3) (Some (2 / 3)) None :: rev default_setters ++ default_setters) = self /\
  build_disk exL excube (1, 1 / 2) 0 (default_sfh 3 (2 / 3)) default_disk = Ok self /\ par_on exL self exg m /\ good_par exg m.
Proof.
  apply (C106_disk_default_model exL excube exg exX exY 1 (1 / 2) 0 3 (2 / 3) excube_on exg_good excube_xy exsfh_default exL_norm expar0 _ expar0_init).
  - intros x Hx. apply in_or_app. right. exact Hx.
  - intros x Hx. apply in_app_or in Hx. destruct Hx as [Hx|Hx]; [apply in_rev; exact Hx|exact Hx].
  - exact ex_off_axis.
Qed.

(** ** streams: if no list is edited while a stream keeps it, handing over lists is
    as good as handing over their entries, whatever other streams do *)
Theorem C106_stream_values : forall L s0 g, (forall i, new_component (s0 i) (g i)) -> forall i lists h,
  untouched lists i None h ->
  let w := world_after L (new_world lists s0) h in
  look (w_list w) (w_stream w i) = stream_after L (s0 i) (said lists i h).
Proof. exact (fun L s0 g N i => handed_over L s0 g (fun j => new_fresh _ _ (N j)) i). Qed.
Print Assumptions C106_stream_values.
Theorem C106_stream_calls : forall L s0 g, (forall i, new_component (s0 i) (g i)) -> forall i lists h k c,
  untouched lists i None h ->
  let w := world_after L (new_world lists s0) h in
  stream_fill (w_list w) k = Ok c -> snd (world_step L w (Call i k)) = stream_sees (stream_history (said lists i h)) c.
Proof. exact (fun L s0 g N i => handed_over_says L s0 g (fun j => new_fresh _ _ (N j)) i). Qed.
Print Assumptions C106_stream_calls.
(** no setter edits a list *)
Theorem C106_stream_lists : forall L w h r, w_list (world_after L w h) r = entries (w_list w) h r.
Proof. exact (fun L w h r => entries_ok L h w r). Qed.
Print Assumptions C106_stream_lists.
(** whatever is edited, only the angles and mean velocities can be others *)
Theorem C106_stream_edits : forall L s0 g, (forall i, new_component (s0 i) (g i)) -> forall i lists h,
  let w := world_after L (new_world lists s0) h in let p := look (w_list w) (w_stream w i) in
  let q := stream_after L (s0 i) (said lists i h) in
  p = Par (pa_cube q) (pa_xxp q) (pa_yyp q) (pa_zgrid q) (pa_t_pars q) (pa_log_p_t q) (pa_log_p_x_t q) (pa_t_dep q)
        (pa_log_p_z_tx q) (pa_mu_v p) (pa_sig_v q) (pa_theta_lims p).
Proof. exact (fun L s0 g N i => edits_harmless L s0 g (fun j => new_fresh _ _ (N j)) i). Qed.
Print Assumptions C106_stream_edits.
Theorem C106_stream_marginals : forall L s0 g, (forall i, new_component (s0 i) (g i)) -> forall i lists h S (density lw : bool),
  has_v S = false -> nonempty S = true ->
  let w := world_after L (new_world lists s0) h in
  par_get_p L (look (w_list w) (w_stream w i)) (name S) density lw =
  par_get_p L (stream_after L (s0 i) (said lists i h)) (name S) density lw.
Proof. exact (fun L s0 g N => marginals_no_v L s0 g (fun j => new_fresh _ _ (N j))). Qed.
Print Assumptions C106_stream_marginals.
(** a stream set up with defaults answers every query *)
Theorem C106_stream_queries : forall L s0 g, (forall i, new_component (s0 i) (g i)) -> forall i lmd phi S (density lw : bool),
  valid_sfh lmd phi = true -> nonempty S = true ->
  let w := world_after L (new_world default_lists s0) (default_stream i lmd phi) in
  exists a, par_get_p L (look (w_list w) (w_stream w i)) (name S) density lw = Ok a /\ shp a = dims S (g i).
Proof. exact (fun L s0 g N i lmd phi S d lw => default_stream_marg L s0 g i lmd phi S d lw (fun j => new_fresh _ _ (N j))). Qed.
Print Assumptions C106_stream_queries.
(** and is the stream of the documented values, whatever other streams do, if no
    list is edited *)
Theorem C106_stream_default_model : forall L c g X0 Y0 x0 y0 rot lmd phi,
  cube_on c g -> good_grid g -> cube_xy c g X0 Y0 -> sfh_ok L (default_sfh lmd phi) -> good_norm (norm_cdf L) ->
  forall s0 gs i h, (forall j, new_component (s0 j) (gs j)) -> par_init c (x0, y0) rot = Ok (s0 i) ->
  (forall r v, ~ In (Edit r v) h) -> filter (of_stream i) h = default_stream i lmd phi ->
  let w := world_after L (new_world default_lists s0) h in
  exists self m, look (w_list w) (w_stream w i) = self /\
    build_stream L c (x0, y0) rot (default_sfh lmd phi) default_track = Ok self /\ par_on L self g m /\ good_par g m.
Proof. exact default_stream_model. Qed.
Print Assumptions C106_stream_default_model.
Example C106_stream_default_model_case :
  let h := Call 1 (TMu (Some 0%nat)) :: default_stream 0 3 (2 / 3) ++ [Call 1 (TPxt (Some 2%nat) None None None)] in
  let w := world_after exL (new_world default_lists exs0) h in
  exists self m, look (w_list w) (w_stream w 0) = self /\
    build_stream exL excube (1, 1 / 2) 0 (default_sfh 3 (2 / 3)) default_track = Ok self /\ par_on exL self exg m /\ good_par exg m.
Proof.
  apply (C106_stream_default_model exL excube exg exX exY 1 (1 / 2) 0 3 (2 / 3) excube_on exg_good excube_xy exsfh_default exL_norm exs0 exgs 0%nat).
  - intros j. exact exnew.
  - exact expar0_init.
  - intros r v. cbn. intuition discriminate.
  - reflexivity.
Qed.
Example C106_stream_case :
  let h := [Call 1 (TPxt (Some 3%nat) None None None); Call 0 (TMu None); Call 1 (TMu (Some 4%nat)); Edit 4 (1, 2); Edit 0 (0, 5)] in
  untouched ex_lists 1 None h /\
  said ex_lists 1 h = [SPxt (0, PI / 2) (7 / 10, 1 / 10) (3 / 100) 75; SMu (10, 20)] /\
  w_list (world_after exL (new_world ex_lists exs0) h) 4 = (1, 2) /\
  snd (world_step exL (world_after exL (new_world ex_lists exs0) h) (Call 1 (TPxt None None None None))) = Err AssertionError.
Proof.
  cbv zeta. assert (U : untouched ex_lists 1 None [Call 1 (TPxt (Some 3%nat) None None None); Call 0 (TMu None); Call 1 (TMu (Some 4%nat)); Edit 4 (1, 2); Edit 0 (0, 5)]).
  { cbn [untouched]. change (valid_angles (ex_lists 3)) with (valid_angles (0, PI / 2)). rewrite default_angles. cbn. repeat split; discriminate. }
  split; [exact U|]. split; [reflexivity|]. split; [rewrite C106_stream_lists; reflexivity|].
  rewrite (C106_stream_calls exL exs0 exgs (fun _ => exnew) 1%nat ex_lists _ (TPxt None None None None)
             (SPxt (0, 5) (7 / 10, 1 / 10) (3 / 100) 75) U).
  - cbn [stream_sees]. rewrite five_wide. reflexivity.
  - cbn [stream_fill or_else]. rewrite !C106_stream_lists. reflexivity.
Qed.

(** ** where the claim fails *)
(** the caller edits the list given to set_p_x_t before calling set_mu_v *)
Theorem C106_caller_list_refuted : exists lists h a b,
  let w := world_after exL (new_world lists exs0) h in
  mean_v_tx (look (w_list w) (w_stream w 0)) = Ok a /\
  mean_v_tx (stream_after exL (exs0 0) (said lists 0 h)) = Ok b /\
  ent a [1; 1; 0]%nat = Fin 20 /\ ent b [1; 1; 0]%nat = Fin 10.
Proof. exact (ex_intro _ ex_lists (ex_intro _ ex_edit caller_list_refuted)). Qed.
Print Assumptions C106_caller_list_refuted.
(** editing theta_lims of a stream which has the default angles breaks the default
    of every other stream *)
Theorem C106_default_list_refuted :
  let w0 := new_world default_lists exs0 in let w := world_after exL w0 ex_spoil in
  snd (world_step exL w0 (Call 1 (TPxt None None None None))) = Ok tt /\
  snd (w_stream w 0) = Some theta_default /\ w_stream w 1 = w_stream w0 1 /\
  snd (world_step exL w (Call 1 (TPxt None None None None))) = Err AssertionError.
Proof. exact default_list_refuted. Qed.
Print Assumptions C106_default_list_refuted.
