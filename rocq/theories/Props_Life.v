(** * Props_Life: claim C54, histories of setter calls.

    [disk_after L s0 h] and [stream_after L s0 h] are what the calls [h] make of a
    new component [s0], exceptions being caught.  [disk_history h] and
    [stream_history h] (LifeSpec.v) are what should be remembered of [h]: the last
    accepted call of each setter and, for setters that vary with age, the call of
    set_p_t which was in force.  Queries between the calls change nothing
    (C12_parametric_query). *)
From Coq Require Import Reals Lra Lia List Bool Arith ZArith String Ascii.
From Verif Require Import Num NumLemmas Arr PyStr Cube Base Parametric GrowingDisk Stream Spec Repr Build ParMoments ParExample
  Life LifeSpec LifeShape LifeLemmas LifeClaims LifeExample.
Import ListNotations.
Local Open Scope R_scope.

(** ** queries before and after their setters: AttributeError unless every setter
    needed has been accepted, an array of the right shape otherwise *)
Theorem C54_disk_marginals : forall L s0 g, new_component s0 g -> forall h S (density lw : bool), nonempty S = true ->
  let ready := all_done (needs_marg lw S) (disk_done (disk_history h)) in
  (if ready then exists a, par_get_p L (disk_after L s0 h) (name S) density lw = Ok a /\ shp a = dims S g
   else par_get_p L (disk_after L s0 h) (name S) density lw = Err AttributeError) /\
  (if ready then exists a, par_get_log_p L (disk_after L s0 h) (name S) density lw = Ok a /\ shp a = dims S g
   else par_get_log_p L (disk_after L s0 h) (name S) density lw = Err AttributeError).
Proof. exact (fun L s0 g N => disk_marg L s0 g (new_fresh s0 g N)). Qed.
Print Assumptions C54_disk_marginals.
Theorem C54_disk_conditionals : forall L s0 g, new_component s0 g -> forall h A C (density lw : bool),
  nonempty A = true -> nonempty C = true -> disjoint A C = true ->
  let ready := all_done (needs_cond lw A C) (disk_done (disk_history h)) in
  (if ready then exists a, par_get_p L (disk_after L s0 h) (cname A C) density lw = Ok a /\ shp a = (dims A g ++ dims C g)%list
   else par_get_p L (disk_after L s0 h) (cname A C) density lw = Err AttributeError) /\
  (if ready then exists a, par_get_log_p L (disk_after L s0 h) (cname A C) density lw = Ok a /\ shp a = (dims A g ++ dims C g)%list
   else par_get_log_p L (disk_after L s0 h) (cname A C) density lw = Err AttributeError).
Proof. exact (fun L s0 g N => disk_cond L s0 g (new_fresh s0 g N)). Qed.
Print Assumptions C54_disk_conditionals.
(** after set_p_t and set_mu_v, p(t) is there and p(t,x) is not *)
Example C54_disk_queries_case :
  (exists a, par_get_p exL (disk_after exL expar0 [ex_early; ex_mu]) "t" false false = Ok a /\ shp a = [2%nat]) /\
  par_get_p exL (disk_after exL expar0 [ex_early; ex_mu]) "tx" false false = Err AttributeError /\
  par_get_p exL (disk_after exL expar0 [ex_early; ex_mu]) "v_tx" false false = Err AttributeError.
Proof.
  destruct ex_valid as (V1 & V2 & V3).
  assert (H : disk_history [ex_early; ex_mu] = DiskKnown (Some ex_early) None None (Some (ex_early, ex_mu)) None).
  { unfold disk_history. cbn [fold_left]. rewrite (learn_t _ ex_early) by exact V1.
    exact (learn_mu (DiskKnown (Some ex_early) None None None None) ex_early ex_mu V3 eq_refl). }
  split; [|split].
  - pose proof (proj1 (C54_disk_marginals exL _ _ exnew [ex_early; ex_mu] (VSet true false false false) false false eq_refl)) as K.
    rewrite H in K. exact K.
  - pose proof (proj1 (C54_disk_marginals exL _ _ exnew [ex_early; ex_mu] (VSet true false true false) false false eq_refl)) as K.
    rewrite H in K. exact K.
  - pose proof (proj1 (C54_disk_conditionals exL _ _ exnew [ex_early; ex_mu] (VSet false true false false) (VSet true false true false) false false eq_refl eq_refl eq_refl)) as K.
    rewrite H in K. exact K.
Qed.

(** ** what each call says, and rejected calls change nothing *)
Theorem C54_disk_calls : forall L s0 g, new_component s0 g -> forall h c,
  snd (disk_step L (disk_after L s0 h) c) = disk_sees (disk_history h) c.
Proof. exact (fun L s0 g N => disk_says L s0 g (new_fresh s0 g N)). Qed.
Print Assumptions C54_disk_calls.
Theorem C54_disk_rejected : forall L s0 g, new_component s0 g -> forall h c e,
  disk_sees (disk_history h) c = Err e -> fst (disk_step L (disk_after L s0 h) c) = disk_after L s0 h.
Proof. exact (fun L s0 g N => disk_rejected L s0 g (new_fresh s0 g N)). Qed.
Print Assumptions C54_disk_rejected.
Example C54_disk_calls_case : disk_step exL expar0 ex_mu = (expar0, Err AttributeError).
Proof.
  destruct ex_valid as (_ & _ & V).
  assert (H : disk_sees (disk_history []) ex_mu = Err AttributeError) by (unfold disk_sees; rewrite V; reflexivity).
  pose proof (C54_disk_calls exL _ _ exnew [] ex_mu) as H1. pose proof (C54_disk_rejected exL _ _ exnew [] ex_mu _ H) as H2.
  rewrite H in H1. cbn [disk_after fold_left] in H1, H2. rewrite (surjective_pairing (disk_step exL expar0 ex_mu)), H1, H2. reflexivity.
Qed.

(** ** the last call of each setter determines the component *)
(** histories of which the same is remembered make the same component *)
Theorem C54_disk_memory : forall L s0 g, new_component s0 g -> forall h h',
  disk_history h = disk_history h' -> disk_after L s0 h = disk_after L s0 h'.
Proof. exact (fun L s0 g N => disk_memory L s0 g (new_fresh s0 g N)). Qed.
Print Assumptions C54_disk_memory.
(** which the calls remembered, and no others, make as well *)
Theorem C54_disk_replay : forall L s0 g, new_component s0 g -> forall h,
  disk_after L s0 h = disk_after L s0 (disk_replay (disk_history h)).
Proof. exact (fun L s0 g N => disk_replays L s0 g (new_fresh s0 g N)). Qed.
Print Assumptions C54_disk_replay.
(** a call followed by an accepted call of its setter might as well not have been
    made, unless it is of set_p_t and a call in between varies with age *)
Theorem C54_disk_overwritten : forall L s0 g, new_component s0 g -> forall h1 c1 h2 c2, disk_setter c1 = disk_setter c2 ->
  (disk_setter c1 = Kt -> forall c, In c h2 -> uses_age c = false) ->
  disk_sees (disk_history (h1 ++ c1 :: h2)) c2 = Ok tt ->
  disk_after L s0 (h1 ++ c1 :: h2 ++ [c2]) = disk_after L s0 (h1 ++ h2 ++ [c2]).
Proof. exact (fun L s0 g N => disk_overwritten L s0 g (new_fresh s0 g N)). Qed.
Print Assumptions C54_disk_overwritten.
(** if everything that varies with age was called after the last set_p_t, one call
    of each setter suffices *)
Theorem C54_disk_in_order : forall L s0 g, new_component s0 g -> forall h,
  let k := disk_history h in
  (forall o, In o [LifeSpec.dk_x k; LifeSpec.dk_mu k; LifeSpec.dk_sig k] -> option_map fst o = LifeSpec.dk_t k \/ o = None) ->
  disk_after L s0 h = disk_after L s0 (one_call (LifeSpec.dk_t k) ++ one_call (option_map snd (LifeSpec.dk_x k)) ++
    one_call (LifeSpec.dk_z k) ++ one_call (option_map snd (LifeSpec.dk_mu k)) ++ one_call (option_map snd (LifeSpec.dk_sig k))).
Proof. exact (fun L s0 g N => disk_in_order L s0 g (new_fresh s0 g N)). Qed.
Print Assumptions C54_disk_in_order.
(** a second set_p_t in place of the first, and one that comes too late *)
Example C54_disk_last_case :
  disk_after exL expar0 [ex_early; ex_late; ex_mu] = disk_after exL expar0 [ex_late; ex_mu] /\
  (exists a, mean_v_tx (disk_after exL expar0 [ex_late; ex_mu]) = Ok a /\ ent a [1; 1; 0]%nat = Fin 0) /\
  (exists a, mean_v_tx (disk_after exL expar0 [ex_early; ex_mu; ex_late]) = Ok a /\ ent a [1; 1; 0]%nat = Fin 100).
Proof.
  split; [|exact (conj ex_mean_late ex_mean_stale)].
  destruct ex_valid as (V1 & V2 & _).
  change (fst (disk_step exL (disk_after exL expar0 ([] ++ ex_early :: [] ++ [ex_late])) ex_mu) =
          fst (disk_step exL (disk_after exL expar0 ([] ++ [] ++ [ex_late])) ex_mu)).
  rewrite (C54_disk_overwritten exL _ _ exnew [] ex_early [] ex_late); [reflexivity|reflexivity|intros _ c []|].
  unfold disk_sees. rewrite V2. reflexivity.
Qed.

(** ** streams: nothing varies with age *)
Theorem C54_stream_marginals : forall L s0 g, new_component s0 g -> forall h S (density lw : bool), nonempty S = true ->
  let ready := all_done (needs_marg lw S) (stream_done (stream_history h)) in
  (if ready then exists a, par_get_p L (stream_after L s0 h) (name S) density lw = Ok a /\ shp a = dims S g
   else par_get_p L (stream_after L s0 h) (name S) density lw = Err AttributeError) /\
  (if ready then exists a, par_get_log_p L (stream_after L s0 h) (name S) density lw = Ok a /\ shp a = dims S g
   else par_get_log_p L (stream_after L s0 h) (name S) density lw = Err AttributeError).
Proof. exact (fun L s0 g N => stream_marg L s0 g (new_fresh s0 g N)). Qed.
Print Assumptions C54_stream_marginals.
Theorem C54_stream_conditionals : forall L s0 g, new_component s0 g -> forall h A C (density lw : bool),
  nonempty A = true -> nonempty C = true -> disjoint A C = true ->
  let ready := all_done (needs_cond lw A C) (stream_done (stream_history h)) in
  (if ready then exists a, par_get_p L (stream_after L s0 h) (cname A C) density lw = Ok a /\ shp a = (dims A g ++ dims C g)%list
   else par_get_p L (stream_after L s0 h) (cname A C) density lw = Err AttributeError) /\
  (if ready then exists a, par_get_log_p L (stream_after L s0 h) (cname A C) density lw = Ok a /\ shp a = (dims A g ++ dims C g)%list
   else par_get_log_p L (stream_after L s0 h) (cname A C) density lw = Err AttributeError).
Proof. exact (fun L s0 g N => stream_cond L s0 g (new_fresh s0 g N)). Qed.
Print Assumptions C54_stream_conditionals.
Theorem C54_stream_calls : forall L s0 g, new_component s0 g -> forall h c,
  snd (stream_step L (stream_after L s0 h) c) = stream_sees (stream_history h) c.
Proof. exact (fun L s0 g N => stream_says L s0 g (new_fresh s0 g N)). Qed.
Print Assumptions C54_stream_calls.
(** a rejected call changes nothing, if it is not for want of points on the track *)
Theorem C54_stream_rejected : forall L s0 g, new_component s0 g -> forall h c e,
  stream_sees (stream_history h) c = Err e -> (match c with SPxt th _ _ _ => valid_angles th = false | _ => True end) ->
  fst (stream_step L (stream_after L s0 h) c) = stream_after L s0 h.
Proof. exact (fun L s0 g N => stream_rejected L s0 g (new_fresh s0 g N)). Qed.
Print Assumptions C54_stream_rejected.
Theorem C54_stream_memory : forall L s0 g, new_component s0 g -> forall h h',
  stream_history h = stream_history h' -> stream_after L s0 h = stream_after L s0 h'.
Proof. exact (fun L s0 g N => stream_memory L s0 g (new_fresh s0 g N)). Qed.
Print Assumptions C54_stream_memory.
(** a call followed by an accepted call of its setter might as well not have been
    made, unless it is of set_p_x_t and set_mu_v was called in between *)
Theorem C54_stream_overwritten : forall L s0 g, new_component s0 g -> forall h1 c1 h2 c2, stream_setter c1 = stream_setter c2 ->
  (stream_setter c1 = Kx -> forall c, In c h2 -> stream_setter c <> Kmu) ->
  stream_sees (stream_history (h1 ++ c1 :: h2)) c2 = Ok tt ->
  stream_after L s0 (h1 ++ c1 :: h2 ++ [c2]) = stream_after L s0 (h1 ++ h2 ++ [c2]).
Proof. exact (fun L s0 g N => stream_overwritten L s0 g (new_fresh s0 g N)). Qed.
Print Assumptions C54_stream_overwritten.
Example C54_stream_case :
  stream_after exL expar0 [ex_left; ex_right; ex_smu] = stream_after exL expar0 [ex_right; ex_smu] /\
  par_get_p exL (stream_after exL expar0 [ex_right; ex_smu]) "x" false false = Err AttributeError /\
  (exists a, par_get_p exL (stream_after exL expar0 [ex_right; ex_smu]) "x_t" false false = Ok a /\ shp a = [2; 1; 2]%nat).
Proof.
  destruct ex_angles as (A1 & A2).
  assert (H : stream_history [ex_right; ex_smu] = StreamKnown None (Some ex_right) (Some (0, PI / 2)) None (Some ((0, PI / 2), ex_smu)) None).
  { unfold stream_history, ex_right, ex_smu. cbn [fold_left stream_learn]. rewrite A1. reflexivity. }
  split; [|split].
  - change (fst (stream_step exL (stream_after exL expar0 ([] ++ ex_left :: [] ++ [ex_right])) ex_smu) =
            fst (stream_step exL (stream_after exL expar0 ([] ++ [] ++ [ex_right])) ex_smu)).
    rewrite (C54_stream_overwritten exL _ _ exnew [] ex_left [] ex_right); [reflexivity|reflexivity|intros _ c []|].
    unfold ex_right. cbn [stream_sees]. rewrite A1. reflexivity.
  - pose proof (proj1 (C54_stream_marginals exL _ _ exnew [ex_right; ex_smu] (VSet false false true false) false false eq_refl)) as K.
    rewrite H in K. exact K.
  - pose proof (proj1 (C54_stream_conditionals exL _ _ exnew [ex_right; ex_smu] (VSet false false true false) (VSet true false false false) false false eq_refl eq_refl eq_refl)) as K.
    rewrite H in K. exact K.
Qed.

(** ** where the claim fails *)
(** the mean velocity of a stream depends on a call of set_p_x_t which is not the
    last: [ex_right] and [ex_left] differ in their angles *)
Theorem C54_stream_angles_refuted : exists (s0 : par) (g : grid) h h' c a b,
  new_component s0 g /\ stream_setter c = Kmu /\
  h = [ex_right; c; ex_left] /\ h' = [ex_left; c] /\
  mean_v_tx (stream_after exL s0 h) = Ok a /\ mean_v_tx (stream_after exL s0 h') = Ok b /\
  ent a [1; 1; 0]%nat = Fin 10 /\ ent b [1; 1; 0]%nat = Fin 20.
Proof. exact stream_stale_refuted. Qed.
Print Assumptions C54_stream_angles_refuted.
(** a call of set_p_x_t which raises changes what a later set_mu_v does *)
Theorem C54_stream_failed_call_refuted : exists (s0 : par) (g : grid) h c c' a b,
  new_component s0 g /\ snd (stream_step exL (stream_after exL s0 h) c) = Err ValueError /\
  mean_v_tx (stream_after exL s0 (h ++ [c; c'])) = Ok a /\ mean_v_tx (stream_after exL s0 (h ++ [c'])) = Ok b /\
  ent a [1; 1; 0]%nat = Fin 20 /\ ent b [1; 1; 0]%nat = Fin 10.
Proof. exact stream_failed_refuted. Qed.
Print Assumptions C54_stream_failed_call_refuted.
