(** * Props_Rec: what a disk and a stream keep for the record (claim C105). *)
From Coq Require Import Reals Lra Lia List Bool Arith ZArith String Ascii.
From Verif Require Import Num NumLemmas Arr PyStr Cube Base Parametric GrowingDisk Stream Spec Repr Build ParSpec ParMoments ParExample
  Life LifeSpec LifeClaims LifeExample Recs RecSpec RecClaims RecExample.
Import ListNotations.
Local Open Scope string_scope.
Local Open Scope R_scope.

(** ** disks *)
(** t_pars, x_t_pars, t_dep_pars, mu_v_pars and sig_v_pars are the arguments of
    the last accepted call of their setters; keeping them changes nothing else *)
Theorem C105_disk_records : forall L s0 g, new_component s0 g -> forall h,
  let s := disk_recs_after L (disk_recs_new s0) h in let k := disk_history h in
  dr_self s = disk_after L s0 h /\
  option_map (fun n => (tn_lmd n, tn_phi n)) (dr_t_pars s) = said_p_t k /\
  dr_x_t_pars s = said_p_x_t k /\ dr_t_dep_pars s = said_t_dep k /\
  dr_mu_v_pars s = said_mu_v k /\ dr_sig_v_pars s = said_sig_v k.
Proof. exact (fun L s0 g N => recs_claim L s0 g (new_fresh s0 g N)). Qed.
Print Assumptions C105_disk_records.
Theorem C105_disk_calls : forall L s0 g, new_component s0 g -> forall h c,
  snd (disk_rec_step L (disk_recs_after L (disk_recs_new s0) h) c) = disk_sees (disk_history h) c.
Proof. exact (fun L s0 g N => recs_says L s0 g (new_fresh s0 g N)). Qed.
Print Assumptions C105_disk_calls.
(** p_t, p_x_t and p_z_tx are there once their setters have been called, and are
    what get_p returns *)
Theorem C105_disk_densities : forall L s0 g, new_component s0 g -> forall h,
  let s := disk_recs_after L (disk_recs_new s0) h in
  par_get_p L (dr_self s) "t" true false = attr (dr_p_t s) /\
  (forall a, dr_p_x_t s = Some a -> par_get_p L (dr_self s) "x_t" true false = Ok a) /\
  (forall a, dr_p_z_tx s = Some a -> par_get_p L (dr_self s) "z_tx" true false = Ok a) /\
  is_some (dr_p_t s) = disk_done (disk_history h) Kt /\
  is_some (dr_p_x_t s) = disk_done (disk_history h) Kx /\
  is_some (dr_p_z_tx s) = disk_done (disk_history h) Kz.
Proof. exact (fun L s0 g N => recs_densities L s0 g (new_fresh s0 g N)). Qed.
Print Assumptions C105_disk_densities.
(** idx_start_end counts the bins from one: it is one more than the index of the
    bin which holds the start, or the end, of star formation, and one more than
    the number of bins if star formation ends with the last *)
Theorem C105_disk_bins : forall L s0 g, new_component s0 g -> forall h n tp,
  let s := disk_recs_after L (disk_recs_new s0) h in
  dr_t_pars s = Some n -> pa_t_pars (dr_self s) = Some tp ->
  forall x i, (i < nt g)%nat ->
  (tp_start tp = Fin x -> holds (tE g) i x -> fst (tn_idx n) = S i) /\
  (tp_end tp = Fin x -> holds (tE g) i x -> snd (tn_idx n) = S i) /\
  (tp_end tp = Fin (tE g (nt g)) -> snd (tn_idx n) = S (nt g)).
Proof. exact (fun L s0 g N => recs_bins L s0 g (new_fresh s0 g N)). Qed.
Print Assumptions C105_disk_bins.
Example C105_disk_case :
  let s := disk_recs_after exL (disk_recs_new expar0) ex_h in
  dr_x_t_pars s = None /\ dr_t_dep_pars s = Some (1 / 2, 1, 2, 5) /\
  dr_mu_v_pars s = Some ((1, 1), (1 / 2, 1 / 2), (0, 100)) /\
  is_some (dr_p_t s) = true /\ is_some (dr_p_x_t s) = false /\ is_some (dr_p_z_tx s) = true.
Proof.
  cbv zeta. pose proof (C105_disk_records exL expar0 exg exnew ex_h) as (_ & _ & H2 & H3 & H4 & _).
  pose proof (C105_disk_densities exL expar0 exg exnew ex_h) as (_ & _ & _ & D1 & D2 & D3).
  rewrite H2, H3, H4, D1, D2, D3, ex_h_history. repeat split.
Qed.
(** star formation from age 0 to age 2, in bins with edges 0, 1 and 3 *)
Example C105_bins_case :
  option_map tn_idx (dr_t_pars (disk_recs_after exL (disk_recs_new expar0) [ex_early])) = Some (1, 2)%nat.
Proof.
  pose proof (C105_disk_records exL expar0 exg exnew [ex_early]) as (Hs & Ht & _). cbv zeta in *.
  destruct (ex_early_ages) as (tp & Et & E1 & E2).
  assert (Hk : disk_history [ex_early] = DiskKnown (Some ex_early) None None None None).
  { unfold disk_history. cbn [fold_left]. apply (learn_t disk_nothing ex_early (proj1 ex_valid)). }
  rewrite Hk in Ht. destruct (dr_t_pars _) as [n|] eqn:En; [|discriminate]. cbn [option_map]. f_equal.
  rewrite <- Hs in Et.
  pose proof (C105_disk_bins exL expar0 exg exnew [ex_early] n tp En Et 0 0%nat) as B1.
  pose proof (C105_disk_bins exL expar0 exg exnew [ex_early] n tp En Et 2 1%nat) as B2.
  destruct (tn_idx n) as [i j]. cbn [fst snd] in *. destruct B1 as (B1 & _); [cbn; lia|]. destruct B2 as (_ & B2 & _); [cbn; lia|].
  rewrite (B1 E1), (B2 E2); [reflexivity|unfold holds; cbn; lra|unfold holds; cbn; lra].
Qed.

(** calling a setter again with what is recorded changes nothing, if set_p_t has
    not been called since; the bounds t_dep_min, t_dep_max, sigma_max and
    sigma_min, which are not recorded, do not matter *)
Theorem C105_disk_again : forall L s0 g, new_component s0 g -> forall h,
  let s := disk_recs_after L (disk_recs_new s0) h in let k := disk_history h in
  (forall n, dr_t_pars s = Some n -> default_quantiles k -> disk_rec_step L s (again_p_t n) = (s, Ok tt)) /\
  (forall r, dr_x_t_pars s = Some r -> option_map fst (LifeSpec.dk_x k) = LifeSpec.dk_t k -> disk_rec_step L s (again_p_x_t r) = (s, Ok tt)) /\
  (forall r, dr_t_dep_pars s = Some r -> disk_rec_step L s (again_t_dep r) = (s, Ok tt)) /\
  (forall r, dr_mu_v_pars s = Some r -> option_map fst (LifeSpec.dk_mu k) = LifeSpec.dk_t k -> disk_rec_step L s (again_mu_v r) = (s, Ok tt)) /\
  (forall r, dr_sig_v_pars s = Some r -> option_map fst (LifeSpec.dk_sig k) = LifeSpec.dk_t k -> disk_rec_step L s (again_sig_v r) = (s, Ok tt)).
Proof. exact (fun L s0 g N => recs_again L s0 g (new_fresh s0 g N)). Qed.
Print Assumptions C105_disk_again.
(** the records of a disk whose setters were called in order make it again from a
    new component, if set_p_t was called with the default quantiles *)
Theorem C105_disk_restore : forall L s0 g, new_component s0 g -> forall h,
  let s := disk_recs_after L (disk_recs_new s0) h in
  in_order (disk_history h) -> default_quantiles (disk_history h) ->
  disk_recs_after L (disk_recs_new s0) (disk_again s) = s.
Proof. exact (fun L s0 g N => recs_restore L s0 g (new_fresh s0 g N)). Qed.
Print Assumptions C105_disk_restore.
Example C105_again_case :
  let s := disk_recs_after exL (disk_recs_new expar0) ex_h in
  disk_rec_step exL s (DTdep (1 / 2) 1 2 5 (1 / 10) 13) = (s, Ok tt) /\
  disk_again s = [ex_default; DTdep (1 / 2) 1 2 5 (1 / 10) 13; ex_mu] /\
  disk_recs_after exL (disk_recs_new expar0) (disk_again s) = s.
Proof.
  cbv zeta. pose proof (C105_disk_records exL expar0 exg exnew ex_h) as (_ & H1 & H2 & H3 & H4 & H5).
  rewrite ex_h_history in *. split; [|split].
  - pose proof (C105_disk_again exL expar0 exg exnew ex_h) as (_ & _ & H & _). apply (H (1 / 2, 1, 2, 5)). exact H3.
  - unfold disk_again. rewrite H2, H3, H4, H5. destruct (dr_t_pars _) as [n|]; [|discriminate].
    cbn [option_map said_p_t LifeSpec.dk_t ex_default] in H1. injection H1 as E1 E2. unfold opt_call at 1, again_p_t. rewrite E1, E2. reflexivity.
  - apply (C105_disk_restore exL expar0 exg exnew ex_h).
    + rewrite ex_h_history. unfold in_order. cbn. intros o [<-|[<-|[<-|[]]]]; [right; reflexivity|left; reflexivity|right; reflexivity].
    + rewrite ex_h_history. reflexivity.
Qed.

(** ** streams *)
(** p_x_pars, nsmp and theta_lims are those of the last call of set_p_x_t whose
    angles are valid, mu_v_lims of the last accepted call of set_mu_v *)
Theorem C105_stream_records : forall L s0 g, new_component s0 g -> forall h,
  let s := stream_recs_after L (stream_recs_new s0) h in
  sr_self s = stream_after L s0 h /\
  option_map (fun n => (tn_lmd n, tn_phi n)) (sr_t_pars s) = s_said_p_t (stream_history h) /\
  sr_p_x_pars s = last_track h /\ sr_nsmp s = option_map snd (last_track h) /\
  pa_theta_lims (sr_self s) = option_map (fun r => fst (fst (fst r))) (last_track h) /\
  sr_mu_v_lims s = said_lims (stream_history h).
Proof. exact (fun L s0 g N => s_recs_claim L s0 g (new_fresh s0 g N)). Qed.
Print Assumptions C105_stream_records.
Theorem C105_stream_densities : forall L s0 g, new_component s0 g -> forall h,
  let s := stream_recs_after L (stream_recs_new s0) h in
  par_get_p L (sr_self s) "t" true false = attr (sr_p_t s) /\
  (forall a, sr_p_z_tx s = Some a -> par_get_p L (sr_self s) "z_tx" true false = Ok a) /\
  is_some (sr_p_t s) = stream_done (stream_history h) Kt /\
  is_some (sr_p_z_tx s) = stream_done (stream_history h) Kz.
Proof. exact (fun L s0 g N => s_recs_densities L s0 g (new_fresh s0 g N)). Qed.
Print Assumptions C105_stream_densities.
(** calling set_p_x_t again with p_x_pars changes nothing if it asks for points,
    nor does set_mu_v with mu_v_lims if the angles are still those in force *)
Theorem C105_stream_again : forall L s0 g, new_component s0 g -> forall h,
  let s := stream_recs_after L (stream_recs_new s0) h in
  (forall r, sr_p_x_pars s = Some r -> snd r <> O -> stream_rec_step L s (again_track r) = (s, Ok tt)) /\
  (forall v, sr_mu_v_lims s = Some v -> option_map fst (LifeSpec.sk_mu (stream_history h)) = pa_theta_lims (sr_self s) ->
     stream_rec_step L s (again_lims v) = (s, Ok tt)).
Proof. exact (fun L s0 g N => s_recs_again L s0 g (new_fresh s0 g N)). Qed.
Print Assumptions C105_stream_again.
Example C105_stream_case :
  let s := stream_recs_after exL (stream_recs_new expar0) [ex_left; ex_right; ex_smu] in
  sr_p_x_pars s = Some (0, PI / 2, (1, 2), 1 / 10, 3%nat) /\ sr_mu_v_lims s = Some (10, 20) /\
  stream_rec_step exL s ex_right = (s, Ok tt) /\ stream_rec_step exL s ex_smu = (s, Ok tt).
Proof.
  cbv zeta. destruct ex_angles as (A1 & A2).
  pose proof (C105_stream_records exL expar0 exg exnew [ex_left; ex_right; ex_smu]) as (_ & _ & H1 & _ & H2 & H3).
  pose proof (C105_stream_again exL expar0 exg exnew [ex_left; ex_right; ex_smu]) as (G1 & G2). cbv zeta in *.
  assert (Hl : last_track [ex_left; ex_right; ex_smu] = Some (0, PI / 2, (1, 2), 1 / 10, 3%nat)).
  { unfold ex_left, ex_right, ex_smu. cbn [last_track]. rewrite A1. reflexivity. }
  assert (Hk : stream_history [ex_left; ex_right; ex_smu] =
    StreamKnown None (Some ex_right) (Some (0, PI / 2)) None (Some ((0, PI / 2), ex_smu)) None).
  { unfold stream_history, ex_left, ex_right, ex_smu. cbn [fold_left stream_learn]. rewrite A1, A2. reflexivity. }
  rewrite Hl in *. rewrite Hk in *. split; [exact H1|]. split; [exact H3|]. split.
  - apply (G1 (0, PI / 2, (1, 2), 1 / 10, 3%nat)); [exact H1|discriminate].
  - apply (G2 (10, 20)); [exact H3|]. rewrite H2. reflexivity.
Qed.

(** ** where the records do not suffice *)
(** the quantiles of set_p_t are not recorded *)
Theorem C105_quantiles_refuted : exists (s0 : par) (g : grid) h a b,
  let s := disk_recs_after exL (disk_recs_new s0) h in
  new_component s0 g /\ in_order (disk_history h) /\
  mean_v_tx (dr_self s) = Ok a /\ mean_v_tx (disk_after exL s0 (disk_again s)) = Ok b /\
  ent a [1; 1; 0]%nat <> ent b [1; 1; 0]%nat.
Proof. exact quantiles_refuted. Qed.
Print Assumptions C105_quantiles_refuted.
(** what varies with age keeps the ages of the call of set_p_t it was made with,
    so that set_mu_v with its own record gives other velocities *)
Theorem C105_order_refuted : exists (s0 : par) (g : grid) h r a b,
  let s := disk_recs_after exL (disk_recs_new s0) h in
  new_component s0 g /\ dr_mu_v_pars s = Some r /\ snd (disk_rec_step exL s (again_mu_v r)) = Ok tt /\
  mean_v_tx (dr_self s) = Ok a /\ mean_v_tx (dr_self (fst (disk_rec_step exL s (again_mu_v r)))) = Ok b /\
  ent a [1; 1; 0]%nat = Fin 100 /\ ent b [1; 1; 0]%nat = Fin 0.
Proof. exact order_refuted. Qed.
Print Assumptions C105_order_refuted.
(** a call of set_p_x_t of a stream which raises leaves the density as it was and
    its own parameters in p_x_pars *)
Theorem C105_track_refuted : exists (s0 : par) (g : grid) h c r,
  let s := stream_recs_after exL (stream_recs_new s0) h in
  let s' := fst (stream_rec_step exL s c) in
  new_component s0 g /\ snd (stream_rec_step exL s c) = Err ValueError /\
  pa_log_p_x_t (sr_self s') = pa_log_p_x_t (sr_self s) /\ pa_log_p_x_t (sr_self s) <> None /\
  sr_p_x_pars s' = Some r /\ sr_p_x_pars s <> Some r /\ snd (stream_rec_step exL s' (again_track r)) = Err ValueError.
Proof. exact track_refuted. Qed.
Print Assumptions C105_track_refuted.
