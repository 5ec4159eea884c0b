(** * RecClaims: the records kept by disks and streams (claim C105). *)
From Coq Require Import Reals Lra Lia List Bool Arith ZArith String Ascii.
From Verif Require Import Num NumLemmas Arr ArrLemmas PyStr Cube Base Parametric GrowingDisk Stream Spec SpecLemmas Repr
  CubeLemmas CubeGeom CondLemmas BaseLemmas DistLemmas ParSpec ParRepr ParSetLemmas ParEnrich ParLemmas ParticleLemmas
  Life LifeSpec LifeShape LifeLemmas LifeClaims Recs RecSpec.
Import ListNotations.
Local Open Scope string_scope.
Local Open Scope list_scope.
Local Open Scope R_scope.

(** ** what the three exponentials are *)
Lemma get_t L s : par_get_p L s "t" true false = attr (exp_attr (pa_log_p_t s)).
Proof. unfold par_get_p, exp_attr, get_p_of, get_log_p_of, get_log_marginal. cbn. unfold p_t, t_mw. destruct (pa_log_p_t s); reflexivity. Qed.
(** a conditional not yet there is looked for in the joint *)
Lemma get_x_t L s a : exp_attr (pa_log_p_x_t s) = Some a -> par_get_p L s "x_t" true false = Ok a.
Proof.
  unfold exp_attr. destruct (pa_log_p_x_t s) as [b|] eqn:E; [|discriminate]. cbn [option_map]. intros [= <-].
  assert (E1 : p_x_t s true false = Ok b) by (unfold p_x_t, x_t_mw; rewrite E; reflexivity).
  pose proof (log_cond_special L s "x_t" (p_x_t s) true false b eq_refl eq_refl (ex_intro _ _ (ex_intro _ _ eq_refl)) E1) as E'.
  unfold par_get_p, get_p_of, get_log_p_of. change (has_char "_" "x_t") with true. cbn iota. rewrite E'. reflexivity.
Qed.
Lemma get_z_tx L s a : exp_attr (pa_log_p_z_tx s) = Some a -> par_get_p L s "z_tx" true false = Ok a.
Proof.
  unfold exp_attr. destruct (pa_log_p_z_tx s) as [b|] eqn:E; [|discriminate]. cbn [option_map]. intros [= <-].
  assert (E1 : p_z_tx s true false = Ok b) by (unfold p_z_tx, z_tx_mw; rewrite E; reflexivity).
  pose proof (log_cond_special L s "z_tx" (p_z_tx s) true false b eq_refl eq_refl (ex_intro _ _ (ex_intro _ _ eq_refl)) E1) as E'.
  unfold par_get_p, get_p_of, get_log_p_of. change (has_char "_" "z_tx") with true. cbn iota. rewrite E'. reflexivity.
Qed.

(** ** np.digitize *)
Lemma count_seq i m : forall k, (i <= m)%nat ->
  List.length (filter (fun j => (j <? k + i)%nat) (seq k m)) = i.
Proof.
  revert i. induction m as [|m IH]; intros i k Hi; [replace i with O by lia; reflexivity|].
  cbn [seq filter]. destruct i as [|i].
  - destruct (Nat.ltb_spec k (k + 0)); [lia|].
    transitivity (List.length (filter (fun j => (j <? S k + 0)%nat) (seq (S k) m))); [|apply IH; lia]. f_equal. apply filter_ext_in. intros j Hj. apply in_seq in Hj.
    destruct (Nat.ltb_spec j (k + 0)), (Nat.ltb_spec j (S k + 0)); lia.
  - destruct (Nat.ltb_spec k (k + S i)); [|lia]. cbn [List.length]. f_equal.
    transitivity (List.length (filter (fun j => (j <? S k + i)%nat) (seq (S k) m))); [|apply IH; lia]. f_equal. apply filter_ext. intros j. f_equal. lia.
Qed.
Lemma digitize_count (a : arr num) n e i x : shp a = [n] -> (forall j, (j < n)%nat -> ent a [j] = Fin (e j)) ->
  (i <= n)%nat -> (forall j, (j < i)%nat -> e j <= x) -> (forall j, (i <= j < n)%nat -> x < e j) ->
  digitize a (Fin x) = i.
Proof.
  intros Sa Ea Hi Hlo Hhi. unfold digitize. cbn [is_nan]. unfold to_list, len0. rewrite Sa. cbn [hd].
  transitivity (List.length (filter (fun j => (j <? i)%nat) (seq 0 n))); [|apply (count_seq i n 0 Hi)].
  assert (H : forall l, (forall j, In j l -> (j < n)%nat) ->
    List.length (filter (fun b => nle b (Fin x)) (map (fun j => ent a [j]) l)) = List.length (filter (fun j => (j <? i)%nat) l)).
  { induction l as [|j l IH]; intros Hl; [reflexivity|]. cbn [map filter]. rewrite (Ea j) by (apply Hl; left; reflexivity).
    assert (Hj : (j < n)%nat) by (apply Hl; left; reflexivity).
    rewrite nle_Fin. assert (E : Rleb (e j) x = (j <? i)%nat).
    { destruct (Nat.ltb_spec j i) as [K|K].
      - apply Rleb_true. apply Hlo, K.
      - unfold Rleb. destruct (Rle_dec (e j) x) as [K2|K2]; [|reflexivity]. specialize (Hhi j ltac:(lia)). lra. }
    rewrite E. destruct (j <? i)%nat; cbn [List.length]; rewrite IH; auto; intros; apply Hl; right; assumption. }
  apply H. intros j Hj. apply in_seq in Hj. lia.
Qed.

(** ** disks *)
Section Disk.
Context (L : stats_lib) (s0 : par) (g : grid) (F : fresh s0 g).

(** the records as they follow from what is remembered *)
Definition of_known (k : disk_known) (p : par) (idx : nat * nat) : disk_recs :=
  DiskRecs p (option_map (fun n => TNote (fst n) (snd n) idx) (said_p_t k)) (exp_attr (pa_log_p_t p))
    (said_p_x_t k) (exp_attr (pa_log_p_x_t p)) (said_t_dep k) (exp_attr (pa_log_p_z_tx p)) (said_mu_v k) (said_sig_v k).
Definition age_idx (p : par) : nat * nat :=
  match pa_t_pars p with
  | Some tp => let e := par_edges_t (c_ssps (pa_cube p)) in (digitize e (tp_start tp), digitize e (tp_end tp))
  | None => (O, O)
  end.

Lemma rec_step_ok k c : well k ->
  disk_rec_step L (of_known k (denote L s0 k) (age_idx (denote L s0 k))) c =
  (of_known (disk_learn k c) (denote L s0 (disk_learn k c)) (age_idx (denote L s0 (disk_learn k c))), disk_sees k c).
Proof.
  intros W. unfold disk_rec_step. change (dr_self (of_known k (denote L s0 k) (age_idx (denote L s0 k)))) with (denote L s0 k).
  rewrite (step_ok L s0 g F k W c). unfold disk_learn. destruct (disk_sees k c) as [[]|e] eqn:E; [|reflexivity].
  unfold disk_sees in E. destruct (disk_valid c) eqn:V; [|destruct c; discriminate].
  destruct c as [lmd phi se|q rc al|q al a b lo hi|q r v|q al vi vo x y]; cbn [uses_age] in E.
  - set (k' := DiskKnown _ _ _ _ _). unfold disk_note, of_known. f_equal. f_equal.
    cbn [said_p_t dk_t k' option_map fst snd]. unfold note_t, age_idx. change (pa_t_pars (denote L s0 k')) with (pa_t_pars (aged L s0 (Some (DPt lmd phi se)))).
    destruct (aged_ok L s0 g F (DPt lmd phi se) V) as (tp & lp & -> & _). reflexivity.
  - destruct (dk_t k) as [f|] eqn:Ek; [|discriminate]. unfold disk_note, of_known, said_p_t, age_idx, denote. cbn. rewrite Ek. reflexivity.
  - unfold disk_note, of_known, said_p_t, age_idx, denote. cbn. reflexivity.
  - destruct (dk_t k) as [f|] eqn:Ek; [|discriminate]. unfold disk_note, of_known, said_p_t, age_idx, denote. cbn. rewrite Ek. reflexivity.
  - destruct (dk_t k) as [f|] eqn:Ek; [|discriminate]. unfold disk_note, of_known, said_p_t, age_idx, denote. cbn. rewrite Ek. reflexivity.
Qed.
Lemma recs_known h : disk_recs_after L (disk_recs_new s0) h =
  of_known (disk_history h) (disk_after L s0 h) (age_idx (disk_after L s0 h)).
Proof.
  rewrite (after_denote L s0 g F). induction h as [|c h IH] using rev_ind.
  - cbn [disk_recs_after fold_left]. unfold disk_history. cbn [fold_left]. rewrite (denote_nothing L s0 g F).
    unfold disk_recs_new, of_known. rewrite (fr_none _ _ F). reflexivity.
  - unfold disk_recs_after, disk_history in *. rewrite !fold_left_app. cbn [fold_left]. rewrite IH.
    change (fold_left disk_learn h disk_nothing) with (disk_history h). rewrite rec_step_ok by apply well_history. reflexivity.
Qed.

(** the component is the same, the records are the arguments, and each call says the same *)
Lemma recs_claim h : let s := disk_recs_after L (disk_recs_new s0) h in let k := disk_history h in
  dr_self s = disk_after L s0 h /\
  option_map (fun n => (tn_lmd n, tn_phi n)) (dr_t_pars s) = said_p_t k /\
  dr_x_t_pars s = said_p_x_t k /\ dr_t_dep_pars s = said_t_dep k /\
  dr_mu_v_pars s = said_mu_v k /\ dr_sig_v_pars s = said_sig_v k.
Proof.
  cbv zeta. rewrite recs_known. cbn. repeat split. destruct (said_p_t _) as [[a b]|]; reflexivity.
Qed.
Lemma recs_says h c : snd (disk_rec_step L (disk_recs_after L (disk_recs_new s0) h) c) = disk_sees (disk_history h) c.
Proof.
  rewrite recs_known, (after_denote L s0 g F), rec_step_ok by apply well_history. reflexivity.
Qed.

(** the exponentials are the densities *)
Lemma recs_densities h : let s := disk_recs_after L (disk_recs_new s0) h in
  par_get_p L (dr_self s) "t" true false = attr (dr_p_t s) /\
  (forall a, dr_p_x_t s = Some a -> par_get_p L (dr_self s) "x_t" true false = Ok a) /\
  (forall a, dr_p_z_tx s = Some a -> par_get_p L (dr_self s) "z_tx" true false = Ok a) /\
  is_some (dr_p_t s) = disk_done (disk_history h) Kt /\
  is_some (dr_p_x_t s) = disk_done (disk_history h) Kx /\
  is_some (dr_p_z_tx s) = disk_done (disk_history h) Kz.
Proof.
  cbv zeta. rewrite recs_known. cbn [of_known dr_self dr_p_t dr_p_x_t dr_p_z_tx].
  split; [apply get_t|]. split; [intros a; apply get_x_t|]. split; [intros a; apply get_z_tx|].
  rewrite (after_denote L s0 g F). pose proof (well_history h) as W. cbn [disk_done].
  pose proof (held_t L s0 g F (disk_history h) W) as H1. pose proof (held_x L s0 g F (disk_history h) W) as H2.
  pose proof (held_z L s0 g F (disk_history h) W) as H3. unfold held in *.
  repeat split.
  - destruct (dk_t _); cbn [is_some] in *; [destruct H1 as (a & -> & _)|rewrite H1]; reflexivity.
  - destruct (dk_x _); cbn [is_some] in *; [destruct H2 as (a & -> & _)|rewrite H2]; reflexivity.
  - destruct (dk_z _); cbn [is_some] in *; [destruct H3 as (a & -> & _)|rewrite H3]; reflexivity.
Qed.

(** the bins of the start and the end of star formation *)
Lemma recs_bins h n tp : let s := disk_recs_after L (disk_recs_new s0) h in
  dr_t_pars s = Some n -> pa_t_pars (dr_self s) = Some tp ->
  forall x i, (i < nt g)%nat ->
  (tp_start tp = Fin x -> holds (tE g) i x -> fst (tn_idx n) = S i) /\
  (tp_end tp = Fin x -> holds (tE g) i x -> snd (tn_idx n) = S i) /\
  (tp_end tp = Fin (tE g (nt g)) -> snd (tn_idx n) = S (nt g)).
Proof.
  cbv zeta. rewrite recs_known. cbn [of_known dr_self dr_t_pars]. intros En Et x i Hi.
  destruct (said_p_t (disk_history h)) as [[lmd phi]|]; [|discriminate]. cbn [option_map fst snd] in En.
  assert (Ei : tn_idx n = (digitize (par_edges_t (c_ssps (pa_cube s0))) (tp_start tp), digitize (par_edges_t (c_ssps (pa_cube s0))) (tp_end tp))).
  { injection En as <-. cbn [tn_idx]. unfold age_idx. rewrite Et. rewrite (after_denote L s0 g F). reflexivity. }
  rewrite Ei. cbn [fst snd].
  pose proof (so_te _ _ (co_ssps _ _ (fr_c _ _ F))) as [Se Ve]. pose proof (gg_tE _ (fr_g _ _ F)) as Inc.
  assert (Mono : forall j k, (j <= k)%nat -> (k <= nt g)%nat -> tE g j <= tE g k).
  { intros j k Hjk. induction Hjk as [|k Hjk IH]; intros Hk; [lra|]. specialize (IH ltac:(lia)). specialize (Inc k ltac:(lia)). lra. }
  assert (D : forall y m, (m < nt g)%nat -> holds (tE g) m y -> digitize (par_edges_t (c_ssps (pa_cube s0))) (Fin y) = S m).
  { intros y m Hm (H1 & H2). apply (digitize_count _ (nt g + 1) (tE g)); [exact Se|exact Ve|lia| |].
    - intros j Hj. specialize (Mono j m ltac:(lia) ltac:(lia)). lra.
    - intros j Hj. specialize (Mono (S m) j ltac:(lia) ltac:(lia)). lra. }
  repeat split.
  - intros -> Hh. apply D; assumption.
  - intros -> Hh. apply D; assumption.
  - intros ->. apply (digitize_count _ (nt g + 1) (tE g)); [exact Se|exact Ve|lia| |intros j Hj; lia].
    intros j Hj. apply Mono; lia.
Qed.

(** ** calling the setters again *)
Definition canon_z (c : disk_call) : disk_call :=
  match c with DTdep q al a b _ _ => DTdep q al a b (1 / 10) 13 | _ => c end.
Definition canon_sig (c : disk_call) : disk_call :=
  match c with DSig q al vi vo _ _ => DSig q al vi vo 500 10 | _ => c end.
Definition canon (k : disk_known) : disk_known :=
  DiskKnown (dk_t k) (dk_x k) (option_map canon_z (dk_z k)) (dk_mu k)
    (option_map (fun fc => (fst fc, canon_sig (snd fc))) (dk_sig k)).

Lemma canon_z_valid q al a b lo hi : disk_valid (DTdep q al a b lo hi) = true ->
  disk_valid (DTdep q al a b (1 / 10) 13) = true.
Proof.
  cbn [disk_valid]. unfold between. rewrite !andb_true_iff, !Rleb_true, !Rltb_true. intuition lra.
Qed.
Lemma canon_z_run p q al a b lo hi : disk_valid (DTdep q al a b lo hi) = true ->
  disk_set_t_dep L p q al a b (1 / 10) 13 = disk_set_t_dep L p q al a b lo hi.
Proof.
  intros V. pose proof (canon_z_valid q al a b lo hi V) as V'. cbn [disk_valid] in V, V'. unfold between in *.
  apply andb_true_iff in V as [V V6]. apply andb_true_iff in V as [V V5]. apply andb_true_iff in V as [V V4].
  apply andb_true_iff in V as [V V3]. apply andb_true_iff in V as [V1 V2].
  apply andb_true_iff in V' as [V' W6]. apply andb_true_iff in V' as [V' W5]. apply andb_true_iff in V' as [V' W4].
  apply andb_true_iff in V' as [V' W3].
  unfold disk_set_t_dep. rewrite V1, V2, V3, V4, V5, V6, W3, W4, W5, W6. reflexivity.
Qed.
Lemma denote_canon k : well k -> denote L s0 (canon k) = denote L s0 k.
Proof.
  intros (_ & _ & W3 & _ & W5). unfold denote, canon. cbn [dk_t dk_x dk_z dk_mu dk_sig].
  assert (Ez : aged L s0 (option_map canon_z (dk_z k)) = aged L s0 (dk_z k)).
  { destruct (dk_z k) as [[| |q al a b lo hi| |]|]; try reflexivity. cbn [one z_call] in W3.
    unfold aged, disk_after, disk_step. cbn [option_map canon_z one_call fold_left]. rewrite (canon_z_run _ _ _ _ _ _ _ W3). reflexivity. }
  rewrite Ez. f_equal. destruct (dk_sig k) as [[f [| | | |q al vi vo x y]]|]; reflexivity.
Qed.
Lemma canon_well k : well k -> well (canon k).
Proof.
  intros (W1 & W2 & W3 & W4 & W5). unfold canon. repeat split; cbn [dk_t dk_x dk_z dk_mu dk_sig]; try assumption.
  - destruct (dk_z k) as [[| |q al a b lo hi| |]|]; try assumption. cbn [one z_call option_map canon_z] in *. exact (canon_z_valid _ _ _ _ _ _ W3).
  - destruct (dk_sig k) as [[f [| | | |q al vi vo x y]]|]; try assumption.
Qed.
Lemma said_canon k p idx : of_known (canon k) p idx = of_known k p idx.
Proof.
  unfold of_known, canon, said_p_t, said_p_x_t, said_t_dep, said_mu_v, said_sig_v. cbn [dk_t dk_x dk_z dk_mu dk_sig]. f_equal.
  - destruct (dk_z k) as [[]|]; reflexivity.
  - destruct (dk_sig k) as [[f []]|]; reflexivity.
Qed.

(** a memory in order is that of one call of each setter *)
Lemma in_order_history k : well k -> timed k -> in_order k -> disk_history (one_call (dk_t k) ++ others k) = k.
Proof.
  intros W T Hin. unfold in_order in Hin. destruct k as [t x z m s].
  destruct W as (W1 & W2 & W3 & W4 & W5). unfold timed, others in *. cbn [dk_t dk_x dk_z dk_mu dk_sig] in *.
  rewrite history_app, !fold_left_app.
  assert (H0 : disk_history (one_call t) = DiskKnown t None None None None).
  { destruct t as [c|]; [|reflexivity]. unfold disk_history. cbn [one_call fold_left]. apply learn_t. exact W1. }
  rewrite H0.
  assert (Hx : fold_left disk_learn (one_call (option_map snd x)) (DiskKnown t None None None None) = DiskKnown t x None None None).
  { destruct x as [[f c]|]; [|reflexivity]. destruct (Hin _ (or_introl eq_refl)) as [E|E]; [|discriminate]. cbn in E.
    cbn [option_map snd one_call fold_left]. subst t. apply (learn_x (DiskKnown (Some f) None None None None) f c); [apply W2|reflexivity]. }
  rewrite Hx.
  assert (Hz : fold_left disk_learn (one_call z) (DiskKnown t x None None None) = DiskKnown t x z None None).
  { destruct z as [c|]; cbn [one_call fold_left]; [apply learn_z; exact W3|reflexivity]. }
  rewrite Hz.
  assert (Hm : fold_left disk_learn (one_call (option_map snd m)) (DiskKnown t x z None None) = DiskKnown t x z m None).
  { destruct m as [[f c]|]; [|reflexivity]. destruct (Hin _ (or_intror (or_introl eq_refl))) as [E|E]; [|discriminate]. cbn in E.
    cbn [option_map snd one_call fold_left]. subst t. apply (learn_mu (DiskKnown (Some f) x z None None) f c); [apply W4|reflexivity]. }
  rewrite Hm. destruct s as [[f c]|]; [|reflexivity].
  destruct (Hin _ (or_intror (or_intror (or_introl eq_refl)))) as [E|E]; [|discriminate]. cbn in E.
  cbn [option_map snd one_call fold_left]. subst t. apply (learn_sig (DiskKnown (Some f) x z m None) f c); [apply W5|reflexivity].
Qed.

Lemma again_calls k p idx : well k -> default_quantiles k ->
  disk_again (of_known k p idx) = one_call (dk_t (canon k)) ++ others (canon k).
Proof.
  intros (W1 & W2 & W3 & W4 & W5) D. unfold default_quantiles in D. destruct k as [t x z m s]. cbn [dk_t dk_x dk_z dk_mu dk_sig] in *.
  unfold disk_again, of_known, others, canon, said_p_t, said_p_x_t, said_t_dep, said_mu_v, said_sig_v.
  cbn [dr_t_pars dr_x_t_pars dr_t_dep_pars dr_mu_v_pars dr_sig_v_pars dk_t dk_x dk_z dk_mu dk_sig].
  f_equal; [|f_equal; [|f_equal; [|f_equal]]].
  - destruct t as [[lmd phi se| | | |]|]; try discriminate; [|reflexivity]. cbn in *. subst se. reflexivity.
  - destruct x as [[f []]|]; try (destruct W2; discriminate); reflexivity.
  - destruct z as [[]|]; try discriminate; reflexivity.
  - destruct m as [[f []]|]; try (destruct W4; discriminate); reflexivity.
  - destruct s as [[f []]|]; try (destruct W5; discriminate); reflexivity.
Qed.

(** the records of a disk in order make it again *)
Lemma recs_restore h : let s := disk_recs_after L (disk_recs_new s0) h in
  in_order (disk_history h) -> default_quantiles (disk_history h) ->
  disk_recs_after L (disk_recs_new s0) (disk_again s) = s.
Proof.
  cbv zeta. intros O D. rewrite (recs_known h), (recs_known (disk_again _)).
  pose proof (well_history h) as W. pose proof (timed_history h) as T.
  rewrite (again_calls _ _ _ W D). set (k := disk_history h) in *.
  assert (E : disk_history (one_call (dk_t (canon k)) ++ others (canon k)) = canon k).
  { apply in_order_history; [apply canon_well, W| |].
    - unfold timed, canon in *. cbn [dk_t dk_x dk_z dk_mu dk_sig]. destruct (dk_t k); [exact I|].
      destruct T as (T1 & T2 & T3). rewrite T1, T2, T3. auto.
    - unfold in_order, canon in *. cbn [dk_t dk_x dk_z dk_mu dk_sig]. intros o [<-|[<-|[<-|[]]]].
      + apply O. left. reflexivity.
      + apply O. right. left. reflexivity.
      + destruct (O (dk_sig k)) as [E|E]; [right; right; left; reflexivity| |right; rewrite E; reflexivity].
        left. rewrite <- E. destruct (dk_sig k) as [[]|]; reflexivity. }
  rewrite !(after_denote L s0 g F), E. rewrite (denote_canon k W). apply said_canon.
Qed.

(** calling one setter again with its record changes nothing *)
Lemma again_known k k' c : well k -> disk_learn k c = k' -> disk_sees k c = Ok tt ->
  denote L s0 k' = denote L s0 k -> of_known k' (denote L s0 k) (age_idx (denote L s0 k)) = of_known k (denote L s0 k) (age_idx (denote L s0 k)) ->
  disk_rec_step L (of_known k (denote L s0 k) (age_idx (denote L s0 k))) c = (of_known k (denote L s0 k) (age_idx (denote L s0 k)), Ok tt).
Proof. intros W El Es Ed Eo. rewrite rec_step_ok by exact W. rewrite El, Es, Ed, Eo. reflexivity. Qed.
Lemma recs_again h : let s := disk_recs_after L (disk_recs_new s0) h in let k := disk_history h in
  (forall n, dr_t_pars s = Some n -> default_quantiles k -> disk_rec_step L s (again_p_t n) = (s, Ok tt)) /\
  (forall r, dr_x_t_pars s = Some r -> option_map fst (dk_x k) = dk_t k -> disk_rec_step L s (again_p_x_t r) = (s, Ok tt)) /\
  (forall r, dr_t_dep_pars s = Some r -> disk_rec_step L s (again_t_dep r) = (s, Ok tt)) /\
  (forall r, dr_mu_v_pars s = Some r -> option_map fst (dk_mu k) = dk_t k -> disk_rec_step L s (again_mu_v r) = (s, Ok tt)) /\
  (forall r, dr_sig_v_pars s = Some r -> option_map fst (dk_sig k) = dk_t k -> disk_rec_step L s (again_sig_v r) = (s, Ok tt)).
Proof.
  cbv zeta. rewrite recs_known, (after_denote L s0 g F). pose proof (well_history h) as W. set (k := disk_history h) in *.
  cbn [of_known dr_t_pars dr_x_t_pars dr_t_dep_pars dr_mu_v_pars dr_sig_v_pars].
  pose proof W as (W1 & W2 & W3 & W4 & W5). unfold default_quantiles.
  destruct k as [t x z m sg] eqn:Ek. cbn [dk_t dk_x dk_z dk_mu dk_sig] in *.
  split; [|split; [|split; [|split]]].
  - intros n En D. unfold said_p_t in En. cbn [dk_t] in En. destruct t as [[lmd phi se| | | |]|]; try discriminate.
    cbn [option_map fst snd] in En. injection En as <-. subst se.
    apply (again_known _ (DiskKnown (Some (DPt lmd phi (5 / 100, 95 / 100))) x z m sg)); [exact W| | |reflexivity|reflexivity].
    + unfold again_p_t. cbn [tn_lmd tn_phi]. match goal with |- disk_learn ?kk ?c = _ => exact (learn_t kk c W1) end.
    + unfold again_p_t, disk_sees. cbn [tn_lmd tn_phi]. cbn [one t_call] in W1. rewrite W1. reflexivity.
  - intros r Er Ht. unfold said_p_x_t in Er. cbn [dk_x] in Er. destruct x as [[f [|q rc al| | |]]|]; try discriminate. injection Er as <-.
    cbn [option_map fst] in Ht. subst t. destruct W2 as (_ & V).
    apply (again_known _ (DiskKnown (Some f) (Some (f, DPxt q rc al)) z m sg)); [exact W| | |reflexivity|reflexivity].
    + match goal with |- disk_learn ?kk ?c = _ => exact (learn_x kk f c V eq_refl) end.
    + unfold again_p_x_t, disk_sees. cbn [x_call] in V. rewrite V. reflexivity.
  - intros r Er. unfold said_t_dep in Er. cbn [dk_z] in Er. destruct z as [[| |q al a b lo hi| |]|]; try discriminate. injection Er as <-.
    apply (again_known _ (DiskKnown t x (Some (DTdep q al a b (1 / 10) 13)) m sg)); [exact W| | | |reflexivity].
    + match goal with |- disk_learn ?kk ?c = _ => exact (learn_z kk (DTdep q al a b (1 / 10) 13) (canon_z_valid _ _ _ _ _ _ W3)) end.
    + unfold again_t_dep, disk_sees. rewrite (canon_z_valid _ _ _ _ _ _ W3). reflexivity.
    + unfold denote. cbn [dk_t dk_x dk_z dk_mu dk_sig].
      assert (E : aged L s0 (Some (DTdep q al a b (1 / 10) 13)) = aged L s0 (Some (DTdep q al a b lo hi))).
      { unfold aged, disk_after, disk_step. cbn [one_call fold_left]. rewrite (canon_z_run _ _ _ _ _ _ _ W3). reflexivity. }
      rewrite E. reflexivity.
  - intros r Er Ht. unfold said_mu_v in Er. cbn [dk_mu] in Er. destruct m as [[f [| | |q rm v|]]|]; try discriminate. injection Er as <-.
    cbn [option_map fst] in Ht. subst t. destruct W4 as (_ & V).
    apply (again_known _ (DiskKnown (Some f) x z (Some (f, DMu q rm v)) sg)); [exact W| | |reflexivity|reflexivity].
    + match goal with |- disk_learn ?kk ?c = _ => exact (learn_mu kk f c V eq_refl) end.
    + unfold again_mu_v, disk_sees. cbn [mu_call] in V. rewrite V. reflexivity.
  - intros r Er Ht. unfold said_sig_v in Er. cbn [dk_sig] in Er. destruct sg as [[f [| | | |q al vi vo a b]]|]; try discriminate. injection Er as <-.
    cbn [option_map fst] in Ht. subst t. destruct W5 as (_ & V).
    apply (again_known _ (DiskKnown (Some f) x z m (Some (f, DSig q al vi vo 500 10)))); [exact W| | |reflexivity|reflexivity].
    + match goal with |- disk_learn ?kk ?c = _ => exact (learn_sig kk f (DSig q al vi vo 500 10) V eq_refl) end.
    + unfold again_sig_v, disk_sees. cbn [sig_call] in V. change (disk_valid (DSig q al vi vo 500 10)) with (disk_valid (DSig q al vi vo a b)). rewrite V. reflexivity.
Qed.
End Disk.

(** ** streams *)
Section Stream.
Context (L : stats_lib) (s0 : par) (g : grid) (F : fresh s0 g).

Definition s_of_known (k : stream_known) (tr : option ((R * R) * (R * R) * R * nat)) (p : par) (idx : nat * nat) : stream_recs :=
  StreamRecs p (option_map (fun n => TNote (fst n) (snd n) idx) (s_said_p_t k)) (exp_attr (pa_log_p_t p))
    (option_map snd tr) tr (exp_attr (pa_log_p_z_tx p)) (said_lims k).
Definition new_track (tr : option ((R * R) * (R * R) * R * nat)) (c : stream_call) :=
  match c with
  | SPxt th mu_r sig n => if valid_angles th then Some (th, mu_r, sig, n) else tr
  | _ => tr
  end.

Lemma s_aged_ok lmd phi se : valid_sfh lmd phi = true ->
  exists tp lp, s_run L s0 (Some (SPt lmd phi se)) = put_age s0 (Some tp) (Some lp).
Proof.
  intros V. pose proof (set_p_t_done L s0 g (fr_c _ _ F) (fr_g _ _ F) lmd phi se) as H. rewrite V in H.
  destruct H as (tp & lp & E & _). exists tp, lp. unfold s_run, stream_after, stream_step. cbn [one_call fold_left]. rewrite E. reflexivity.
Qed.
Lemma s_rec_step_ok k tr c : stream_rec_step L (s_of_known k tr (s_denote L s0 k) (age_idx (s_denote L s0 k))) c =
  (s_of_known (stream_learn k c) (new_track tr c) (s_denote L s0 (stream_learn k c)) (age_idx (s_denote L s0 (stream_learn k c))),
   stream_sees k c).
Proof.
  unfold stream_rec_step, s_of_known at 1. rewrite (s_step_ok L s0 g F k c).
  destruct c as [lmd phi se|th r sg n|td|v|sg]; cbn [stream_learn stream_sees new_track].
  - destruct (valid_sfh lmd phi) eqn:V; [|reflexivity].
    set (k' := StreamKnown _ _ _ _ _ _). unfold s_of_known. f_equal. f_equal.
    cbn [s_said_p_t sk_t k' option_map fst snd]. unfold note_t, age_idx.
    change (pa_t_pars (s_denote L s0 k')) with (pa_t_pars (s_run L s0 (Some (SPt lmd phi se)))).
    destruct (s_aged_ok lmd phi se V) as (tp & lp & ->). reflexivity.
  - rewrite stream_angles_done. destruct (valid_angles th); reflexivity.
  - reflexivity.
  - destruct (sk_angles k); reflexivity.
  - reflexivity.
Qed.
Lemma last_track_snoc h c : last_track (h ++ [c]) = new_track (last_track h) c.
Proof.
  induction h as [|d h IH]; cbn [app last_track].
  - destruct c as [| th | | |]; try reflexivity; cbn [new_track]; destruct (valid_angles th); reflexivity.
  - rewrite IH. destruct c as [| th mu_r sig n | | |]; cbn [new_track]; try reflexivity. destruct (valid_angles th); reflexivity.
Qed.
Lemma s_recs_known h : stream_recs_after L (stream_recs_new s0) h =
  s_of_known (stream_history h) (last_track h) (stream_after L s0 h) (age_idx (stream_after L s0 h)).
Proof.
  rewrite (s_after_denote L s0 g F). induction h as [|c h IH] using rev_ind.
  - cbn [stream_recs_after fold_left last_track]. unfold stream_history. cbn [fold_left]. rewrite (s_denote_nothing L s0 g F).
    unfold stream_recs_new, s_of_known. rewrite (fr_none _ _ F). reflexivity.
  - rewrite last_track_snoc. unfold stream_recs_after, stream_history in *. rewrite !fold_left_app. cbn [fold_left]. rewrite IH.
    change (fold_left stream_learn h stream_nothing) with (stream_history h). rewrite s_rec_step_ok. reflexivity.
Qed.

(** the angles in force are those of the last track *)
Lemma track_angles h : sk_angles (stream_history h) = option_map (fun r => fst (fst (fst r))) (last_track h).
Proof.
  induction h as [|c h IH] using rev_ind; [reflexivity|]. rewrite last_track_snoc, s_history_app. cbn [fold_left].
  destruct c as [lmd phi se|th r sg n|td|v|sg]; cbn [stream_learn new_track]; try exact IH.
  - destruct (valid_sfh lmd phi); exact IH.
  - destruct (valid_angles th); [reflexivity|exact IH].
  - destruct (sk_angles (stream_history h)) eqn:E; cbn [sk_angles]; rewrite ?E; exact IH.
Qed.
Lemma track_density h th r sg n : last_track h = Some (th, r, sg, S n) -> sk_x (stream_history h) = Some (SPxt th r sg (S n)).
Proof.
  induction h as [|c h IH] using rev_ind; [discriminate|]. rewrite last_track_snoc, s_history_app. cbn [fold_left].
  destruct c as [lmd phi se|th' r' sg' n'|td|v|sg']; cbn [stream_learn new_track]; try exact IH.
  - destruct (valid_sfh lmd phi); exact IH.
  - destruct (valid_angles th'); [|exact IH]. intros [= -> -> -> ->]. reflexivity.
  - destruct (sk_angles (stream_history h)); exact IH.
Qed.
Lemma track_valid h th r sg n : last_track h = Some (th, r, sg, n) -> valid_angles th = true.
Proof.
  induction h as [|c h IH] using rev_ind; [discriminate|]. rewrite last_track_snoc.
  destruct c as [| th' r' sg' n' | | |]; cbn [new_track]; try exact IH.
  destruct (valid_angles th') eqn:V; [|exact IH]. intros [= -> -> -> ->]. exact V.
Qed.

Lemma s_recs_claim h : let s := stream_recs_after L (stream_recs_new s0) h in
  sr_self s = stream_after L s0 h /\
  option_map (fun n => (tn_lmd n, tn_phi n)) (sr_t_pars s) = s_said_p_t (stream_history h) /\
  sr_p_x_pars s = last_track h /\ sr_nsmp s = option_map snd (last_track h) /\
  pa_theta_lims (sr_self s) = option_map (fun r => fst (fst (fst r))) (last_track h) /\
  sr_mu_v_lims s = said_lims (stream_history h).
Proof.
  cbv zeta. rewrite s_recs_known. cbn [s_of_known sr_self sr_t_pars sr_p_x_pars sr_nsmp sr_mu_v_lims].
  split; [reflexivity|]. split; [destruct (s_said_p_t _) as [[a b]|]; reflexivity|]. repeat split.
  rewrite (s_after_denote L s0 g F). apply track_angles.
Qed.
Lemma s_recs_densities h : let s := stream_recs_after L (stream_recs_new s0) h in
  par_get_p L (sr_self s) "t" true false = attr (sr_p_t s) /\
  (forall a, sr_p_z_tx s = Some a -> par_get_p L (sr_self s) "z_tx" true false = Ok a) /\
  is_some (sr_p_t s) = stream_done (stream_history h) Kt /\
  is_some (sr_p_z_tx s) = stream_done (stream_history h) Kz.
Proof.
  cbv zeta. rewrite s_recs_known. cbn [s_of_known sr_self sr_p_t sr_p_z_tx].
  split; [apply get_t|]. split; [intros a; apply get_z_tx|].
  rewrite (s_after_denote L s0 g F). pose proof (s_well_history h) as W. cbn [stream_done].
  pose proof (s_held_t L s0 g F (stream_history h) W) as H1. pose proof (s_held_z L s0 g F (stream_history h) W) as H3. unfold held in *.
  split.
  - destruct (sk_t _); cbn [is_some] in *; [destruct H1 as (a & -> & _)|rewrite H1]; reflexivity.
  - destruct (sk_z _); cbn [is_some] in *; [destruct H3 as (a & -> & _)|rewrite H3]; reflexivity.
Qed.

(** calling the setters again *)
Lemma s_recs_again h : let s := stream_recs_after L (stream_recs_new s0) h in
  (forall r, sr_p_x_pars s = Some r -> snd r <> O -> stream_rec_step L s (again_track r) = (s, Ok tt)) /\
  (forall v, sr_mu_v_lims s = Some v -> option_map fst (sk_mu (stream_history h)) = pa_theta_lims (sr_self s) ->
     stream_rec_step L s (again_lims v) = (s, Ok tt)).
Proof.
  cbv zeta. rewrite s_recs_known, (s_after_denote L s0 g F). cbn [s_of_known sr_self sr_p_x_pars sr_mu_v_lims].
  change (pa_theta_lims (s_denote L s0 (stream_history h))) with (sk_angles (stream_history h)).
  split.
  - intros [[[th r] sg] n] Er Hn. cbn [snd] in Hn. destruct n as [|n]; [contradiction|].
    unfold again_track. fold (s_of_known (stream_history h) (last_track h) (s_denote L s0 (stream_history h)) (age_idx (s_denote L s0 (stream_history h)))).
    rewrite s_rec_step_ok.
    pose proof (track_valid _ _ _ _ _ Er) as V. pose proof (track_density _ _ _ _ _ Er) as Ex. pose proof (track_angles h) as Ea. rewrite Er in Ea.
    cbn [option_map fst] in Ea.
    assert (El : stream_learn (stream_history h) (SPxt th r sg (S n)) = stream_history h).
    { cbn [stream_learn]. rewrite V. rewrite <- Ex, <- Ea. destruct (stream_history h); reflexivity. }
    rewrite El. cbn [new_track stream_sees]. rewrite V, Er. reflexivity.
  - intros v Ev Hth. unfold again_lims. fold (s_of_known (stream_history h) (last_track h) (s_denote L s0 (stream_history h)) (age_idx (s_denote L s0 (stream_history h)))).
    rewrite s_rec_step_ok. unfold said_lims in Ev. cbn [new_track stream_learn stream_sees].
    destruct (sk_mu (stream_history h)) as [[th [| | |v'|]]|] eqn:Em; try discriminate. injection Ev as ->. cbn [option_map fst] in Hth. rewrite <- Hth.
    assert (El : StreamKnown (sk_t (stream_history h)) (sk_x (stream_history h)) (Some th) (sk_z (stream_history h)) (Some (th, SMu v)) (sk_sig (stream_history h)) = stream_history h).
    { rewrite Hth, <- Em. destruct (stream_history h); reflexivity. }
    cbn [sk_angles]. rewrite Hth in *. rewrite El. reflexivity.
Qed.
End Stream.
