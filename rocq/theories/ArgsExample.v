(** * ArgsExample: lists edited after they were handed over (claim C106). *)
From Coq Require Import Reals Lra Lia List Bool Arith ZArith String Ascii.
From Verif Require Import Num NumLemmas Arr PyStr Cube Base Parametric GrowingDisk Stream Spec Repr Build ParBuild ParExample ParMoments
  Life LifeSpec LifeLemmas LifeClaims LifeExample Args ArgsSpec ArgsClaims ArgsModel.
Import ListNotations.
Local Open Scope R_scope.

(** lists 3 and 4 are the caller's *)
Definition ex_lists (r : nat) : R * R :=
  match r with 3%nat => (0, PI / 2) | 4%nat => (10, 20) | _ => default_lists r end.
Definition ex_edit : list event :=
  [Call 0 (TPxt (Some 3%nat) None None None); Edit 3 (- (PI / 2), 0); Call 0 (TMu (Some 4%nat))].
Definition exs0 (i : nat) : par := expar0.
Definition exgs (i : nat) : grid := exg.
Lemma exF i : fresh (exs0 i) (exgs i).
Proof. exact exfresh. Qed.

Lemma ex_edit_said : said ex_lists 0 ex_edit = [SPxt (0, PI / 2) (7 / 10, 1 / 10) (3 / 100) 75; ex_smu].
Proof. reflexivity. Qed.

Lemma caller_list_refuted : exists a b,
  let w := world_after exL (new_world ex_lists exs0) ex_edit in
  mean_v_tx (look (w_list w) (w_stream w 0)) = Ok a /\
  mean_v_tx (stream_after exL (exs0 0) (said ex_lists 0 ex_edit)) = Ok b /\
  ent a [1; 1; 0]%nat = Fin 20 /\ ent b [1; 1; 0]%nat = Fin 10.
Proof.
  pose proof PI_RGT_0. destruct ex_angles as (A1 & A2).
  destruct (ex_smean (0, PI / 2)) as (b & Eb & Vb & _); [cbn [fst snd]; lra|].
  destruct (ex_smean (- (PI / 2), 0)) as (a & Ea & _ & Va); [cbn [fst snd]; lra|].
  exists a, b. cbv zeta.
  set (w0 := new_world ex_lists exs0). pose proof (new_kept exL exs0 exgs exF 0 ex_lists) as K0. fold w0 in K0.
  destruct (kept_call exL exs0 exgs exF 0 w0 (TPxt (Some 3%nat) None None None) _ _ K0 eq_refl) as (E1 & K1 & _ & H1).
  cbv zeta in *. set (w1 := fst (world_step exL w0 (Call 0 (TPxt (Some 3%nat) None None None)))) in *.
  assert (H1' : snd (w_stream w1 0) = Some 3%nat).
  { rewrite H1, keeps_spec. change (w_list w0 (or_else (Some 3%nat) theta_default)) with (0, PI / 2). rewrite A1. reflexivity. }
  rewrite <- E1 in K1. pose proof (kept_edit exL exs0 0 w1 3 (- (PI / 2), 0) _ K1) as K2. rewrite H1' in K2.
  set (w2 := fst (world_step exL w1 (Edit 3 (- (PI / 2), 0)))).
  change (w_stream w1 0) with (w_stream w2 0) in K2. change (put (w_list w1) 3%nat (- (PI / 2), 0)) with (w_list w2) in K2.
  assert (L2 : stream_fill (w_list w2) (TMu (Some 4%nat)) = Ok ex_smu).
  { cbn [stream_fill or_else]. change (w_list w2 4%nat) with (w_list w1 4%nat). rewrite E1. reflexivity. }
  destruct (kept_call exL exs0 exgs exF 0 w2 _ _ _ K2 L2) as (E3 & K3 & _ & _). cbv zeta in *.
  change (world_after exL w0 ex_edit) with (fst (world_step exL w2 (Call 0 (TMu (Some 4%nat))))).
  set (w3 := fst (world_step exL w2 (Call 0 (TMu (Some 4%nat))))) in *. rewrite E3. destruct K3 as (K3 & _).
  assert (M1 : pa_mu_v (look (w_list w2) (w_stream w3 0)) = Some a).
  { rewrite K3, <- Ea. reflexivity. }
  assert (M2 : pa_mu_v (stream_after exL (exs0 0) (said ex_lists 0 ex_edit)) = Some b).
  { rewrite ex_edit_said, <- Eb. apply ex_mu_of. unfold stream_history, ex_smu. cbn [fold_left stream_learn]. rewrite A1. reflexivity. }
  unfold mean_v_tx. rewrite M1, M2. split; [reflexivity|]. split; [reflexivity|]. split; [apply Va|apply Vb]; reflexivity.
Qed.

(** stream 0 is set up with the default angles, and the end of its theta_lims is moved *)
Definition ex_spoil : list event := [Call 0 (TPxt None None None None); Edit 0 (0, 5)].
Lemma five_wide : valid_angles (0, 5) = false.
Proof.
  pose proof PI_4. pose proof PI_RGT_0. unfold valid_angles, between. cbn [fst snd].
  replace (Rleb 5 PI) with false; [rewrite !andb_false_r; reflexivity|].
  unfold Rleb. destruct (Rle_dec 5 PI); [|reflexivity]. exfalso; lra.
Qed.
Lemma default_list_refuted :
  let w0 := new_world default_lists exs0 in let w := world_after exL w0 ex_spoil in
  snd (world_step exL w0 (Call 1 (TPxt None None None None))) = Ok tt /\
  snd (w_stream w 0) = Some theta_default /\ w_stream w 1 = w_stream w0 1 /\
  snd (world_step exL w (Call 1 (TPxt None None None None))) = Err AssertionError.
Proof.
  cbv zeta. pose proof PI_4. pose proof PI_RGT_0.
  set (w0 := new_world default_lists exs0). pose proof (new_kept exL exs0 exgs exF 0 default_lists) as K0. fold w0 in K0.
  pose proof (new_kept exL exs0 exgs exF 1 default_lists) as K0'. fold w0 in K0'.
  split; [|split; [|split]].
  - destruct (kept_call exL exs0 exgs exF 1 w0 (TPxt None None None None) _ _ K0' eq_refl) as (_ & _ & E & _). cbv zeta in E.
    rewrite E. cbn [stream_sees]. change (w_list w0 (or_else None theta_default)) with (0, PI / 2). rewrite default_angles. reflexivity.
  - destruct (kept_call exL exs0 exgs exF 0 w0 (TPxt None None None None) _ _ K0 eq_refl) as (_ & _ & _ & E). cbv zeta in E.
    change (snd (w_stream (world_after exL w0 ex_spoil) 0)) with (snd (w_stream (fst (world_step exL w0 (Call 0 (TPxt None None None None)))) 0)).
    rewrite E, keeps_spec. change (w_list w0 (or_else None theta_default)) with (0, PI / 2). rewrite default_angles. reflexivity.
  - exact (proj2 (kept_other exL exs0 1 w0 0 (TPxt None None None None) _ ltac:(discriminate) K0')).
  - destruct (kept_other exL exs0 1 w0 0 (TPxt None None None None) _ ltac:(discriminate) K0') as (E1 & E2). cbv zeta in *.
    set (w1 := fst (world_step exL w0 (Call 0 (TPxt None None None None)))) in *.
    rewrite <- E1, <- E2 in K0'. pose proof (kept_edit exL exs0 1 w1 0 (0, 5) _ K0') as K2. rewrite E2 in K2. cbn [w0 new_world w_stream snd] in K2.
    set (w2 := fst (world_step exL w1 (Edit 0 (0, 5)))).
    assert (K2' : kept exL exs0 1 (w_list w2) (w_stream w2 1) (stream_history [])).
    { change (w_stream w2 1) with (w_stream w1 1). rewrite E2. exact K2. }
    change (world_after exL w0 ex_spoil) with w2.
    destruct (kept_call exL exs0 exgs exF 1 w2 (TPxt None None None None) _ _ K2' eq_refl) as (_ & _ & E & _). cbv zeta in E.
    rewrite E. cbn [stream_sees]. change (w_list w2 (or_else None theta_default)) with (0, 5).
    rewrite five_wide. reflexivity.
Qed.

(** the default quantiles with the example star formation history *)
Lemma exsfh_default : sfh_ok exL (default_sfh 3 (2 / 3)).
Proof. constructor; cbn [default_sfh sa_lmd sa_phi sa_se fst snd]; try lra. - apply exL_cdf. - apply exL_ppf. Qed.
