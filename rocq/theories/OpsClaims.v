(** * OpsClaims: proofs for Props_Ops.v. *)
From Coq Require Import Reals Lra Lia List Bool Arith ZArith String.
From Verif Require Import Num NumLemmas Arr ArrLemmas PyStr ReadMiles MilesSpec MilesLemmas MilesLemmas2 MilesLemmas3 MilesClaims Thin Bin BinClaims Ops.
Import ListNotations.
Local Open Scope R_scope.

(** everything but the wavelengths and spectra agrees *)
Definition same_grid (m m' : miles) : Prop :=
  m_names m' = m_names m /\ m_age_lim m' = m_age_lim m /\ m_z_lim m' = m_z_lim m /\
  m_thin_age m' = m_thin_age m /\ m_thin_z m' = m_thin_z m /\ z_unq m' = z_unq m /\ t_unq m' = t_unq m /\
  m_nz m' = m_nz m /\ m_nt m' = m_nt m.
Lemma same_refl m : same_grid m m. Proof. repeat split. Qed.
Lemma same_trans a b c : same_grid a b -> same_grid b c -> same_grid a c.
Proof. unfold same_grid. intuition congruence. Qed.
Lemma same_lmd m l : same_grid m (with_lmd m l). Proof. repeat split. Qed.
Lemma same_X m x : same_grid m (with_X m x). Proof. repeat split. Qed.
Lemma same_ext m m' : same_grid m m' -> lmd m' = lmd m -> m_X m' = m_X m -> m' = m.
Proof. destruct m, m'. unfold same_grid. cbn. intros H ? ?. f_equal; intuition congruence. Qed.

Lemma cut_same m lo hi : same_grid m (fst (cut_step m lo hi)).
Proof.
  unfold cut_step, truncate_wavelengths.
  destruct (np_min (lmd m)); cbn [bind]; [|apply same_refl]. destruct (np_max (lmd m)); cbn [bind]; [|apply same_refl].
  cbv zeta. destruct (orb _ _); [apply same_refl|]. destruct (get_X m); cbn [bind]; [|apply same_refl].
  destruct (take_rows _ _); cbn [bind]; [|apply same_refl]. destruct (take_idx _ _); cbn [bind]; [|apply same_refl].
  repeat split.
Qed.
Lemma bin_any_same m k m' : bin_any m k = Ok m' -> same_grid m m'.
Proof.
  unfold bin_any. destruct (Reqb k 1); [intros H; injection H as <-; apply same_refl|].
  destruct (get_X m) as [x|]; cbn [bind]; [|discriminate].
  destruct (shp x) as [|n [|p [|? ?]]]; try discriminate.
  destruct (py_int k =? 0)%Z; [discriminate|]. destruct (py_int k <? 0)%Z; [discriminate|]. cbv zeta.
  destruct (sum_blocks _ _); cbn [bind]; [|discriminate]. destruct (Nat.eqb p 0); [discriminate|].
  destruct (negb _); [discriminate|]. destruct (reshape _ _); cbn [bind]; [|discriminate].
  destruct (asum _ _); cbn [bind]; [|discriminate]. intros H; injection H as <-. repeat split.
Qed.
Lemma bin_same m k : same_grid m (fst (bin_step m k)).
Proof.
  unfold bin_step. destruct (bin_any m k) as [m'|e] eqn:E; [apply (bin_any_same m k); exact E|].
  destruct (m_X m) as [x|]; [|apply same_refl]. destruct (shp x) as [|n [|p [|? ?]]]; try apply same_refl.
  destruct (0 <? py_int k)%Z; [|apply same_refl]. cbv zeta. destruct (sum_blocks _ _); repeat split.
Qed.

(** reading depends on nothing else, and the first reading succeeded *)
Lemma read_again d m d' m' : m_X m = None -> read_spectra d m = (d', Ok m') ->
  d' = d /\ same_grid m m' /\ lmd m' = lmd m /\
  forall m1, same_grid m m1 -> lmd m1 = lmd m -> read_spectra d m1 = (d, Ok m').
Proof.
  intros HX. unfold read_spectra.
  assert (Dq : forall m1, same_grid m m1 -> default_request m1 = default_request m).
  { intros m1 (_ & A & B & C & D & _). unfold default_request. rewrite A, B, C, D. reflexivity. }
  destruct (default_request m) eqn:Ed.
  - destruct (has_cache d) eqn:Ec; cbn [andb negb].
    + intros H. injection H as <- <-. split; [reflexivity|]. split; [apply same_X|]. split; [reflexivity|].
      intros m1 H1 L1. rewrite (Dq m1 H1). cbn [andb negb]. do 2 f_equal.
      apply same_ext; [|exact L1|reflexivity]. unfold same_grid in *. cbn. exact H1.
    + unfold get_X. rewrite HX. discriminate.
  - cbn [andb]. intros H.
    destruct (item (z_unq m) 0) as [z0|] eqn:E0; cbn [bind] in H; [|discriminate].
    destruct (item (t_unq m) 0) as [t0|] eqn:E1; cbn [bind] in H; [|discriminate].
    destruct (read_spectrum d (m_names m) z0 t0) as [s0|] eqn:E2; cbn [bind] in H; [|discriminate].
    destruct (negb (Nat.eqb (List.length s0) (List.length (lmd m)))) eqn:E3; [discriminate|].
    destruct (read_columns d (m_names m) (List.length s0) (z_unq m) (t_unq m)) as [cols|] eqn:E4; cbn [bind] in H; [|discriminate].
    injection H as <- <-. split; [reflexivity|]. split; [apply same_X|]. split; [reflexivity|].
    intros m1 H1 L1. rewrite (Dq m1 H1). cbn [andb].
    pose proof H1 as (N & _ & _ & _ & _ & Z & T & NZ & NT). rewrite N, Z, T, L1, NZ, NT, E0. cbn [bind]. rewrite E1. cbn [bind].
    rewrite E2. cbn [bind]. rewrite E3, E4. cbn [bind]. do 2 f_equal.
    apply same_ext; [|exact L1|reflexivity]. exact H1.
Qed.

Lemma constructed d md al zl ka kz d' m : init_any d md al zl ka kz = (d', Ok m) ->
  d' = d /\ lmd m = default_lmd /\ forall m1, same_grid m m1 -> reset d m1 = (d, Ok m).
Proof.
  unfold init_any. destruct md as [[|c md]|]; try discriminate.
  match goal with |- match ?r with _ => _ end = _ -> _ => destruct r as [m0|e] eqn:E end; [|discriminate]. intros H.
  assert (X0 : m_X m0 = None /\ lmd m0 = default_lmd).
  { repeat match goal with
           | H : bind ?r _ = Ok _ |- _ => destruct r eqn:?; cbn [bind] in H; [|discriminate]
           end.
    cbv zeta in E. match goal with H : (if ?b then _ else _) = _ |- _ => destruct b; [discriminate|] end.
    injection E as <-. split; reflexivity. }
  destruct X0 as [X0 L0]. destruct (read_again d m0 d' m X0 H) as (-> & S & L & A).
  split; [reflexivity|]. split; [congruence|]. intros m1 H1. unfold reset. apply A; [|symmetry; exact L0].
  apply (same_trans _ m); [exact S|]. apply (same_trans _ m1); [exact H1|apply same_lmd].
Qed.

Lemma history_claim d md al zl ka kz d' m h : init_any d md al zl ka kz = (d', Ok m) ->
  exists m2, run_ops (d', m) h = (d, m2) /\ same_grid m m2 /\ op_step (d, m2) Reset = ((d, m), Ok tt).
Proof.
  intros H. destruct (constructed _ _ _ _ _ _ _ _ H) as (-> & _ & A).
  assert (G : forall h m1, same_grid m m1 -> exists m2, run_ops (d, m1) h = (d, m2) /\ same_grid m m2).
  { induction h0 as [|o h0 IH]; intros m1 H1; [exists m1; auto|]. unfold run_ops in *. cbn [fold_left].
    destruct o as [lo hi|k|]; cbn [op_step fst snd].
    - apply IH. exact (same_trans _ _ _ H1 (cut_same m1 lo hi)).
    - apply IH. exact (same_trans _ _ _ H1 (bin_same m1 k)).
    - unfold reset_step. rewrite (A m1 H1). cbn [fst]. apply IH. apply same_refl. }
  destruct (G h m (same_refl m)) as (m2 & E & S2). exists m2. split; [exact E|]. split; [exact S2|].
  cbn [op_step fst snd]. unfold reset_step. rewrite (A m2 S2). reflexivity.
Qed.

Lemma forgotten_claim d md al zl ka kz d' m h h' : init_any d md al zl ka kz = (d', Ok m) ->
  run_ops (d', m) (h ++ Reset :: h')%list = run_ops (d, m) h'.
Proof.
  intros H. destruct (history_claim d md al zl ka kz d' m h H) as (m2 & E & _ & R).
  unfold run_ops in *. rewrite fold_left_app, E. cbn [fold_left]. rewrite R. reflexivity.
Qed.

(** calls that raise *)
Lemma failed_cut_claim m lo hi e : snd (cut_step m lo hi) = Err e -> fst (cut_step m lo hi) = m.
Proof. unfold cut_step. destruct (truncate_wavelengths m lo hi); [discriminate|reflexivity]. Qed.
Lemma failed_bin_claim m k n p X e : spectra_are m n p X -> (0 < p)%nat -> snd (bin_step m k) = Err e ->
  fst (bin_step m k) = m /\ k < 1.
Proof.
  intros H Hp E. assert (Hk : k < 1).
  { destruct (Rlt_dec k 1) as [D|D]; [exact D|]. exfalso.
    assert (C : k = 1 \/ 1 < k < 2 \/ 2 <= k) by lra. unfold bin_step in E. destruct C as [->|[C|C]].
    - rewrite one_claim in E. discriminate.
    - destruct (between_claim m k n p X H Hp C) as (m' & E' & _). rewrite E' in E. discriminate.
    - destruct (archimed k) as [A B]. set (i := Z.to_nat (up k - 1)).
      assert (U : (3 <= up k)%Z) by (assert (2 < up k)%Z by (apply lt_IZR; lra); lia).
      assert (I1 : INR i = IZR (up k) - 1). { unfold i. rewrite INR_IZR_INZ, Z2Nat.id by lia. rewrite minus_IZR. reflexivity. }
      assert (I2 : (2 <= i)%nat) by (unfold i; lia).
      rewrite (floor_claim m k i) in E by (try lia; lra).
      destruct (Nat.eq_dec (n mod i) 0) as [R|R].
      + destruct (bin_drop_claim m i n p X H I2 Hp R) as (m' & E' & _). rewrite E' in E. discriminate.
      + destruct (bin_strided_claim m i n p X H I2 Hp R) as (m' & X' & E' & _). rewrite E' in E. discriminate. }
  split; [|exact Hk]. destruct (bad_claim m k n p X H) as [B1 B2]. unfold bin_step.
  assert (P : (py_int k <= 0)%Z).
  { destruct (Rlt_dec (-1) k) as [D|D]; [rewrite py_int_small by lra; lia|]. pose proof (py_int_neg k). lia || (assert (k <= -1) by lra; specialize (H0 H1); lia). }
  destruct (bin_any m k); [|].
  - exfalso. destruct (Rlt_dec (-1) k) as [D|D]; [specialize (B1 (conj D Hk)); discriminate|]. assert (k <= -1) by lra. specialize (B2 H0). discriminate.
  - destruct (m_X m) as [x|]; [|reflexivity]. destruct (shp x) as [|n' [|p' [|? ?]]]; try reflexivity.
    destruct (Z.ltb_spec 0 (py_int k)); [lia|reflexivity].
Qed.
