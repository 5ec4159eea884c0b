(** * ParticleLemmas *)
From Coq Require Import Reals Lra Lia List Bool Arith ZArith String Ascii Permutation FunctionalExtensionality.
From Verif Require Import Num NumLemmas Arr ArrLemmas PyStr Cube Base Spec SpecLemmas Repr CubeLemmas MomSpec CubeGeom
  VecLemmas SspLemmas Particle ParticleSpec LMom.
Import ListNotations.
Local Open Scope R_scope.

Lemma vec_to_list a n f : vec a n f -> to_list a = map (fun i => Fin (f i)) (seq 0 n).
Proof.
  intros [Hs He]. unfold to_list. unfold len0. rewrite Hs. cbn [hd].
  apply map_ext_in. intros i Hi. apply in_seq in Hi. apply He. lia.
Qed.

Lemma nle_Fin a b : nle (Fin a) (Fin b) = Rleb a b.
Proof. unfold nle. cbn. unfold Rltb, Reqb, Rleb. destruct (Rlt_dec a b), (Req_EM_T a b), (Rle_dec a b); cbn; auto; lra. Qed.
Lemma Rleb_iff a b : Rleb a b = true <-> a <= b.
Proof. unfold Rleb. destruct (Rle_dec a b); split; auto; intros; congruence || contradiction. Qed.
Lemma Rltb_iff a b : Rltb a b = true <-> a < b.
Proof. unfold Rltb. destruct (Rlt_dec a b); split; auto; intros; congruence || contradiction. Qed.
Lemma Reqb_iff a b : Reqb a b = true <-> a = b.
Proof. unfold Reqb. destruct (Req_EM_T a b); split; auto; intros; congruence || contradiction. Qed.

Section Axis.
Context (n : nat) (E : nat -> R) (HE : increasing n E) (Hn : (0 < n)%nat).

Lemma filter_len_map {A B} (f : A -> B) p l :
  List.length (filter p (map f l)) = List.length (filter (fun x => p (f x)) l).
Proof. induction l as [|a l IH]; [reflexivity|]. cbn. destruct (p (f a)); cbn; rewrite IH; reflexivity. Qed.

Lemma count_below r m : (m <= S n)%nat ->
  let k := List.length (filter (fun j => Rleb (E j) r) (seq 0 m)) in
  (k <= m)%nat /\ forall j, (j < m)%nat -> (E j <= r <-> (j < k)%nat).
Proof.
  induction m as [|m IH]; intros Hm; [cbn; split; intros; lia|].
  destruct (IH ltac:(lia)) as [IH1 IH2]. cbv zeta in *. rewrite seq_S, filter_app, app_length. cbn [filter Nat.add].
  set (k := List.length (filter (fun j => Rleb (E j) r) (seq 0 m))) in *.
  destruct (Rleb (E m) r) eqn:Hr; cbn [List.length].
  - apply Rleb_iff in Hr. assert (Hk : k = m).
    { destruct m as [|m']; [lia|]. specialize (IH2 m' ltac:(lia)).
      pose proof (HE m' ltac:(lia)). destruct IH2 as [H1 _]. specialize (H1 ltac:(lra)). lia. }
    split; [lia|]. intros j Hj. destruct (Nat.eq_dec j m) as [->|Hne].
    + split; intros; [lia|lra].
    + rewrite IH2 by lia. lia.
  - assert (Hr' : ~ E m <= r) by (rewrite <- Rleb_iff; congruence).
    split; [lia|]. intros j Hj. destruct (Nat.eq_dec j m) as [->|Hne].
    + split; intros; [contradiction|]. lia.
    + rewrite IH2 by lia. lia.
Qed.

Definition elist : list num := map (fun i => Fin (E i)) (seq 0 (n + 1)).

Lemma elist_last : last elist NaN = Fin (E n).
Proof. unfold elist. rewrite Nat.add_1_r, seq_S, map_app. apply last_last. Qed.

Lemma elist_mono_aux m s : (s + m <= S n)%nat -> monotonic (map (fun i => Fin (E i)) (seq s m)) = true.
Proof.
  revert s. induction m as [|m IH]; intros s Hs; [reflexivity|].
  destruct m as [|m]; [reflexivity|].
  specialize (IH (S s) ltac:(lia)). cbn [seq map] in IH |- *. cbn [monotonic] in IH |- *. rewrite IH, andb_true_r.
  cbn. apply negb_true_iff. pose proof (HE s ltac:(lia)).
  destruct (Rltb (E (S s)) (E s)) eqn:X; [|reflexivity]. apply Rltb_iff in X. lra.
Qed.
Lemma elist_mono : monotonic elist = true.
Proof. apply elist_mono_aux. lia. Qed.

Lemma bin_number_ok k x : (k < n)%nat -> Nat.eqb (bin_number elist x) (S k) = in_bin n E k x.
Proof.
  intros Hk. unfold bin_number. rewrite elist_last. destruct x as [r| | |].
  - cbn [neqb]. unfold searchsorted_right, count, elist. rewrite filter_len_map.
    rewrite (filter_ext _ (fun j => Rleb (E j) r)) by (intros; apply nle_Fin).
    pose proof (count_below r (n + 1) ltac:(lia)) as [H1 H2]. cbv zeta in *.
    set (c := List.length _) in *. clearbody c.
    apply eq_true_iff_eq. cbn [in_bin]. rewrite Nat.eqb_eq, orb_true_iff, !andb_true_iff, Rleb_iff, Rltb_iff, Nat.eqb_eq, Reqb_iff.
    assert (Hkk : forall i j, (i < j)%nat -> (j <= n)%nat -> E i < E j) by (intros; apply (increasing_lt n E); [exact HE|lia]).
    destruct (Reqb r (E n)) eqn:He.
    + apply Reqb_iff in He. subst r. pose proof (proj1 (H2 n ltac:(lia)) ltac:(lra)).
      split.
      * intros. right. split; [lia|reflexivity].
      * intros [[_ Hlt]|[Hs _]]; [|lia].
        destruct (Nat.eq_dec (S k) n) as [Es|Es]; [rewrite Es in Hlt; lra|].
        pose proof (Hkk (S k) n ltac:(lia) ltac:(lia)). lra.
    + assert (r <> E n) by (rewrite <- Reqb_iff; congruence).
      pose proof (H2 k ltac:(lia)) as Ha. pose proof (H2 (S k) ltac:(lia)) as Hb.
      split.
      * intros ->. left. split; [apply Ha; lia|]. apply Rnot_le_lt. rewrite Hb. lia.
      * intros [[X Y]|[_ X]]; [|contradiction]. apply Ha in X.
        assert (~ (S k < c)%nat) by (rewrite <- Hb; lra). lia.
  - cbn [neqb in_bin]. unfold searchsorted_right, count, elist. rewrite filter_len_map.
    rewrite (filter_ext _ (fun j => true)) by (intros; reflexivity).
    replace (filter (fun _ : nat => true) (seq 0 (n + 1))) with (seq 0 (n + 1)).
    2:{ generalize (seq 0 (n + 1)). intros l. induction l; cbn; congruence. }
    rewrite seq_length. apply Nat.eqb_neq. lia.
  - cbn [neqb in_bin]. unfold searchsorted_right, count, elist. rewrite filter_len_map.
    rewrite (filter_ext _ (fun j => false)) by (intros; reflexivity).
    replace (filter (fun _ : nat => false) (seq 0 (n + 1))) with (@nil nat); [reflexivity|].
    generalize (seq 0 (n + 1)). intros l. induction l; cbn; congruence.
  - cbn [neqb in_bin]. unfold searchsorted_right, elist. rewrite map_length, seq_length. apply Nat.eqb_neq. lia.
Qed.

Lemma in_bin_range k x : (k < n)%nat -> in_bin n E k x = true -> in_range n E x = true.
Proof.
  intros Hk. destruct x as [r| | |]; cbn [in_bin in_range]; try discriminate.
  rewrite orb_true_iff, !andb_true_iff, !Rleb_iff, Rltb_iff, Nat.eqb_eq, Reqb_iff.
  assert (Hkk : forall i j, (i < j)%nat -> (j <= n)%nat -> E i < E j) by (intros; apply (increasing_lt n E); [exact HE|lia]).
  assert (E 0%nat <= E k) by (destruct k; [lra|left; apply Hkk; lia]).
  assert (E (S k) <= E n) by (destruct (Nat.eq_dec (S k) n) as [->|]; [lra|left; apply Hkk; lia]).
  assert (E 0%nat < E n) by (apply Hkk; lia).
  intros [[? ?]|[? ->]]; split; lra.
Qed.

Lemma in_range_bin x : in_range n E x = true ->
  exists k, (k < n)%nat /\ in_bin n E k x = true /\ forall j, (j < n)%nat -> in_bin n E j x = true -> j = k.
Proof.
  destruct x as [r| | |]; cbn [in_range]; try discriminate. rewrite andb_true_iff, !Rleb_iff. intros [H0 H1].
  assert (U : forall k, (k < n)%nat -> in_bin n E k (Fin r) = true -> (bin_number elist (Fin r) = S k)).
  { intros k Hk Hb. rewrite <- bin_number_ok in Hb by exact Hk. apply Nat.eqb_eq in Hb. exact Hb. }
  assert (exists k, (k < n)%nat /\ in_bin n E k (Fin r) = true) as (k & Hk & Hb).
  { destruct (Req_dec r (E n)) as [->|Hne].
    - exists (n - 1)%nat. split; [lia|]. cbn [in_bin]. rewrite orb_true_iff, !andb_true_iff, Nat.eqb_eq, Reqb_iff. right; split; [lia|reflexivity].
    - pose proof (count_below r (n + 1) ltac:(lia)) as [C1 C2]. cbv zeta in *. set (c := List.length _) in *. clearbody c.
      assert (0 < c)%nat by (apply (C2 0%nat); [lia|exact H0]).
      assert (c <= n)%nat. { destruct (le_lt_dec c n); [assumption|]. pose proof (proj2 (C2 n ltac:(lia)) ltac:(lia)). lra. }
      exists (c - 1)%nat. split; [lia|]. cbn [in_bin]. rewrite orb_true_iff, !andb_true_iff, Rleb_iff, Rltb_iff. left. split.
      + apply C2; lia.
      + replace (S (c - 1)) with c by lia. apply Rnot_le_lt. rewrite C2 by lia. lia. }
  exists k. split; [exact Hk|]. split; [exact Hb|]. intros j Hj Hb'. apply U in Hb; [|exact Hk]. apply U in Hb'; [|exact Hj]. lia.
Qed.

Lemma sel_sum x w : Sum n (fun k => if in_bin n E k x then w else 0) = if in_range n E x then w else 0.
Proof.
  destruct (in_range n E x) eqn:Hr.
  - destruct (in_range_bin x Hr) as (k & Hk & Hb & Hu). rewrite (Sum_single _ _ k Hk).
    + rewrite Hb. reflexivity.
    + intros i Hi Hne. destruct (in_bin n E i x) eqn:Hi'; [|reflexivity]. elim Hne. apply Hu; assumption.
  - apply Sum_all_0. intros i Hi. destruct (in_bin n E i x) eqn:Hb; [|reflexivity].
    apply in_bin_range in Hb; [congruence|exact Hi].
Qed.

Lemma between_range x : between (Fin (E 0%nat)) (Fin (E n)) x = in_range n E x.
Proof. destruct x as [r| | |]; unfold between; try reflexivity. rewrite !nle_Fin. reflexivity. Qed.
End Axis.
