(** * HeapLemmas: views, in-place writes, and code on the heap against code on
    values. *)
From Coq Require Import Reals String Ascii List Bool Arith ZArith Lia Permutation.
From Verif Require Import Num Arr ArrLemmas PyStr Cube Base Heap.
Import ListNotations.
Local Open Scope nat_scope.

(** ** arrays equal in shape and on in-bounds entries *)
Definition same {A} (a b : arr A) : Prop :=
  shp a = shp b /\ forall idx, inb idx (shp a) -> ent a idx = ent b idx.
Definition ressame {A} (x y : res (arr A)) : Prop :=
  match x, y with
  | Ok a, Ok b => same a b
  | Err e, Err e' => e = e'
  | _, _ => False
  end.

Lemma same_refl {A} (a : arr A) : same a a. Proof. split; auto. Qed.
Lemma same_sym {A} (a b : arr A) : same a b -> same b a.
Proof. intros [H1 H2]; split; [auto|]. rewrite <- H1. intros; symmetry; auto. Qed.
Lemma same_trans {A} (a b c : arr A) : same a b -> same b c -> same a c.
Proof. intros [H1 H2] [H3 H4]; split; [congruence|]. intros. rewrite H2, H4; auto. rewrite <- H1; auto. Qed.
Lemma same_is {A} (a b : arr A) : same a b <-> arr_is a (shp b) (ent b).
Proof.
  split; intros [H1 H2]; split; auto.
  - rewrite <- H1; auto.
  - rewrite H1; auto.
Qed.
Lemma ressame_refl {A} (x : res (arr A)) : ressame x x. Proof. destruct x; cbn; auto using same_refl. Qed.
Lemma ressame_trans {A} (x y z : res (arr A)) : ressame x y -> ressame y z -> ressame x z.
Proof. destruct x, y, z; cbn; try tauto; try congruence. apply same_trans. Qed.
Lemma ressame_sym {A} (x y : res (arr A)) : ressame x y -> ressame y x.
Proof. destruct x, y; cbn; try tauto; auto. apply same_sym. Qed.

Lemma same_amap {A B} (f : A -> B) a b : same a b -> same (amap f a) (amap f b).
Proof. intros [H1 H2]; split; [exact H1|]. cbn. intros; rewrite H2; auto. Qed.
Lemma same_bop {A B C} (f : A -> B -> C) a a' b b' : same a a' -> same b b' -> ressame (bop f a b) (bop f a' b').
Proof.
  intros [H1 H2] [H3 H4]. unfold bop. rewrite <- H1, <- H3.
  destruct (bshape (shp a) (shp b)) as [s|] eqn:E; cbn; [|reflexivity].
  split; [reflexivity|]. cbn. intros idx Hi.
  rewrite H2 by (eapply bshape_inb_l; eauto). rewrite H4 by (eapply bshape_inb_r; eauto). reflexivity.
Qed.
Lemma same_iop {A B} (f : A -> B -> A) a a' b b' : same a a' -> same b b' -> ressame (iop f a b) (iop f a' b').
Proof.
  intros [H1 H2] [H3 H4]. unfold iop. rewrite <- H1, <- H3.
  destruct (bshape (shp a) (shp b)) as [s|] eqn:E; cbn; [|reflexivity].
  destruct (natlist_eqb s (shp a)) eqn:Es; [|reflexivity]. apply natlist_eqb_eq in Es as ->.
  split; [reflexivity|]. cbn. intros idx Hi.
  rewrite H2 by auto. rewrite H4 by (eapply bshape_inb_r; eauto). reflexivity.
Qed.
Lemma axis_mask_length nd axs : length (axis_mask nd axs) = nd.
Proof. unfold axis_mask. rewrite map_length, seq_length. reflexivity. Qed.
Lemma same_reduce (red : list num -> num) axs a b : same a b -> same (reduce red axs a) (reduce red axs b).
Proof.
  intros H. apply same_is in H. apply (reduce_is red axs) in H. apply same_is. exact H.
Qed.
Lemma same_lse axes a b : same a b -> ressame (logsumexp a axes) (logsumexp b axes).
Proof.
  intros H. unfold logsumexp. rewrite <- (proj1 H).
  destruct (norm_axes (length (shp a)) axes); cbn; [|reflexivity].
  destruct (has_zero _); [reflexivity|]. apply same_reduce; assumption.
Qed.
Lemma same_asum axes a b : same a b -> ressame (asum axes a) (asum axes b).
Proof.
  intros H. unfold asum. rewrite <- (proj1 H).
  destruct (norm_axes (length (shp a)) axes); cbn; [|reflexivity]. apply same_reduce; assumption.
Qed.
Lemma same_lse_all a b : same a b -> ressame (logsumexp_all a) (logsumexp_all b).
Proof.
  intros [H1 H2]. unfold logsumexp_all. rewrite <- H1. destruct (has_zero _); [reflexivity|].
  split; [reflexivity|]. intros idx _. cbn. f_equal. apply map_ext_in. intros i Hi.
  apply H2. apply in_all_idx; exact Hi.
Qed.
Lemma same_getitem {A} spec (a b : arr A) : same a b -> ressame (getitem spec a) (getitem spec b).
Proof.
  intros [H1 H2]. unfold getitem. rewrite <- H1. destruct (gi_shape spec (shp a)) as [s|] eqn:E; [|reflexivity].
  split; [reflexivity|]. cbn. intros idx Hi. apply H2. eapply gi_inb; eauto.
Qed.
Lemma same_T {A} (a b : arr A) : same a b -> same (T a) (T b).
Proof. intros H. apply same_is in H. apply T_is in H. apply same_is. exact H. Qed.
Lemma same_slice0 {A} lo n (a b : arr A) : lo + n <= hd 0 (shp a) \/ n = 0 -> same a b -> same (slice0 lo n a) (slice0 lo n b).
Proof.
  intros Hn [H1 H2]. unfold slice0. rewrite <- H1. split; [reflexivity|]. cbn.
  destruct (shp a) as [|d s] eqn:E.
  - intros idx Hi. apply inb_nil in Hi as ->. apply H2. constructor.
  - intros idx Hi. apply inb_cons in Hi as (i & r & -> & Hi & Hr). apply H2.
    cbn in Hn. constructor; [lia|assumption].
Qed.
Lemma same_tail0 {A} (a b : arr A) : same a b -> same (tail0 a) (tail0 b).
Proof. intros H. unfold tail0, len0. rewrite <- (proj1 H). apply same_slice0; [lia|assumption]. Qed.
Lemma same_init0 {A} (a b : arr A) : same a b -> same (init0 a) (init0 b).
Proof. intros H. unfold init0, len0. rewrite <- (proj1 H). apply same_slice0; [lia|assumption]. Qed.

(** ** the order computed by np.moveaxis is a permutation of the axes *)
Lemma insert_at_perm {A} p (x : A) l : Permutation (insert_at p x l) (x :: l).
Proof.
  revert p; induction l as [|y l IH]; intros [|p]; cbn; try apply Permutation_refl.
  rewrite IH. apply perm_swap.
Qed.
Lemma insert_pair_perm p l : Permutation (insert_pair p l) (p :: l).
Proof.
  induction l as [|q l IH]; cbn; [apply Permutation_refl|].
  destruct (Nat.leb _ _); [apply Permutation_refl|]. rewrite IH. apply perm_swap.
Qed.
Lemma sort_pairs_perm l : Permutation (sort_pairs l) l.
Proof. induction l as [|p l IH]; cbn; [constructor|]. rewrite insert_pair_perm, IH. reflexivity. Qed.
Lemma fold_insert_perm (ps : list (nat * nat)) o :
  Permutation (fold_left (fun o ds => insert_at (fst ds) (snd ds) o) ps o) (map snd ps ++ o).
Proof.
  revert o; induction ps as [|p ps IH]; intros o; cbn; [reflexivity|].
  rewrite IH, insert_at_perm. symmetry. apply Permutation_middle.
Qed.
Lemma memb_spec x l : memb x l = true <-> In x l.
Proof.
  unfold memb. rewrite existsb_exists. split; [intros (y & H & E); apply Nat.eqb_eq in E; subst; auto|].
  intros H; exists x; rewrite Nat.eqb_refl; auto.
Qed.
Lemma nodupb_spec l : nodupb l = true -> NoDup l.
Proof.
  induction l as [|x l IH]; cbn; [constructor|]. rewrite andb_true_iff, negb_true_iff. intros [H1 H2].
  constructor; [|auto]. rewrite <- memb_spec, H1. discriminate.
Qed.
Lemma map_snd_combine {A B} (l : list A) (l' : list B) :
  length l = length l' -> map snd (combine l l') = l'.
Proof. revert l'; induction l as [|a l IH]; intros [|b l'] H; cbn in *; try discriminate; auto. rewrite IH by lia; auto. Qed.
Lemma moveaxis_order_perm nd src dst :
  NoDup src -> (forall x, In x src -> x < nd) -> length src = length dst ->
  Permutation (moveaxis_order nd src dst) (seq 0 nd).
Proof.
  intros Hd Hb Hl. unfold moveaxis_order. rewrite fold_insert_perm.
  apply NoDup_Permutation.
  - apply Permutation_NoDup with (src ++ filter (fun n => negb (memb n src)) (seq 0 nd)).
    + apply Permutation_app_tail. rewrite sort_pairs_perm, map_snd_combine by auto. reflexivity.
    + apply NoDup_app_remove_l with (l := []) || idtac.
      revert Hd. clear. induction src as [|x src IH]; intros Hd.
      * cbn. apply NoDup_filter, seq_NoDup.
      * inversion Hd as [|? ? Hx Hs]; subst. cbn [app]. constructor.
        -- rewrite in_app_iff, filter_In. intros [H|[_ H]]; [auto|].
           cbn in H. rewrite Nat.eqb_refl in H. discriminate.
        -- assert (HG : forall l l' : list nat, NoDup l -> NoDup l' -> (forall y, In y l -> ~ In y l') -> NoDup (l ++ l')).
           { clear. induction l as [|y l IH]; intros l' H1 H2 H3; cbn; auto. inversion H1; subst.
             constructor; [rewrite in_app_iff; intros [H|H]; [auto|eapply H3; [left; reflexivity|exact H]]|].
             apply IH; auto. intros z Hz. apply H3; right; auto. }
           apply HG; [assumption|apply NoDup_filter, seq_NoDup|].
           intros y Hy. rewrite filter_In, negb_true_iff. intros [_ H].
           assert (E : memb y (x :: src) = true) by (apply memb_spec; right; auto). congruence.
  - apply seq_NoDup.
  - intros x. rewrite in_app_iff.
    assert (E : In x (map snd (sort_pairs (combine dst src))) <-> In x src).
    { split; apply Permutation_in; rewrite sort_pairs_perm, map_snd_combine by auto; reflexivity. }
    rewrite E, filter_In, in_seq, negb_true_iff. split; [intros [H|[H _]]; [specialize (Hb x H); lia|lia]|].
    intros H. destruct (memb x src) eqn:M; [left; apply memb_spec; exact M|right; split; [lia|reflexivity]].
Qed.
Lemma map_res_bound nd l l' : map_res (norm_axis nd) l = Ok l' -> forall x, In x l' -> x < nd.
Proof.
  revert l'; induction l as [|z l IH]; intros l'; cbn; [intros [= <-] x []|].
  destruct (norm_axis nd z) as [k|] eqn:Ek; [|discriminate]. cbn.
  destruct (map_res (norm_axis nd) l) as [ks|]; [|discriminate]. cbn. intros [= <-] x [<-|H]; [|eapply IH; eauto].
  revert Ek. unfold norm_axis. destruct (Z.leb_spec 0 z).
  - destruct (Z.ltb_spec z (Z.of_nat nd)); [|discriminate]. intros [= <-]. lia.
  - destruct (Z.leb_spec 0 (z + Z.of_nat nd)); [|discriminate]. intros [= <-]. lia.
Qed.
Lemma norm_axes_ok nd l l' : norm_axes nd l = Ok l' -> NoDup l' /\ forall x, In x l' -> x < nd.
Proof.
  unfold norm_axes. destruct (map_res (norm_axis nd) l) as [ks|] eqn:E; [|discriminate]. cbn.
  destruct (nodupb ks) eqn:D; [|discriminate]. intros [= <-]. split; [apply nodupb_spec; exact D|].
  eapply map_res_bound; eauto.
Qed.

Lemma index_of_nth order p : NoDup order -> p < length order -> index_of (nth p order 0) order = p.
Proof.
  revert p; induction order as [|x o IH]; intros p Hd Hp; cbn in *; [lia|].
  inversion Hd as [|? ? Hx Ho]; subst. destruct p as [|p]; [rewrite Nat.eqb_refl; reflexivity|].
  destruct (Nat.eqb_spec (nth p o 0) x) as [<-|N]; [exfalso; apply Hx, nth_In; lia|].
  rewrite IH; [reflexivity|assumption|lia].
Qed.
Lemma index_of_lt x order : In x order -> index_of x order < length order /\ nth (index_of x order) order 0 = x.
Proof.
  induction order as [|y o IH]; cbn; [intros []|]. intros H. destruct (Nat.eqb_spec x y) as [->|N]; [split; [lia|reflexivity]|].
  destruct H as [->|H]; [congruence|]. destruct (IH H). split; [lia|assumption].
Qed.
Lemma Forall2_nth_iff (idx s : list nat) :
  inb idx s <-> length idx = length s /\ forall k, k < length s -> nth k idx 0 < nth k s 0.
Proof.
  split.
  - induction 1 as [|i d r s' Hi Hr [IL IH]]; [split; [reflexivity|intros k H; cbn in H; lia]|].
    split; [cbn; lia|]. intros [|k] Hk; cbn in *; [assumption|apply IH; lia].
  - revert idx; induction s as [|d s IH]; intros [|i r] [L H]; cbn in L; try discriminate; [constructor|].
    constructor; [apply (H 0); cbn; lia|]. apply IH. split; [lia|]. intros k Hk. apply (H (Datatypes.S k)); cbn; lia.
Qed.
Definition tr_idx (nd : nat) (order idx : list nat) : list nat :=
  map (fun j => nth (index_of j order) idx 0) (seq 0 nd).
Lemma nth_map_in {A B} (f : A -> B) l k d d' : k < length l -> nth k (map f l) d = f (nth k l d').
Proof. revert k; induction l as [|x l IH]; intros [|k] H; cbn in *; try lia; auto. apply IH; lia. Qed.
Lemma nth_tr_idx nd order idx k : k < nd -> nth k (tr_idx nd order idx) 0 = nth (index_of k order) idx 0.
Proof.
  intros H. unfold tr_idx. rewrite (nth_map_in _ _ k 0 0) by (rewrite seq_length; exact H).
  rewrite seq_nth by exact H. reflexivity.
Qed.
Lemma transpose_inb order s idx :
  Permutation order (seq 0 (length s)) ->
  inb idx (map (fun k => nth k s 0) order) -> inb (tr_idx (length s) order idx) s.
Proof.
  intros P H. apply Forall2_nth_iff in H as [L H]. rewrite map_length in L, H.
  assert (Lo : length order = length s) by (rewrite (Permutation_length P), seq_length; reflexivity).
  apply Forall2_nth_iff. split; [unfold tr_idx; rewrite map_length, seq_length; reflexivity|].
  intros k Hk. rewrite nth_tr_idx by exact Hk.
  assert (Hin : In k order) by (apply (Permutation_in k (Permutation_sym P)), in_seq; lia).
  destruct (index_of_lt k order Hin) as [B E]. specialize (H _ B).
  rewrite (nth_map_in _ _ _ 0 0), E in H by exact B. exact H.
Qed.
Lemma transpose_inj order n i j :
  Permutation order (seq 0 n) -> length i = n -> length j = n ->
  tr_idx n order i = tr_idx n order j -> i = j.
Proof.
  intros P Li Lj E.
  assert (Lo : length order = n) by (rewrite (Permutation_length P), seq_length; reflexivity).
  assert (D : NoDup order) by (apply (Permutation_NoDup (Permutation_sym P)), seq_NoDup).
  apply (nth_ext i j 0 0); [congruence|]. intros p Hp. rewrite Li in Hp.
  assert (Hk : nth p order 0 < n).
  { assert (In (nth p order 0) (seq 0 n)) by (apply (Permutation_in _ P), nth_In; lia). apply in_seq in H. lia. }
  pose proof (f_equal (fun l => nth (nth p order 0) l 0) E) as E'. cbn in E'.
  rewrite !nth_tr_idx, index_of_nth in E' by (auto; lia). exact E'.
Qed.
Lemma same_transpose {A} order (a b : arr A) :
  Permutation order (seq 0 (length (shp a))) -> same a b -> same (transpose a order) (transpose b order).
Proof.
  intros P [H1 H2]. unfold transpose. rewrite <- H1. split; [reflexivity|]. cbn. intros idx Hi.
  apply H2. exact (transpose_inb order (shp a) idx P Hi).
Qed.
Lemma same_moveaxis {A} src dst (a b : arr A) : same a b -> ressame (moveaxis a src dst) (moveaxis b src dst).
Proof.
  intros H. unfold moveaxis. rewrite <- (proj1 H).
  destruct (norm_axes (length (shp a)) src) as [s|] eqn:E; cbn; [|reflexivity].
  destruct (norm_axes (length (shp a)) dst) as [d|]; cbn; [|reflexivity].
  destruct (Nat.eqb_spec (length s) (length d)) as [L|]; [|reflexivity].
  apply same_transpose; [|assumption]. apply norm_axes_ok in E as [? ?]. apply moveaxis_order_perm; auto.
Qed.

(** ** heaps *)
Definition keeps (n : nat) (h h' : heap) : Prop :=
  length h <= length h' /\ forall a, a < n -> nth_error h' a = nth_error h a.

Lemma keeps_refl n h : keeps n h h. Proof. split; auto. Qed.
Lemma keeps_trans n h1 h2 h3 : keeps n h1 h2 -> keeps n h2 h3 -> keeps n h1 h3.
Proof. intros [L1 H1] [L2 H2]; split; [lia|]. intros a Ha. rewrite H2, H1; auto. Qed.
Lemma keeps_weak n m h h' : n <= m -> keeps m h h' -> keeps n h h'.
Proof. intros L [H1 H2]; split; [assumption|]. intros; apply H2; lia. Qed.
Lemma keeps_app h l : keeps (length h) h (h ++ l).
Proof. split; [rewrite app_length; lia|]. intros a Ha. apply nth_error_app1; exact Ha. Qed.

Lemma set_nth_length {A} n (x : A) l : length (set_nth n x l) = length l.
Proof. revert n; induction l as [|y l IH]; intros [|n]; cbn; auto. Qed.
Lemma set_nth_same {A} n (x : A) l : n < length l -> nth_error (set_nth n x l) n = Some x.
Proof. revert n; induction l as [|y l IH]; intros [|n] H; cbn in *; try lia; auto. apply IH; lia. Qed.
Lemma set_nth_other {A} n m (x : A) l : m <> n -> nth_error (set_nth n x l) m = nth_error l m.
Proof.
  revert n m; induction l as [|y l IH]; intros [|n] [|m] H; cbn; auto; try congruence.
Qed.
Lemma buffer_nth h a : buffer h a = match nth_error h a with Some v => v | None => scal NaN end.
Proof. unfold buffer. revert a; induction h as [|v h IH]; intros [|a]; cbn; auto. Qed.
Lemma keeps_buffer n h h' a : keeps n h h' -> a < n -> buffer h' a = buffer h a.
Proof. intros [_ H] Ha. rewrite !buffer_nth, H; auto. Qed.
Lemma keeps_value n h h' r : keeps n h h' -> na_addr r < n -> value h' r = value h r.
Proof. intros K Ha. unfold value. rewrite (keeps_buffer n h h'); auto. Qed.

(** no two in-bounds entries of a view are the same cell *)
Definition inj (r : nda) : Prop :=
  forall i j, inb i (na_shp r) -> inb j (na_shp r) -> na_idx r i = na_idx r j -> i = j.
(** [r] is an array in [h], in a buffer not older than [n], and holds [v] *)
Definition ref (n : nat) (h : heap) (r : nda) (v : arr num) : Prop :=
  n <= na_addr r < length h /\ inj r /\ same (value h r) v.

Lemma ref_weak n m h r v : n <= m -> ref m h r v -> ref n h r v.
Proof. intros L [H1 H2]; split; [lia|assumption]. Qed.
Lemma ref_keeps n h h' r v : keeps (length h) h h' -> ref n h r v -> ref n h' r v.
Proof.
  intros K [H1 [H2 H3]]. split; [destruct K; lia|]. split; [assumption|].
  rewrite (keeps_value (length h) h h') by (auto; lia). exact H3.
Qed.
Lemma ref_keeps_lt m n h h' r v : keeps m h h' -> na_addr r < m -> ref n h r v -> ref n h' r v.
Proof.
  intros K Hm [H1 [H2 H3]]. split; [destruct K; lia|]. split; [assumption|].
  rewrite (keeps_value m h h') by auto. exact H3.
Qed.
Lemma ref_same n h r v v' : same v v' -> ref n h r v -> ref n h r v'.
Proof. intros S [H1 [H2 H3]]. split; [|split]; auto. eapply same_trans; eauto. Qed.

(** *** views *)
Lemma ref_getitem n h spec r v :
  ref n h r v ->
  match v_getitem spec r, getitem spec v with
  | Ok r', Ok v' => ref n h r' v'
  | Err e, Err e' => e = e'
  | _, _ => False
  end.
Proof.
  intros [H1 [H2 H3]]. pose proof (same_getitem spec _ _ H3) as H.
  unfold v_getitem. unfold getitem in *. cbn [value shp] in H.
  destruct (gi_shape spec (na_shp r)) as [s|] eqn:E; destruct (gi_shape spec (shp v)) as [s'|] eqn:E'; cbn in H; try contradiction; auto.
  split; [exact H1|]. split; [|exact H].
  intros i j Hi Hj Eq. cbn in *. apply H2 in Eq; try (eapply gi_inb; eauto).
  revert Eq Hi Hj E. clear. revert s i j. generalize (na_shp r) as d. clear r.
  induction spec as [|[| |k] sp IH]; intros d s i j; cbn.
  - auto.
  - destruct (gi_shape sp d) as [s'|] eqn:E; [|discriminate]. intros Eq Hi Hj [= <-].
    apply inb_cons in Hi as (i0 & i' & -> & Hi0 & Hi). apply inb_cons in Hj as (j0 & j' & -> & Hj0 & Hj).
    replace i0 with 0 by lia. replace j0 with 0 by lia. f_equal. eapply IH; eauto.
  - destruct d as [|d0 d]; [discriminate|]. destruct (gi_shape sp d) as [s'|] eqn:E; [|discriminate].
    intros Eq Hi Hj [= <-].
    apply inb_cons in Hi as (i0 & i' & -> & Hi0 & Hi). apply inb_cons in Hj as (j0 & j' & -> & Hj0 & Hj).
    cbn in Eq. injection Eq as -> Eq. f_equal. eapply IH; eauto.
  - destruct d as [|d0 d]; [discriminate|]. destruct (int_ok d0 k); [|discriminate].
    intros Eq Hi Hj E. cbn in Eq. injection Eq as Eq. eapply IH; eauto.
Qed.
Lemma ref_T n h r v : ref n h r v -> ref n h (v_T r) (T v).
Proof.
  intros [H1 [H2 H3]]. split; [exact H1|]. split; [|exact (same_T _ _ H3)].
  intros i j Hi Hj Eq. cbn in *. apply H2 in Eq.
  - rewrite <- (rev_involutive i), Eq, rev_involutive. reflexivity.
  - rewrite <- (rev_involutive (na_shp r)). apply inb_rev; exact Hi.
  - rewrite <- (rev_involutive (na_shp r)). apply inb_rev; exact Hj.
Qed.
Lemma ref_transpose n h r v order :
  Permutation order (seq 0 (length (na_shp r))) -> ref n h r v -> ref n h (v_transpose r order) (transpose v order).
Proof.
  intros P [H1 [H2 H3]]. split; [exact H1|]. split; [|exact (same_transpose order (value h r) v P H3)].
  intros i j Hi Hj Eq. cbn in *.
  assert (L : length order = length (na_shp r)) by (rewrite (Permutation_length P), seq_length; reflexivity).
  apply H2 in Eq; try (apply (transpose_inb order); assumption).
  apply (transpose_inj order (length (na_shp r))); auto;
    [apply inb_length in Hi; rewrite Hi|apply inb_length in Hj; rewrite Hj]; rewrite map_length; exact L.
Qed.
Lemma ref_moveaxis n h r v src dst :
  ref n h r v ->
  match v_moveaxis r src dst, moveaxis v src dst with
  | Ok r', Ok v' => ref n h r' v'
  | Err e, Err e' => e = e'
  | _, _ => False
  end.
Proof.
  intros Hr. pose proof Hr as [H1 [H2 [H3 _]]]. cbn in H3. unfold v_moveaxis, moveaxis. rewrite <- H3.
  destruct (norm_axes (length (na_shp r)) src) as [s|] eqn:E; cbn; [|reflexivity].
  destruct (norm_axes (length (na_shp r)) dst) as [d|]; cbn; [|reflexivity].
  destruct (Nat.eqb_spec (length s) (length d)) as [L|]; [|reflexivity].
  apply ref_transpose; [|assumption]. apply norm_axes_ok in E as [? ?]. apply moveaxis_order_perm; auto.
Qed.
Lemma ref_slice0 n h r v lo k :
  lo + k <= hd 0 (na_shp r) \/ k = 0 -> ref n h r v -> ref n h (v_slice0 lo k r) (slice0 lo k v).
Proof.
  intros Hk [H1 [H2 H3]]. split; [exact H1|]. split.
  - intros i j Hi Hj Eq. cbn in *. destruct (na_shp r) as [|d s] eqn:E.
    + apply inb_nil in Hi as ->. apply inb_nil in Hj as ->. reflexivity.
    + apply inb_cons in Hi as (i0 & i' & -> & Hi0 & Hi). apply inb_cons in Hj as (j0 & j' & -> & Hj0 & Hj).
      apply H2 in Eq; [injection Eq as E1 E2; f_equal; [lia|assumption]|..]; rewrite E; cbn in Hk; constructor; auto; lia.
  - pose proof (same_slice0 lo k (value h r) v Hk H3) as [A B]. split; [exact A|]. intros idx Hi.
    rewrite <- B by exact Hi. cbn. destruct idx; reflexivity.
Qed.
Lemma ref_tail0 n h r v : ref n h r v -> ref n h (v_tail0 r) (tail0 v).
Proof.
  intros H. unfold v_tail0, tail0, len0. pose proof H as [_ [_ [E _]]]. cbn in E. rewrite <- E.
  apply ref_slice0; [lia|assumption].
Qed.
Lemma ref_init0 n h r v : ref n h r v -> ref n h (v_init0 r) (init0 v).
Proof.
  intros H. unfold v_init0, init0, len0. pose proof H as [_ [_ [E _]]]. cbn in E. rewrite <- E.
  apply ref_slice0; [lia|assumption].
Qed.

(** *** writes *)
Lemma store_length h r v : length (store h r v) = length h.
Proof. apply set_nth_length. Qed.
Lemma store_buffer_other h r v a : a <> na_addr r -> buffer (store h r v) a = buffer h a.
Proof. intros H. rewrite !buffer_nth. unfold store. rewrite set_nth_other by exact H. reflexivity. Qed.
Lemma store_keeps n h r v : n <= na_addr r -> keeps n h (store h r v).
Proof.
  intros H. split; [rewrite store_length; lia|]. intros a Ha. unfold store. apply set_nth_other. lia.
Qed.
Lemma store_other n h r v r' w : na_addr r' <> na_addr r -> ref n h r' w -> ref n (store h r v) r' w.
Proof.
  intros N [H1 [H2 H3]]. split; [rewrite store_length; exact H1|]. split; [exact H2|].
  unfold value. rewrite store_buffer_other by exact N. exact H3.
Qed.
Lemma store_ref n h r v w : ref n h r w -> shp v = na_shp r -> ref n (store h r v) r v.
Proof.
  intros [H1 [H2 _]] Hs. split; [rewrite store_length; exact H1|]. split; [exact H2|].
  split; [symmetry; exact Hs|]. cbn. intros idx Hi. rewrite buffer_nth. unfold store.
  rewrite set_nth_same by lia. cbn.
  destruct (List.find (fun idx0 => natlist_eqb (na_idx r idx0) (na_idx r idx)) (all_idx (na_shp r))) as [j|] eqn:E.
  - apply find_some in E as [E1 E2]. apply natlist_eqb_eq in E2. apply in_all_idx in E1.
    rewrite (H2 j idx E1 Hi E2). reflexivity.
  - exfalso. pose proof (find_none _ _ E idx (proj2 (in_all_idx _ _) Hi)) as F. cbn in F.
    rewrite natlist_eqb_refl in F. discriminate.
Qed.

(** ** code on the heap against code on values *)

(** run from [h], [m] leaves the first [n] buffers alone and ends as [p] does,
    with results related by [R] *)
Definition sp {A B} (n : nat) (h : heap) (m : prog A) (p : res B) (R : heap -> A -> B -> Prop) : Prop :=
  let '(h', x) := m h in
  keeps n h h' /\
  match x, p with
  | Ok a, Ok b => R h' a b
  | Err e, Err e' => e = e'
  | _, _ => False
  end.
(** nothing that existed is changed and the result is a new array *)
Definition good (h : heap) (m : prog nda) (p : res (arr num)) : Prop :=
  sp (length h) h m p (fun h' r v => ref (length h) h' r v).

Section rules.
Context {A B A' B' : Type}.
Lemma sp_ret n h (a : A) (b : B) (R : heap -> A -> B -> Prop) : R h a b -> sp n h (ret a) (Ok b) R.
Proof. intros H. split; [apply keeps_refl|exact H]. Qed.
Lemma sp_err n h e (R : heap -> A -> B -> Prop) : sp n h (lift (Err e)) (Err e) R.
Proof. split; [apply keeps_refl|reflexivity]. Qed.
Lemma sp_conseq n h (m : prog A) (p : res B) (R R' : heap -> A -> B -> Prop) :
  (forall h' a b, keeps n h h' -> R h' a b -> R' h' a b) -> sp n h m p R -> sp n h m p R'.
Proof.
  intros H. unfold sp. destruct (m h) as [h' [a|e]], p as [b|e']; intros [K X]; split; auto.
Qed.
Lemma sp_weak n k h (m : prog A) (p : res B) (R : heap -> A -> B -> Prop) :
  n <= k -> sp k h m p R -> sp n h m p R.
Proof. intros L. unfold sp. destruct (m h). intros [K X]; split; [eapply keeps_weak; eauto|exact X]. Qed.
Lemma sp_bind n k h (m : prog A) (p : res B) (R1 : heap -> A -> B -> Prop)
      (f : A -> prog A') (g : B -> res B') (R : heap -> A' -> B' -> Prop) :
  n <= k -> sp k h m p R1 ->
  (forall h' a b, keeps k h h' -> R1 h' a b -> sp n h' (f a) (g b) R) ->
  sp n h (bnd m f) (bind p g) R.
Proof.
  intros L. unfold sp, bnd. destruct (m h) as [h' [a|e]], p as [b|e']; cbn; intros [K X] H; try contradiction.
  - specialize (H h' a b K X). destruct (f a h') as [h'' x]. destruct H as [K' H].
    split; [eapply keeps_trans; [eapply keeps_weak; eauto|exact K']|exact H].
  - split; [eapply keeps_weak; eauto|exact X].
Qed.
Lemma sp_lift n h (x : res A) (p : res B) (R : A -> B -> Prop) :
  match x, p with Ok a, Ok b => R a b | Err e, Err e' => e = e' | _, _ => False end ->
  sp n h (lift x) p (fun h' a b => h' = h /\ R a b).
Proof. intros H. split; [apply keeps_refl|]. destruct x, p; auto. Qed.
End rules.

Lemma good_new h f p : ressame (f h) p -> good h (new f) p.
Proof.
  intros H. unfold good, sp, new. destruct (f h) as [v|e], p as [w|e']; cbn in H; try contradiction; cbn.
  - split; [apply keeps_app|]. split; [cbn; rewrite app_length; cbn; lia|]. split; [intros i j _ _ E; exact E|].
    unfold value, buffer. cbn. rewrite app_nth2, Nat.sub_diag by lia. cbn. destruct v; exact H.
  - split; [apply keeps_refl|exact H].
Qed.
Lemma good_alloc h v : good h (alloc v) (Ok v).
Proof. apply (good_new h (fun _ => Ok v)). apply same_refl. Qed.

Section ops.
Variables (n m : nat) (h : heap) (a b : nda) (va vb : arr num).
Hypotheses (Ha : ref n h a va) (Hb : ref m h b vb).
Lemma good_copy : good h (h_copy a) (Ok va).
Proof. apply good_new. apply Ha. Qed.
Lemma good_map f : good h (h_map f a) (Ok (amap f va)).
Proof. apply good_new. apply same_amap. apply Ha. Qed.
Lemma good_bop f : good h (h_bop f a b) (bop f va vb).
Proof. apply good_new. apply same_bop; [apply Ha|apply Hb]. Qed.
Lemma good_lse axes : good h (h_lse a axes) (logsumexp va axes).
Proof. apply good_new. apply same_lse. apply Ha. Qed.
Lemma good_lse_all : good h (h_lse_all a) (logsumexp_all va).
Proof. apply good_new. apply same_lse_all. apply Ha. Qed.
Lemma sp_getitem k spec : sp k h (h_getitem spec a) (getitem spec va) (fun h' r v => h' = h /\ ref n h r v).
Proof. apply sp_lift. apply ref_getitem; exact Ha. Qed.
Lemma sp_moveaxis k s d : sp k h (h_moveaxis a s d) (moveaxis va s d) (fun h' r v => h' = h /\ ref n h r v).
Proof. apply sp_lift. apply ref_moveaxis; exact Ha. Qed.
(** a write to [a] changes no array in another buffer *)
Lemma sp_iop f :
  sp n h (h_iop f a b) (iop f va vb)
     (fun h' r v => r = a /\ ref n h' a v /\ length h' = length h /\
        forall k r' w, na_addr r' <> na_addr a -> ref k h r' w -> ref k h' r' w).
Proof.
  unfold sp, h_iop. pose proof (same_iop f _ _ _ _ (proj2 (proj2 Ha)) (proj2 (proj2 Hb))) as H.
  assert (Hs : forall v, iop f (value h a) (value h b) = Ok v -> shp v = na_shp a).
  { unfold iop. cbn [value shp]. destruct (bshape _ _) as [s|]; [|discriminate].
    destruct (natlist_eqb s (na_shp a)) eqn:E; [|discriminate]. apply natlist_eqb_eq in E. intros v [= <-]. exact E. }
  destruct (iop f (value h a) (value h b)) as [v|e], (iop f va vb) as [w|e']; cbn in H; try contradiction.
  - split; [apply store_keeps; apply Ha|]. split; [reflexivity|]. split; [eapply ref_same; [exact H|]; eapply store_ref; [exact Ha|auto]|].
    split; [apply store_length|]. intros; apply store_other; auto.
  - split; [apply keeps_refl|exact H].
Qed.
End ops.

Lemma sp_good n h (m : prog nda) p : n <= length h -> good h m p -> sp n h m p (fun h' r v => ref (length h) h' r v).
Proof. intros L. apply sp_weak; exact L. Qed.
