(** * VelocityLemmas: which velocity grids evaluate_ybar accepts (claim C64). *)
From Coq Require Import Reals Lra Lia List Bool Arith ZArith String Ascii Sorted.
From Verif Require Import Num NumLemmas Arr ArrLemmas MomArr PyStr Cube Base Spec SpecLemmas Repr VecLemmas
  Fft Ssps SspLemmas ParticleLemmas Noise Datacube FourierSpec DatacubeSpec.
Import ListNotations.
Local Open Scope R_scope.

Lemma isclose_close a b : isclose (Fin a) (Fin b) = true <-> close a b.
Proof. unfold isclose, close. apply Rleb_true. Qed.
Lemma close_dec a b : close a b \/ ~ close a b.
Proof. unfold close. destruct (Rle_dec (Rabs (a - b)) (1 / 100000000 + 1 / 100000 * Rabs b)); [left|right]; assumption. Qed.

(** ** sorting finite numbers *)
Fixpoint insR (a : R) (l : list R) : list R :=
  match l with [] => [a] | b :: r => if Rleb a b then a :: l else b :: insR a r end.
Definition sortR (l : list R) : list R := fold_right insR [] l.
Lemma sort_le_Fin a b : sort_le (Fin a) (Fin b) = Rleb a b.
Proof.
  unfold sort_le, nle. cbn [nlt neqb is_nan]. rewrite orb_false_r. destruct (Rleb a b) eqn:E.
  - apply Rleb_true in E. apply orb_true_iff. destruct (Rle_lt_or_eq_dec _ _ E); [left; apply Rltb_true; assumption|right].
    unfold Reqb. destruct (Req_EM_T a b); [reflexivity|contradiction].
  - apply not_true_is_false. intros H. apply not_true_iff_false in E. apply E, Rleb_true. apply orb_true_iff in H as [H|H].
    + apply Rltb_true in H. lra.
    + unfold Reqb in H. destruct (Req_EM_T a b); [lra|discriminate].
Qed.
Lemma insert_Fin a l : insert_num (Fin a) (map Fin l) = map Fin (insR a l).
Proof. induction l as [|b l IH]; [reflexivity|]. cbn [map insert_num insR]. rewrite sort_le_Fin, IH. destruct (Rleb a b); reflexivity. Qed.
Lemma sort_Fin l : np_sort (map Fin l) = map Fin (sortR l).
Proof. induction l as [|b l IH]; [reflexivity|]. cbn [map np_sort sortR fold_right]. unfold np_sort in IH. rewrite IH. apply insert_Fin. Qed.
Lemma insR_sorted a l : Sorted Rle l -> Sorted Rle (insR a l).
Proof.
  induction l as [|b l IH]; intros H; cbn [insR]; [repeat constructor|]. destruct (Rleb a b) eqn:E.
  - apply Rleb_true in E. constructor; [exact H|]. constructor. exact E.
  - apply not_true_iff_false in E. rewrite Rleb_true in E. inversion H as [|? ? Hl Hh]; subst.
    constructor; [apply IH; exact Hl|]. destruct l as [|c l]; cbn [insR]; [constructor; lra|].
    destruct (Rleb a c); constructor; [lra|]. inversion Hh; assumption.
Qed.
Lemma sortR_sorted l : Sorted Rle (sortR l).
Proof. induction l; [constructor|]. apply insR_sorted. assumption. Qed.
Lemma sortR_id l : Sorted Rle l -> sortR l = l.
Proof.
  induction l as [|a l IH]; intros H; [reflexivity|]. inversion H as [|? ? Hl Hh]; subst. cbn [sortR fold_right].
  unfold sortR in IH. rewrite IH by exact Hl. destruct l as [|b l]; [reflexivity|]. cbn [insR].
  inversion Hh; subst. replace (Rleb a b) with true; [reflexivity|]. symmetry. apply Rleb_true. assumption.
Qed.
Lemma insR_length a l : List.length (insR a l) = S (List.length l).
Proof. induction l as [|b l IH]; [reflexivity|]. cbn [insR]. destruct (Rleb a b); cbn; [reflexivity|]. rewrite IH. reflexivity. Qed.
Lemma sortR_length l : List.length (sortR l) = List.length l.
Proof. induction l as [|a l IH]; [reflexivity|]. cbn [sortR fold_right]. rewrite insR_length. unfold sortR in IH. rewrite IH. reflexivity. Qed.
Lemma combine_eq_Fin l m : List.length l = List.length m ->
  forallb (fun ab => neqb (fst ab) (snd ab)) (combine (map Fin l) (map Fin m)) = true -> l = m.
Proof.
  revert m. induction l as [|a l IH]; destruct m as [|b m]; intros L H; try discriminate; [reflexivity|].
  cbn [map combine forallb fst snd neqb] in H. apply andb_true_iff in H as [H1 H2].
  unfold Reqb in H1. destruct (Req_EM_T a b); [|discriminate]. f_equal; [assumption|]. apply IH; [injection L; auto|exact H2].
Qed.
Lemma combine_refl_Fin l : forallb (fun ab => neqb (fst ab) (snd ab)) (combine (map Fin l) (map Fin l)) = true.
Proof.
  induction l as [|a l IH]; [reflexivity|]. cbn [map combine forallb fst snd neqb]. unfold Reqb. destruct (Req_EM_T a a); [exact IH|contradiction].
Qed.
Lemma check2_iff l : forallb (fun ab => neqb (fst ab) (snd ab)) (combine (np_sort (map Fin l)) (map Fin l)) = true <-> Sorted Rle l.
Proof.
  rewrite sort_Fin. split.
  - intros H. apply combine_eq_Fin in H; [|apply sortR_length]. rewrite <- H. apply sortR_sorted.
  - intros H. rewrite sortR_id by exact H. apply combine_refl_Fin.
Qed.
Lemma sorted_seq (f : nat -> R) n k : Sorted Rle (map f (seq k n)) <-> forall i, (k <= i)%nat -> (S i < k + n)%nat -> f i <= f (S i).
Proof.
  revert k. induction n as [|n IH]; intros k; cbn [seq map].
  - split; [intros; lia|constructor].
  - split.
    + intros H i Hi Hn. inversion H as [|? ? Hl Hh]; subst. destruct (Nat.eq_dec i k) as [->|Hne].
      * destruct n as [|n]; [lia|]. cbn [seq map] in Hh. inversion Hh; assumption.
      * apply (proj1 (IH (S k)) Hl); lia.
    + intros H. constructor.
      * apply IH. intros i Hi Hn. apply H; lia.
      * destruct n as [|n]; cbn [seq map]; constructor. apply H; lia.
Qed.

(** ** the first centre at zero *)
Lemma first_index_none p (f : nat -> num) n k : (forall i, (k <= i < k + n)%nat -> p (f i) = false) -> forall j,
  first_index p (map f (seq k n)) j = Err IndexError.
Proof.
  revert k. induction n as [|n IH]; intros k H j; [reflexivity|]. cbn [seq map first_index]. rewrite H by lia.
  apply IH. intros; apply H; lia.
Qed.
Lemma first_index_some p (f : nat -> num) n k v0 : (v0 < n)%nat -> p (f (k + v0)%nat) = true ->
  (forall i, (i < v0)%nat -> p (f (k + i)%nat) = false) -> forall j, first_index p (map f (seq k n)) j = Ok (j + v0)%nat.
Proof.
  revert k v0. induction n as [|n IH]; intros k v0 Hv Hp Hf j; [lia|]. cbn [seq map first_index]. destruct v0 as [|v0].
  - rewrite Nat.add_0_r in Hp. rewrite Hp. f_equal. lia.
  - specialize (Hf 0%nat ltac:(lia)) as H0. rewrite Nat.add_0_r in H0. rewrite H0.
    rewrite (IH (S k) v0); [f_equal; lia|lia|rewrite <- Hp; do 2 f_equal; lia|].
    intros i Hi. specialize (Hf (S i) ltac:(lia)). rewrite <- Hf. do 2 f_equal. lia.
Qed.
Lemma find_first (P : nat -> Prop) n : (forall i, P i \/ ~ P i) ->
  (exists v0, (v0 < n)%nat /\ P v0 /\ forall i, (i < v0)%nat -> ~ P i) \/ (forall i, (i < n)%nat -> ~ P i).
Proof.
  intros D. induction n as [|n [IH|IH]]; [right; intros; lia| |].
  - left. destruct IH as (v & Hv & H). exists v. split; [lia|exact H].
  - destruct (D n) as [H|H].
    + left. exists n. split; [lia|]. split; [exact H|exact IH].
    + right. intros i Hi. destruct (Nat.eq_dec i n) as [->|]; [exact H|]. apply IH. lia.
Qed.

Section validate.
Context (v_edg : arr num) (nv : nat) (E : nat -> R) (dv : R) (Hv : vec v_edg (nv + 1) E).

Lemma v_mids_ok : exists v, v_mids v_edg = Ok v /\ vec v nv (mid E).
Proof.
  assert (Hv' : vec v_edg (S nv) E) by (rewrite <- Nat.add_1_r; exact Hv).
  unfold v_mids. destruct (vec_add _ _ nv _ _ (vec_init _ _ _ Hv') (vec_tail _ _ _ Hv')) as (c & Ec & Hc).
  rewrite Ec. cbn [bind]. eexists; split; [reflexivity|]. eapply vec_ext; [apply vec_halve; exact Hc|]. intros i _. reflexivity.
Qed.

Lemma v0_ok v v0 : vec v nv (mid E) -> (v0 < nv)%nat -> close (mid E v0) 0 -> (forall i, (i < v0)%nat -> ~ close (mid E i) 0) ->
  first_index (fun a => isclose a (Fin 0)) (to_list v) 0 = Ok v0.
Proof.
  intros H Hl Hc Hf. rewrite (vec_to_list _ _ _ H). apply (first_index_some _ (fun i => Fin (mid E i)) nv 0 v0 Hl).
  - apply isclose_close. exact Hc.
  - intros i Hi. apply not_true_is_false. intros H'. apply isclose_close in H'. exact (Hf i Hi H').
Qed.

Lemma check1_ok : exists d b, bop nsub (tail0 v_edg) (init0 v_edg) = Ok d /\ allclose d (scal (Fin dv)) = Ok b /\
  (b = true <-> forall v, (v < nv)%nat -> close (wid E v) dv).
Proof.
  assert (Hv' : vec v_edg (S nv) E) by (rewrite <- Nat.add_1_r; exact Hv).
  destruct (diffs_ok _ _ _ Hv') as (d & Ed & Hd). exists d. unfold allclose.
  destruct (bop_is isclose d (scal (Fin dv)) [nv] (fun idx => Fin (wid E (hd 0%nat idx))) [] (fun _ => Fin dv) [nv]) as (c & Ec & Hc).
  - destruct Hd as [Hs He]. split; [exact Hs|]. intros idx Hi. inb_inv. apply He. assumption.
  - split; reflexivity.
  - reflexivity.
  - rewrite Ec. cbn [bind]. eexists; split; [exact Ed|]. split; [reflexivity|]. rewrite forallb_forall. split.
    + intros H v Hvn. apply isclose_close. specialize (H [v]). destruct Hc as [Hcs Hce].
      assert (Hi : inb [v] [nv]) by (constructor; [exact Hvn|constructor]).
      rewrite Hce in H by exact Hi. rewrite (bidx_self [nv] [v] Hi) in H. apply H. apply in_all_idx. rewrite Hcs. exact Hi.
    + intros H idx Hi. apply in_all_idx in Hi. destruct Hc as [Hcs Hce]. rewrite Hcs in Hi. rewrite Hce by exact Hi.
      rewrite bidx_self by exact Hi. inb_inv. apply isclose_close. apply H. assumption.
Qed.

Lemma validate_cases :
  (forall v0, velocity_ok nv E dv v0 -> validate_v_edg v_edg (Fin dv) = Ok tt) /\
  ((forall v, (v < nv)%nat -> ~ close (mid E v) 0) -> validate_v_edg v_edg (Fin dv) = Err IndexError) /\
  ((exists v, (v < nv)%nat /\ close (mid E v) 0) -> (forall v0, ~ velocity_ok nv E dv v0) ->
     validate_v_edg v_edg (Fin dv) = Err ValueError).
Proof.
  destruct check1_ok as (d & b & Ed & Eb & Hb). destruct v_mids_ok as (v & Ev & Hvv).
  unfold validate_v_edg. rewrite Ed. cbn [bind]. rewrite Eb. cbn [bind]. rewrite Ev. cbn [bind].
  assert (Hl : to_list v = map Fin (map (mid E) (seq 0 nv))) by (rewrite (vec_to_list _ _ _ Hvv), map_map; reflexivity).
  assert (Hlen : List.length (to_list v) = nv) by (rewrite Hl, !map_length, seq_length; reflexivity).
  assert (Hc2 : forallb (fun ab => neqb (fst ab) (snd ab)) (combine (np_sort (to_list v)) (to_list v)) = true <->
    forall i, (S i < nv)%nat -> mid E i <= mid E (S i)).
  { rewrite Hl, check2_iff, sorted_seq. split; intros H i; [intros Hi; apply H; lia|intros _ Hi; apply H; lia]. }
  rewrite Hlen. split; [|split].
  - intros v0 [H1 H2 H3 H4 H5 H6]. rewrite (v0_ok v v0) by assumption. cbn [bind].
    rewrite (proj2 Hb H1), (proj2 Hc2 H2). cbn [andb].
    destruct (Nat.eqb (nv mod 2) 1); rewrite H6, Nat.eqb_refl; reflexivity.
  - intros H. rewrite (vec_to_list _ _ _ Hvv), (first_index_none _ (fun i => Fin (mid E i))); [reflexivity|].
    intros i Hi. apply not_true_is_false. intros H'. apply isclose_close in H'. apply (H i); [lia|exact H'].
  - intros (vz & Hz & Hzc) Hn. destruct (find_first (fun i => close (mid E i) 0) nv (fun i => close_dec _ _)) as [(v0 & H3 & H4 & H5)|H].
    2:{ exfalso. exact (H vz Hz Hzc). }
    rewrite (v0_ok v v0) by assumption. cbn [bind].
    destruct (b && _ && _)%bool eqn:EE; [|reflexivity]. exfalso. apply (Hn v0).
    apply andb_true_iff in EE as [EE E3]. apply andb_true_iff in EE as [E1 E2].
    constructor; try assumption; [apply Hb; exact E1|apply Hc2; exact E2|].
    destruct (Nat.eqb (nv mod 2) 1); apply Nat.eqb_eq in E3; exact E3.
Qed.
End validate.
