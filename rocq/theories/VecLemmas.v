(** * VecLemmas: 1-d arrays of finite numbers. *)
From Coq Require Import Reals Lra Lia List Bool Arith ZArith.
From Verif Require Import Num NumLemmas Arr ArrLemmas Cube Spec Repr CubeGeom ReadMiles MilesLemmas Ssps.
Import ListNotations.
Local Open Scope R_scope.

Lemma vec_ext a n f g : vec a n f -> (forall i, (i < n)%nat -> f i = g i) -> vec a n g.
Proof. intros [Hs He] H. split; [exact Hs|]. intros i Hi. rewrite He, H by exact Hi. reflexivity. Qed.
Lemma vec_len a n f : vec a n f -> len0 a = n.
Proof. intros [Hs _]. unfold len0. rewrite Hs. reflexivity. Qed.
Lemma vec_tail a n f : vec a (S n) f -> vec (tail0 a) n (fun i => f (S i)).
Proof.
  intros [Hs He]. unfold tail0, slice0, len0. rewrite Hs. cbn [hd]. split; [cbn; f_equal; lia|].
  intros i Hi. cbn [ent]. apply He. lia.
Qed.
Lemma vec_init a n f : vec a (S n) f -> vec (init0 a) n f.
Proof.
  intros [Hs He]. unfold init0, slice0, len0. rewrite Hs. cbn [hd]. split; [cbn; f_equal; lia|].
  intros i Hi. cbn [ent]. apply He. lia.
Qed.
Lemma vec_bop op (r : R -> R -> R) a b n f g : vec a n f -> vec b n g ->
  (forall i, (i < n)%nat -> op (Fin (f i)) (Fin (g i)) = Fin (r (f i) (g i))) ->
  exists c, bop op a b = Ok c /\ vec c n (fun i => r (f i) (g i)).
Proof.
  intros [Ha Ea] [Hb Eb] Ho. rewrite (bop_eq op a b _ _ _ Ha Hb (bshape_same [n])).
  eexists; split; [reflexivity|]. split; [reflexivity|]. intros i Hi. cbn [ent].
  rewrite (bidx_self [n] [i]) by (repeat constructor; exact Hi).
  rewrite Ea, Eb by exact Hi. apply Ho; exact Hi.
Qed.
Lemma vec_sub a b n f g : vec a n f -> vec b n g -> exists c, bop nsub a b = Ok c /\ vec c n (fun i => f i - g i).
Proof. intros Ha Hb. apply (vec_bop nsub Rminus a b n f g Ha Hb). reflexivity. Qed.
Lemma vec_add a b n f g : vec a n f -> vec b n g -> exists c, bop nadd a b = Ok c /\ vec c n (fun i => f i + g i).
Proof. intros Ha Hb. apply (vec_bop nadd Rplus a b n f g Ha Hb). reflexivity. Qed.
Lemma vec_mul a b n f g : vec a n f -> vec b n g -> exists c, bop nmul a b = Ok c /\ vec c n (fun i => f i * g i).
Proof. intros Ha Hb. apply (vec_bop nmul Rmult a b n f g Ha Hb). reflexivity. Qed.
Lemma vec_halve a n f : vec a n f -> vec (halve a) n (fun i => f i / 2).
Proof.
  intros [Hs He]. split; [exact Hs|]. intros i Hi. unfold halve, amap. cbn [ent]. rewrite He by exact Hi.
  apply ndiv_Fin. lra.
Qed.
Lemma vec_one x : vec (arr1 [Fin x] NaN) 1 (fun _ => x).
Proof. split; [reflexivity|]. intros i Hi. assert (i = 0%nat) as -> by lia. reflexivity. Qed.
Lemma vec_concat a b n m f g : vec a n f -> vec b m g ->
  exists c, concat0 a b = Ok c /\ vec c (n + m) (fun i => if Nat.ltb i n then f i else g (i - n)%nat).
Proof.
  intros [Ha Ea] [Hb Eb]. unfold concat0. rewrite Ha, Hb. cbn [natlist_eqb].
  eexists; split; [reflexivity|]. split; [reflexivity|]. intros i Hi. cbn [ent].
  destruct (Nat.ltb_spec i n); [apply Ea; assumption|apply Eb; lia].
Qed.
Lemma vec_first a n f : vec a n f -> (0 < n)%nat -> first a = Ok (Fin (f 0%nat)).
Proof. intros Ha Hn. destruct (vec_get a n f 0 Ha Hn) as (e & E & He). unfold first. cbn in E. rewrite E. cbn. rewrite He. reflexivity. Qed.
Lemma vec_last_ a n f : vec a (S n) f -> last_ a = Ok (Fin (f n)).
Proof.
  intros Ha. replace (S n) with (n + 1)%nat in Ha by lia. destruct (vec_last a n f Ha) as (e & E & He).
  unfold last_. rewrite E. cbn. rewrite He. reflexivity.
Qed.
Lemma vec_list (l : list R) : vec (arr1 (map Fin l) NaN) (List.length l) (fun i => nth i l 0).
Proof.
  split; [cbn; rewrite map_length; reflexivity|]. intros i Hi. cbn [arr1 ent].
  rewrite (nth_indep _ NaN (Fin 0)) by (rewrite map_length; exact Hi). rewrite (map_nth Fin). reflexivity.
Qed.
Lemma vec_reals a n f : vec a n f -> reals a = map f (seq 0 n).
Proof.
  intros H. unfold reals, to_list. rewrite (vec_len a n f H), map_map. apply map_ext_in. intros i Hi.
  apply in_seq in Hi. rewrite (proj2 H) by lia. reflexivity.
Qed.
Lemma diffs_ok e n E : vec e (S n) E -> exists d, diffs e = Ok d /\ vec d n (wid E).
Proof. intros H. unfold diffs. exact (vec_sub _ _ n _ _ (vec_tail _ _ _ H) (vec_init _ _ _ H)). Qed.
Lemma mids_ok e n E : vec e (S n) E -> exists d, mids e = Ok d /\ vec d n (mid E).
Proof.
  intros H. unfold mids. destruct (vec_add _ _ n _ _ (vec_tail _ _ _ H) (vec_init _ _ _ H)) as (c & Ec & Hc).
  rewrite Ec. cbn [bind]. eexists; split; [reflexivity|]. eapply vec_ext; [apply vec_halve; exact Hc|].
  intros i _. unfold mid. lra.
Qed.
