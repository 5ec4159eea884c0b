(** * DatacubeLemmas: the datacube of a base component. *)
From Coq Require Import Reals Lra Lia List Bool Arith ZArith String Ascii Sorted.
From Verif Require Import Num NumLemmas Arr ArrLemmas MomArr PyStr Cube Base Spec SpecLemmas Repr CubeLemmas BaseLemmas CondLemmas
  DistLemmas Fft Ssps SspLemmas Noise Datacube FourierSpec FourierLemmas DatacubeSpec.
Import ListNotations.
Local Open Scope R_scope.

(** ** transforms of finite sequences *)
Lemma dft_Fin n x k : dft n n (fun j => Fin (x j)) k =
  (Fin (Sum n (fun s => x s * cos (2 * PI * INR s * INR k / INR n))), Fin (Sum n (fun s => x s * - sin (2 * PI * INR s * INR k / INR n)))).
Proof.
  unfold dft. rewrite Nat.min_id. f_equal; rewrite <- sumR_map_seq; apply nsum_map_Fin; intros j _; reflexivity.
Qed.
Lemma dft_ext n x y k : (forall j, (j < n)%nat -> x j = y j) -> dft n n x k = dft n n y k.
Proof.
  intros H. unfold dft. rewrite Nat.min_id. f_equal; apply nsum_ext; intros j Hj; apply in_seq in Hj; rewrite H by lia; reflexivity.
Qed.
Lemma idft_Fin n F a b j : (0 < n)%nat -> (forall k, (k < n / 2 + 1)%nat -> F k = (Fin (a k), Fin (b k))) ->
  idft n (n / 2 + 1) F j = Fin (signal n a b (INR j)).
Proof.
  intros Hn HF. assert (Hn' : INR n <> 0) by (apply not_0_INR; lia). unfold idft, signal. rewrite Nat.min_id.
  rewrite (nsum_map_Fin _ (fun k => wt n k * (a k * cos (2 * PI * INR j * INR k / INR n) - b k * sin (2 * PI * INR j * INR k / INR n)))).
  - rewrite sumR_map_seq. unfold ndiv. destruct (Req_EM_T (INR n) 0); [contradiction|]. reflexivity.
  - intros k Hk. apply in_seq in Hk. unfold idft_term. rewrite HF by lia. cbn [cre cim fst snd]. unfold wt, ang.
    destruct (Nat.eqb_spec k 0) as [->|Hk0]; cbn [orb].
    + f_equal. simpl (INR 0). rewrite !Rmult_0_r. unfold Rdiv. rewrite Rmult_0_l, cos_0, sin_0. ring.
    + destruct (Nat.eqb_spec (2 * k) n) as [E|E]; cbv [nmul nsub nneg nadd].
      * f_equal. replace (2 * PI * INR j * INR k / INR n) with (IZR (Z.of_nat j) * PI).
        -- rewrite sin_PI_Z. ring.
        -- rewrite <- INR_IZR_INZ. subst n. rewrite mult_INR. simpl (INR 2). field. apply not_0_INR. lia.
      * f_equal; ring.
Qed.

Lemma csum_Fin (f : nat -> cnum) a b m : (forall j, (j < m)%nat -> f j = (Fin (a j), Fin (b j))) ->
  csum (map f (seq 0 m)) = (Fin (Sum m a), Fin (Sum m b)).
Proof.
  intros H. unfold csum. rewrite !map_map. f_equal; rewrite <- sumR_map_seq; apply nsum_map_Fin; intros j Hj; apply in_seq in Hj;
    rewrite H by lia; reflexivity.
Qed.
Lemma cmul_Fin a b c d : cmul (Fin a, Fin b) (Fin c, Fin d) = (Fin (a * c - b * d), Fin (a * d + b * c)).
Proof. reflexivity. Qed.
Lemma cscale_Fin x a b : cscale (Fin x) (Fin a, Fin b) = (Fin (x * a), Fin (x * b)).
Proof. reflexivity. Qed.

(** the inverse transform of a product with the transform of x *)
Lemma idft_conv n (x : nat -> R) F a b j : (0 < n)%nat ->
  (forall k, (k < n / 2 + 1)%nat -> F k = cmul (dft n n (fun s => Fin (x s)) k) (Fin (a k), Fin (b k))) ->
  idft n (n / 2 + 1) F j = Fin (conv n x (signal n a b) j).
Proof.
  intros Hn HF. erewrite idft_Fin; [|exact Hn|intros k Hk; rewrite HF by exact Hk; rewrite dft_Fin, cmul_Fin; reflexivity].
  f_equal. cbv beta. apply (convolution n x a b j Hn).
Qed.

(** ** cyclic shift *)
Lemma Sum_rotate n v0 (F G : nat -> R) : (v0 < n)%nat -> (forall u, (u < n)%nat -> F u = G ((u + v0) mod n)%nat) ->
  Sum n F = Sum n G.
Proof.
  intros Hv H. rewrite (Sum_ext n F (fun u => G ((u + v0) mod n)%nat)) by exact H.
  transitivity (Sum ((n - v0) + v0) (fun u => G ((u + v0) mod n)%nat)); [f_equal; lia|]. rewrite Sum_split.
  transitivity (Sum (v0 + (n - v0)) G); [|f_equal; lia]. rewrite (Sum_split v0). rewrite Rplus_comm. f_equal.
  - apply Sum_ext. intros i Hi. f_equal. symmetry. apply (Nat.mod_unique _ _ 1); lia.
  - apply Sum_ext. intros i Hi. f_equal. rewrite Nat.mod_small; lia.
Qed.
Lemma rotate_angle n v0 u k : (v0 < n)%nat -> (u < n)%nat ->
  exists m : Z, 2 * PI * (INR ((u + v0) mod n) - INR v0) * INR k / INR n = 2 * PI * INR u * INR k / INR n + 2 * IZR m * PI.
Proof.
  intros Hv Hu. assert (Hn' : INR n <> 0) by (apply not_0_INR; lia).
  destruct (Nat.lt_ge_cases (u + v0) n) as [L|L].
  - exists 0%Z. rewrite Nat.mod_small by exact L. rewrite plus_INR. field. exact Hn'.
  - exists (- Z.of_nat k)%Z. rewrite <- (Nat.mod_unique (u + v0) n 1 (u + v0 - n)) by lia.
    rewrite minus_INR, plus_INR, opp_IZR, <- INR_IZR_INZ by lia. field. exact Hn'.
Qed.
Lemma rotated_dft n v0 p k : (v0 < n)%nat ->
  dft n n (fun u => Fin (p ((u + v0) mod n)%nat)) k = (Fin (vel_re n v0 p k), Fin (vel_im n v0 p k)).
Proof.
  intros Hv. rewrite dft_Fin. unfold vel_re, vel_im. f_equal; f_equal; apply (Sum_rotate n v0); try exact Hv; intros u Hu;
    destruct (rotate_angle n v0 u k Hv Hu) as [m ->]; rewrite ?cos_2PI_Z, ?sin_2PI_Z; reflexivity.
Qed.

Lemma roll_shift n v0 u : (v0 < n)%nat -> (u < n)%nat -> ((u + (n - (n - v0) mod n)) mod n = (u + v0) mod n)%nat.
Proof.
  intros Hv Hu. destruct v0 as [|v].
  - rewrite Nat.sub_0_r, Nat.mod_same, Nat.sub_0_r, Nat.add_0_r by lia.
    replace (u + n)%nat with (u + 1 * n)%nat by lia. apply Nat.mod_add. lia.
  - rewrite (Nat.mod_small (n - S v)) by lia. f_equal. lia.
Qed.

(** ** arrays along axis 1 *)
Ltac inb2 := constructor; [assumption|constructor; [first [assumption|lia|idtac]|assumption]].
Lemma rfft1_is a d0 d s f : arr_is a (d0 :: d :: s) f -> (0 < d)%nat ->
  exists r, rfft_ax a 1 = Ok r /\ arr_is r (d0 :: (d / 2 + 1)%nat :: s)
    (fun idx => match idx with i :: k :: r => dft d d (fun j => f (i :: j :: r)) k | _ => czero end).
Proof.
  intros Ha Hd. pose proof Ha as [Hs He]. unfold rfft_ax. rewrite Hs. cbn [nth_error]. destruct d as [|d]; [lia|].
  eexists; split; [reflexivity|]. cbn [set_nth]. split; [reflexivity|]. cbn [ent]. intros idx Hi.
  apply inb_cons in Hi as (i & r & -> & Hi & Hr). apply inb_cons in Hr as (k & r' & -> & Hk & Hr'). cbn [nth].
  apply dft_ext. intros j Hj. cbn [set_nth]. apply He. inb2.
Qed.
Lemma irfft1_is a d0 d s f n : arr_is a (d0 :: d :: s) f -> (0 < n)%nat ->
  exists r, irfft_ax a n 1 = Ok r /\ arr_is r (d0 :: n :: s)
    (fun idx => match idx with i :: j :: r => idft n d (fun k => f (i :: k :: r)) j | _ => Fin 0 end).
Proof.
  intros Ha Hn. pose proof Ha as [Hs He]. unfold irfft_ax. rewrite Hs. cbn [nth_error]. destruct (Nat.eqb_spec n 0); [lia|].
  eexists; split; [reflexivity|]. cbn [set_nth]. split; [reflexivity|]. cbn [ent]. intros idx Hi.
  apply inb_cons in Hi as (i & r & -> & Hi & Hr). apply inb_cons in Hr as (k & r' & -> & Hk & Hr'). cbn [nth].
  unfold idft. f_equal. apply nsum_ext. intros j Hj. apply in_seq in Hj. cbn [set_nth].
  unfold idft_term. rewrite He by inb2. reflexivity.
Qed.
Lemma interp1_is W a d0 m s f M : arr_is a (d0 :: m :: s) f -> (4 <= m)%nat ->
  exists r, interp_ax W a M 1 = Ok r /\ arr_is r (d0 :: M :: s)
    (fun idx => match idx with i :: k :: r => csum (map (fun j => cscale (Fin (W m M k j)) (f (i :: j :: r))) (seq 0 m)) | _ => czero end).
Proof.
  intros Ha Hm. pose proof Ha as [Hs He]. unfold interp_ax. rewrite Hs. cbn [nth_error].
  destruct (Nat.ltb_spec m 4); [lia|].
  eexists; split; [reflexivity|]. cbn [set_nth]. split; [reflexivity|]. cbn [ent]. intros idx Hi.
  apply inb_cons in Hi as (i & r & -> & Hi & Hr). apply inb_cons in Hr as (k & r' & -> & Hk & Hr'). cbn [nth].
  f_equal. apply map_ext_in. intros j Hj. apply in_seq in Hj. cbn [set_nth]. f_equal. apply He. inb2.
Qed.
Lemma roll1_is (a : arr num) d0 d s f v0 : arr_is a (d0 :: d :: s) f -> (v0 < d)%nat ->
  arr_is (roll a (d - v0) 1) (d0 :: d :: s)
    (fun idx => match idx with i :: j :: r => f (i :: ((j + v0) mod d)%nat :: r) | _ => f idx end).
Proof.
  intros [Hs He] Hv. split; [exact Hs|]. cbn [roll ent]. intros idx Hi.
  apply inb_cons in Hi as (i & r & -> & Hi & Hr). apply inb_cons in Hr as (k & r' & -> & Hk & Hr').
  rewrite Hs. cbn [roll_idx]. rewrite roll_shift by assumption. apply He. inb2.
  apply Nat.mod_upper_bound. lia.
Qed.
