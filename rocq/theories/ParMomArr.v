(** * ParMomArr: the array code of __get_noncentral_moment_v__. *)
From Coq Require Import Reals Lra Lia List Bool Arith ZArith.
From Verif Require Import Num NumLemmas Arr ArrLemmas Cube Base CubeLemmas CondLemmas DiskLemmas Parametric MilesLemmas MixLemmas
  DatacubeMain Moments MomArr MomLemmas5 ParMoments ParMomMath.
Import ListNotations.
Local Open Scope nat_scope.

(** np.array([f(k) for k in range(n)]) *)
Lemma stack_map_is (f : nat -> res (arr num)) (F : nat -> list nat -> num) n s : 0 < n ->
  (forall k, k < n -> exists a, f k = Ok a /\ arr_is a s (F k)) ->
  exists l q, map_res f (seq 0 n) = Ok l /\ stack l NaN = Ok q /\ arr_is q (n :: s) (fun idx => F (hd 0 idx) (tl idx)).
Proof.
  intros Hn H. assert (G : forall i m, i + m <= n -> exists l, map_res f (seq i m) = Ok l /\ length l = m /\
     (forall k, k < m -> exists a, nth_error l k = Some a /\ arr_is a s (F (i + k)))).
  { intros i m; revert i; induction m as [|m IH]; intros i Hm; cbn [seq map_res].
    - exists []. repeat split. intros; lia.
    - destruct (H i ltac:(lia)) as (a & Ea & Ha). destruct (IH (S i) ltac:(lia)) as (l & El & Hl & Hla).
      rewrite Ea; cbn [bind]; rewrite El; cbn [bind]. exists (a :: l). split; [reflexivity|]. split; [cbn; lia|].
      intros [|k] Hk; [exists a; rewrite Nat.add_0_r; auto|]. rewrite Nat.add_succ_r. apply Hla; lia. }
  destruct (G 0 n ltac:(lia)) as (l & El & Hl & Hla).
  destruct (stack_is l NaN s) as (q & Eq & Hq & Hqe).
  { intros ->. cbn in Hl; lia. }
  { intros a Ha. apply In_nth_error in Ha as (k & Hk). destruct (Hla k) as (a' & E & Ha').
    - rewrite <- Hl. apply nth_error_Some. congruence.
    - replace a with a' by congruence. apply Ha'. }
  exists l, q. split; [exact El|]. split; [exact Eq|]. split; [congruence|].
  intros idx Hi. apply inb_cons in Hi as (k & r & -> & Hk & Hr). destruct (Hla k Hk) as (a & E & Ha).
  cbn [hd tl]. rewrite (Hqe k a r E). apply Ha; assumption.
Qed.

Section Arrays.
Context (f2m1 : num) (self : par) (m sg : arr num) (Mu Sg : list nat -> num) (n1 n2 n3 : nat).
Context (Em : pa_mu_v self = Some m) (Hm : arr_is m [n1; n2; n3] Mu).
Context (Es : pa_sig_v self = Some sg) (Hs : arr_is sg [n1; n2; n3] Sg).

Lemma central_v_tx_is k : exists a, central_v_tx f2m1 self k = Ok a /\
  arr_is a [n1; n2; n3] (fun idx => cmn f2m1 (Sg idx) k).
Proof.
  unfold central_v_tx. rewrite Es. cbn [attr bind]. unfold cmn. destruct (Nat.even k).
  - eexists; split; [reflexivity|]. apply (amap_is (fun s => nmul (npow s k) (factorial2_even f2m1 k)) _ _ _ Hs).
  - rewrite (proj1 Hs). eexists; split; [reflexivity|]. apply full_is.
Qed.

Context (nz : nat) (Hz : shp (delta_z (c_ssps (pa_cube self))) = [nz]).
Lemma add_z_is (a : arr num) F : arr_is a [n1; n2; n3] F ->
  exists b, add_z_axis self a = Ok b /\ arr_is b [n1; n2; n3; nz] (fun idx => F (firstn 3 idx)).
Proof.
  intros Ha. unfold add_z_axis. rewrite Hz, (proj1 Ha). cbn [hd].
  destruct (broadcast_to_is _ _ _ [nz; n1; n2; n3] Ha) as (b & Eb & Hb); [bsh|].
  rewrite Eb. cbn [bind]. s_mov. eexists; split; [reflexivity|]. eapply arr_is_ext; [exact Hr|].
  intros idx Hi. inb_inv. cbn. pk. reflexivity.
Qed.
Lemma mean_v_txz_is : exists b, mean_v_txz self = Ok b /\ arr_is b [n1; n2; n3; nz] (fun idx => Mu (firstn 3 idx)).
Proof. unfold mean_v_txz, mean_v_tx. rewrite Em. cbn [attr bind]. apply add_z_is; assumption. Qed.
Lemma central_v_txz_is k : exists a, central_v_txz f2m1 self k = Ok a /\
  arr_is a [n1; n2; n3; nz] (fun idx => cmn f2m1 (Sg (firstn 3 idx)) k).
Proof.
  unfold central_v_txz. destruct (central_v_tx_is k) as (a & Ea & Ha). rewrite Ea. cbn [bind].
  destruct (add_z_is a _ Ha) as (b & Eb & Hb). exists b. auto.
Qed.

Lemma arr1_seq {A} (f : nat -> A) d N : arr_is (arr1 (map f (seq 0 N)) d) [N] (fun idx => f (hd 0 idx)).
Proof.
  split; [cbn; rewrite map_length, seq_length; reflexivity|]. intros idx Hi. inb_inv. cbn.
  rewrite (nth_indep _ d (f 0)) by (rewrite map_length, seq_length; assumption).
  rewrite map_nth, seq_nth by assumption. reflexivity.
Qed.

Definition sum_axes (axes : list Z) (axs : list nat) : Prop :=
  (axes = [] /\ axs = []) \/ (axes = [0]%Z /\ axs = [0]) \/
  (axes = [1; 2]%Z /\ axs = [1; 2]) \/ (axes = [0; 1; 2]%Z /\ axs = [0; 1; 2]).

Ltac mtail N EN j :=
  unfold msum; rewrite <- EN;
  s_bop; s_sum; (eexists; split; [reflexivity|]);
  (eapply arr_is_ext; [eassumption|]); intros idx Hidx; cbn in Hidx; inb_inv; cbn;
  rewrite ?map_all_idx1; apply nsum_ext; intros k Hk; apply in_seq in Hk; cbn; pk; f_equal;
  rewrite ?map_all_idx1; apply nsum_ext; intros sub Hsub;
  try (apply in_seq in Hsub); try (apply in_all_idx in Hsub; inb_inv); cbn; pk; reflexivity.

Lemma moment_v3 j (mu del P : arr num) Dl Pf p2 p3 axes axs :
  bop nsub m mu = Ok del -> arr_is del [n1; n2; n3] Dl ->
  arr_is P [n1; p2; p3] Pf -> (p2 = n2 /\ p3 = n3) \/ (p2 = 1 /\ p3 = 1) -> sum_axes axes axs ->
  let mask := axis_mask 3 axs in
  exists r, moment_v f2m1 self axes false P j mu = Ok r /\
    arr_is r (keep false mask [n1; n2; n3]) (fun idx =>
      msum f2m1 j (all_idx (keep true mask [n1; n2; n3]))
        (fun sub => Dl (merge mask idx sub)) (fun sub => Sg (merge mask idx sub))
        (fun sub => Pf (bidx [n1; p2; p3] (merge mask idx sub)))).
Proof.
  intros Ed Hd HP Hp Hax mask. unfold moment_v, mean_v_tx. rewrite Em. cbn [attr bind]. rewrite (proj1 Hm).
  remember (S j) as N eqn:EN. cbn [app].
  pose proof (arr1_seq (fun i => Fin (INR (binom j i))) NaN N) as Hjc.
  generalize dependent (arr1 (map (fun i => Fin (INR (binom j i))) (seq 0 N)) NaN). intros jc Hjc.
  pose proof (arr1_seq (fun i => j - i) 0 N) as Hjk.
  destruct (broadcast_to_is _ _ _ [n1; n2; n3; N] Hjk) as (jk & Ejk & Hjk'); [bsh|].
  rewrite Ejk, Ed. cbn [bind]. clear Ejk Hjk.
  destruct (stack_map_is (central_v_tx f2m1 self) (fun k idx => cmn f2m1 (Sg idx) k) N [n1; n2; n3]) as (l & q & El & Eq & Hq).
  { lia. } { intros k _. apply central_v_tx_is. }
  s_get. s_get. change (map_res _ (seq 0 N)) with (map_res (central_v_tx f2m1 self) (seq 0 N)). rewrite El. cbn [bind]. rewrite Eq. cbn [bind]. s_mov. s_bop. s_bop.
  destruct Hp as [[-> ->]|[-> ->]]; s_bop.
  all: destruct Hax as [[-> ->]|[[-> ->]|[[-> ->]|[-> ->]]]]; s_sum; subst mask; cbn [axis_mask seq map memb existsb Nat.eqb orb keep Bool.eqb].
  all: mtail N EN j.
Qed.
Lemma moment_v4 j (E mu del P : arr num) Dl Pf axes axs :
  mean_v_txz self = Ok E -> bop nsub E mu = Ok del -> arr_is del [n1; n2; n3; nz] Dl ->
  arr_is P [n1; n2; n3; nz] Pf -> sum_axes axes axs ->
  let mask := axis_mask 4 axs in
  exists r, moment_v f2m1 self axes true P j mu = Ok r /\
    arr_is r (keep false mask [n1; n2; n3; nz]) (fun idx =>
      msum f2m1 j (all_idx (keep true mask [n1; n2; n3; nz]))
        (fun sub => Dl (merge mask idx sub)) (fun sub => Sg (firstn 3 (merge mask idx sub)))
        (fun sub => Pf (merge mask idx sub))).
Proof.
  intros EE Ed Hd HP Hax mask. unfold moment_v. rewrite EE. cbn [bind].
  destruct mean_v_txz_is as (E' & EE' & HE). rewrite EE in EE'. injection EE' as <-. rewrite (proj1 HE).
  remember (S j) as N eqn:EN. cbn [app].
  pose proof (arr1_seq (fun i => Fin (INR (binom j i))) NaN N) as Hjc.
  generalize dependent (arr1 (map (fun i => Fin (INR (binom j i))) (seq 0 N)) NaN). intros jc Hjc.
  pose proof (arr1_seq (fun i => j - i) 0 N) as Hjk.
  destruct (broadcast_to_is _ _ _ [n1; n2; n3; nz; N] Hjk) as (jk & Ejk & Hjk'); [bsh|].
  rewrite Ejk, Ed. cbn [bind]. clear Ejk Hjk.
  destruct (stack_map_is (central_v_txz f2m1 self) (fun k idx => cmn f2m1 (Sg (firstn 3 idx)) k) N [n1; n2; n3; nz])
    as (l & q & El & Eq & Hq).
  { lia. } { intros k _. apply central_v_txz_is. }
  s_get. s_get. change (map_res _ (seq 0 N)) with (map_res (central_v_txz f2m1 self) (seq 0 N)).
  rewrite El. cbn [bind]. rewrite Eq. cbn [bind]. s_mov. s_bop. s_bop. s_bop.
  all: destruct Hax as [[-> ->]|[[-> ->]|[[-> ->]|[-> ->]]]]; s_sum; subst mask; cbn [axis_mask seq map memb existsb Nat.eqb orb keep Bool.eqb].
  all: mtail N EN j.
Qed.
End Arrays.
