(** * SspLemmas: bin edges, rebinning, light weights and ticks of milesSSPs. *)
From Coq Require Import Reals Lra Lia List Bool Arith ZArith String.
From Verif Require Import Num NumLemmas Arr ArrLemmas PyStr Cube Spec SpecLemmas Repr CubeGeom ReadMiles MilesLemmas Ssps VecLemmas.
Import ListNotations.
Local Open Scope R_scope.

(** ** bin edges *)
(** the edges around template values x_0 < ... < x_(n-1) *)
Definition clamp (r : R) : R := if Rltb (Rabs r) 0.011 then 0 else r.
Definition edges_of (n : nat) (x : nat -> R) (i : nat) : R :=
  if Nat.eqb i 0 then clamp (x 0%nat - (x 1%nat - x 0%nat) / 2)
  else if Nat.ltb i n then (x (i - 1)%nat + x i) / 2
  else x (n - 1)%nat + (x (n - 1)%nat - x (n - 2)%nat) / 2.

Lemma isclose_refl x : isclose (Fin x) (Fin x) = true.
Proof.
  unfold isclose. apply Rleb_true. replace (x - x) with 0 by ring. rewrite Rabs_R0.
  pose proof (Rabs_pos x). lra.
Qed.
Lemma allclose_vec a b n f : vec a n f -> vec b n f -> allclose a b = Ok true.
Proof.
  intros [Ha Ea] [Hb Eb]. unfold allclose. rewrite (bop_eq isclose a b _ _ _ Ha Hb (bshape_same [n])). cbn [bind].
  f_equal. apply forallb_forall. intros idx Hi. apply in_all_idx in Hi. cbn [shp] in Hi. inb_inv. cbn [ent].
  rewrite (bidx_self [n] [i]) by (repeat constructor; assumption). rewrite Ea, Eb by assumption. apply isclose_refl.
Qed.

Lemma edge_lims_ok a n x : (2 <= n)%nat -> vec a n x ->
  exists e, get_par_edge_lims a = Ok e /\ vec e (S n) (edges_of n x).
Proof.
  intros Hn Ha. destruct n as [|[|m]]; [lia|lia|]. set (n := S (S m)) in *.
  unfold get_par_edge_lims.
  assert (Ht : vec (tail0 a) (S m) (fun i => x (S i))) by (apply vec_tail; exact Ha).
  assert (Hi : vec (init0 a) (S m) x) by (apply vec_init; exact Ha).
  destruct (vec_sub _ _ _ _ _ Ht Hi) as (dx & E1 & Hdx). rewrite E1. cbn [bind].
  assert (Hh := vec_halve _ _ _ Hdx).
  destruct (vec_sub _ _ _ _ _ Ht Hh) as (lo & E2 & Hlo). rewrite E2. cbn [bind].
  destruct (vec_add _ _ _ _ _ Hi Hh) as (hi & E3 & Hhi). rewrite E3. cbn [bind].
  rewrite (vec_first _ _ _ Ha) by lia. cbn [bind]. rewrite (vec_first _ _ _ Hdx) by lia. cbn [bind].
  rewrite ndiv_Fin, nsub_Fin by lra.
  destruct (vec_concat _ _ _ _ _ _ (vec_one (x 0%nat - (x 1%nat - x 0%nat) / 2)) Hlo) as (lo' & E4 & Hlo').
  rewrite E4. cbn [bind].
  rewrite (vec_last_ a (S m) x Ha). cbn [bind]. rewrite (vec_last_ _ _ _ Hdx). cbn [bind].
  rewrite ndiv_Fin, nadd_Fin by lra.
  destruct (vec_concat _ _ _ _ _ _ Hhi (vec_one (x (S m) + (x (S m) - x m) / 2))) as (hi' & E5 & Hhi').
  rewrite E5. cbn [bind].
  replace (S m + 1)%nat with (S (S m)) in Hhi' by lia. cbn [Nat.add] in Hlo'.
  rewrite (allclose_vec (tail0 lo') (init0 hi') (S m) (fun i => (x i + x (S i)) / 2)).
  2:{ eapply vec_ext; [apply vec_tail; exact Hlo'|]. intros i Hi'. cbn beta.
      destruct (Nat.ltb_spec (S i) 1); [lia|]. replace (S i - 1)%nat with i by lia. lra. }
  2:{ eapply vec_ext; [apply vec_init; exact Hhi'|]. intros i Hi'. cbn beta.
      destruct (Nat.ltb_spec i (S m)); [lra|lia]. }
  cbn [bind py_assert]. rewrite (vec_first _ _ _ Hlo') by lia. cbn [bind Nat.ltb Nat.leb].
  set (c := x 0%nat - (x 1%nat - x 0%nat) / 2) in *.
  set (lo2 := if nlt (nabs (Fin c)) (Fin 0.011) then _ else _).
  assert (Hlo2 : vec lo2 (S (S m)) (fun i => if Nat.eqb i 0 then clamp c else (x (i - 1)%nat + x i) / 2)).
  { subst lo2. cbn [nabs nlt]. unfold clamp. destruct Hlo' as [Hs He]. destruct (Rltb (Rabs c) 0.011).
    - split; [exact Hs|]. intros i Hi'. cbn [ent]. destruct i as [|i]; [reflexivity|]. rewrite He by exact Hi'. cbn beta.
      destruct (Nat.ltb_spec (S i) 1); [lia|]. cbn [Nat.eqb]. replace (S i - 1)%nat with i by lia. f_equal. lra.
    - split; [exact Hs|]. intros i Hi'. rewrite He by exact Hi'. destruct i as [|i]; [reflexivity|].
      destruct (Nat.ltb_spec (S i) 1); [lia|]. cbn [Nat.eqb]. replace (S i - 1)%nat with i by lia. f_equal. lra. }
  clearbody lo2. rewrite (vec_last_ _ _ _ Hhi'). cbn [bind].
  destruct (Nat.ltb_spec (S m) (S m)); [lia|].
  destruct (vec_concat _ _ _ _ _ _ Hlo2 (vec_one (x (S m) + (x (S m) - x m) / 2))) as (e & E6 & He). rewrite E6.
  exists e. split; [reflexivity|]. replace (S (S m) + 1)%nat with (S n) in He by (subst n; lia).
  eapply vec_ext; [exact He|]. intros i Hi'. cbn beta. unfold edges_of.
  destruct (Nat.ltb_spec i (S (S m))) as [L|L].
  - destruct i as [|i]; [reflexivity|]. cbn [Nat.eqb]. destruct (Nat.ltb_spec (S i) n); [reflexivity|subst n; lia].
  - destruct i as [|i]; [lia|]. cbn [Nat.eqb]. destruct (Nat.ltb_spec (S i) n); [subst n; lia|].
    subst n. replace (S (S m) - 1)%nat with (S m) by lia. replace (S (S m) - 2)%nat with m by lia. reflexivity.
Qed.

Lemma edge_lims_short a n x : (n <= 1)%nat -> vec a n x -> get_par_edge_lims a = Err IndexError.
Proof.
  intros Hn Ha. unfold get_par_edge_lims.
  assert (Ht : vec (tail0 a) 0 (fun _ => 0)).
  { split; [|lia]. destruct Ha as [Hs _]. unfold tail0, slice0, len0. rewrite Hs. cbn. f_equal. lia. }
  assert (Hi : vec (init0 a) 0 (fun _ => 0)).
  { split; [|lia]. destruct Ha as [Hs _]. unfold init0, slice0, len0. rewrite Hs. cbn. f_equal. lia. }
  destruct (vec_sub _ _ _ _ _ Ht Hi) as (dx & E1 & Hdx). rewrite E1. cbn [bind].
  assert (Hh := vec_halve _ _ _ Hdx).
  destruct (vec_sub _ _ _ _ _ Ht Hh) as (lo & E2 & Hlo). rewrite E2. cbn [bind].
  destruct (vec_add _ _ _ _ _ Hi Hh) as (hi & E3 & Hhi). rewrite E3. cbn [bind].
  assert (Ef : forall b f, vec b 0 f -> first b = Err IndexError).
  { intros b f [Hb _]. unfold first, getitem. rewrite Hb. reflexivity. }
  destruct n as [|[|n]]; [|rewrite (vec_first _ _ _ Ha) by lia; cbn [bind]|lia].
  - rewrite (Ef _ _ Ha). reflexivity.
  - rewrite (Ef _ _ Hdx). reflexivity.
Qed.

Lemma edges_of_increasing n x : (2 <= n)%nat -> (forall i, (S i < n)%nat -> x i < x (S i)) ->
  edges_of n x 0 < x 0%nat ->
  increasing n (edges_of n x) /\ forall i, (i < n)%nat -> edges_of n x i < x i < edges_of n x (S i).
Proof.
  intros Hn Hx H0.
  assert (B : forall i, (i < n)%nat -> edges_of n x i < x i < edges_of n x (S i)).
  { intros i Hi. split.
    - destruct i as [|i]; [exact H0|]. unfold edges_of. cbn [Nat.eqb]. destruct (Nat.ltb_spec (S i) n); [|lia].
      replace (S i - 1)%nat with i by lia. specialize (Hx i Hi). lra.
    - unfold edges_of. cbn [Nat.eqb]. destruct (Nat.ltb_spec (S i) n).
      + replace (S i - 1)%nat with i by lia. specialize (Hx i H). lra.
      + assert (i = n - 1)%nat as -> by lia. specialize (Hx (n - 2)%nat ltac:(lia)).
        replace (S (n - 2)) with (n - 1)%nat in Hx by lia. lra. }
  split; [|exact B]. intros i Hi. specialize (B i Hi). lra.
Qed.

(** ** rebinning one axis *)
Lemma increasing_lt n E i j : increasing n E -> (i < j <= n)%nat -> E i < E j.
Proof.
  intros H [Hij Hj]. induction j as [|j IH]; [lia|].
  assert (i = j \/ (i < j)%nat) as [->|L] by lia; [apply H; lia|]. specialize (H j ltac:(lia)). specialize (IH L ltac:(lia)). lra.
Qed.
Lemma increasing_inj n E i j : increasing n E -> (i <= n)%nat -> (j <= n)%nat -> E i = E j -> i = j.
Proof.
  intros H Hi Hj Ee. destruct (Nat.lt_trichotomy i j) as [L|[L|L]]; [|exact L|].
  - pose proof (increasing_lt n E i j H ltac:(lia)). lra.
  - pose proof (increasing_lt n E j i H ltac:(lia)). lra.
Qed.
Lemma neqb_Fin x y : neqb (Fin x) (Fin y) = Reqb x y.
Proof. reflexivity. Qed.

(** number of bins and edges after merging runs of k bins *)
Definition merged (k n : nat) : nat := stride_len n k.
Definition merged_edges (k n : nat) (E : nat -> R) (i : nat) : R := E (Nat.min (i * k) n).

Lemma merged_lt n k i : (0 < k)%nat -> (i < merged k n <-> i * k < n)%nat.
Proof. intros H. apply stride_len_lt. exact H. Qed.
Lemma merged_bound n k : (0 < k)%nat -> (n <= merged k n * k)%nat.
Proof. intros H. destruct (Nat.le_gt_cases n (merged k n * k)); [assumption|]. apply merged_lt in H0; lia. Qed.
Lemma merged_pos n k : (0 < k)%nat -> (0 < n)%nat -> (0 < merged k n)%nat.
Proof. intros. apply merged_lt; lia. Qed.

Lemma rebin_edges_ok k e n E : (0 < k)%nat -> (0 < n)%nat -> increasing n E -> vec e (S n) E ->
  exists e', rebin_edges k e = Ok e' /\ vec e' (S (merged k n)) (merged_edges k n E).
Proof.
  intros Hk Hn HE He. unfold rebin_edges, stride0. destruct k as [|k0]; [lia|]. set (k := S k0) in *.
  rewrite (vec_len _ _ _ He). cbn [bind].
  pose proof (merged_bound n k Hk) as Hb. pose proof (merged_lt n k (merged k n - 1) Hk) as Hm.
  pose proof (merged_pos n k Hk Hn) as Hp.
  set (q := stride_len (S n) k). set (e1 := Arr [q] _).
  assert (Hq : forall i, (i < q <-> i * k <= n)%nat) by (intros i; unfold q; rewrite stride_len_lt by exact Hk; lia).
  assert (H1 : vec e1 q (fun i => E (i * k)%nat)).
  { split; [reflexivity|]. intros i Hi. cbn [e1 ent]. apply He. apply Hq in Hi. lia. }
  assert (Hq0 : (0 < q)%nat) by (apply Hq; lia).
  destruct q as [|q'] eqn:Eq; [lia|].
  rewrite (vec_last_ _ _ _ H1), (vec_last_ _ _ _ He). cbn [bind]. rewrite neqb_Fin.
  assert (Hq' : (q' * k <= n)%nat) by (apply Hq; lia).
  assert (Hq2 : (n < S q' * k)%nat) by (destruct (Nat.le_gt_cases (S q' * k) n) as [L|L]; [apply Hq in L; lia|exact L]).
  destruct (Reqb (E (q' * k)%nat) (E n)) eqn:Ec; cbn [negb].
  - apply Reqb_true in Ec. apply (increasing_inj n E) in Ec; [|assumption|lia|lia].
    exists e1. split; [reflexivity|].
    assert (merged k n = q') as ->.
    { assert (M := merged_lt n k q' Hk). assert (M2 := merged_lt n k (q' - 1) Hk). assert (0 < q')%nat by nia.
      assert ((q' - 1) * k < n)%nat by nia. lia. }
    eapply vec_ext; [exact H1|]. intros i Hi. unfold merged_edges. rewrite Nat.min_l by nia. reflexivity.
  - apply Reqb_false in Ec. assert (q' * k <> n)%nat by (intros Q; apply Ec; rewrite Q; reflexivity).
    destruct (vec_concat _ _ _ _ _ _ H1 (vec_one (E n))) as (c & E1 & Hc). rewrite E1.
    exists c. split; [reflexivity|].
    assert (merged k n = S q') as ->.
    { assert (M := merged_lt n k q' Hk). assert (M2 := merged_lt n k (S q') Hk). nia. }
    replace (S (S q')) with (S q' + 1)%nat by lia. eapply vec_ext; [exact Hc|]. intros i Hi. cbn beta. unfold merged_edges.
    destruct (Nat.ltb_spec i (S q')).
    + rewrite Nat.min_l by nia. reflexivity.
    + rewrite Nat.min_r by nia. reflexivity.
Qed.
Lemma rebin_edges_0 e : rebin_edges 0 e = Err ValueError.
Proof. reflexivity. Qed.

Lemma merged_increasing k n E : (0 < k)%nat -> increasing n E -> increasing (merged k n) (merged_edges k n E).
Proof.
  intros Hk HE i Hi. apply merged_lt in Hi; [|exact Hk]. unfold merged_edges. apply (increasing_lt n E); [exact HE|].
  split; [|lia]. rewrite (Nat.min_l (i * k)) by lia. apply Nat.min_glb_lt; [cbn; lia|exact Hi].
Qed.

Definition group (k n i : nat) : list nat := seq (i * k) (Nat.min (S i * k) n - i * k).
Lemma bin_slice_ok k n i E e e' : (0 < k)%nat -> (0 < n)%nat -> increasing n E -> vec e (S n) E ->
  vec e' (S (merged k n)) (merged_edges k n E) -> (i < merged k n)%nat ->
  bin_slice k n i e' e = Ok (group k n i).
Proof.
  intros Hk Hn HE He He' Hi. unfold bin_slice. rewrite (vec_last_ _ _ _ He). cbn [bind].
  rewrite (proj2 He') by lia. rewrite neqb_Fin. unfold merged_edges, group. f_equal. f_equal.
  destruct (Reqb (E (Nat.min (S i * k) n)) (E n)) eqn:Ec.
  - apply Reqb_true in Ec. apply (increasing_inj n E) in Ec; [|assumption|lia|lia]. lia.
  - rewrite Nat.min_comm. reflexivity.
Qed.

Lemma Sum_all_0 n f : (forall i, (i < n)%nat -> f i = 0) -> Sum n f = 0.
Proof. intros H. rewrite (Sum_ext n f (fun _ => 0) H). apply Sum_0. Qed.
Definition in_group (k i b : nat) : bool := Nat.eqb (b / k) i.
Lemma sumR_group k n i f : (0 < k)%nat -> (i * k <= n)%nat ->
  sumR (map f (group k n i)) = Sum n (fun b => if in_group k i b then f b else 0).
Proof.
  intros Hk Hi. unfold group. set (m := (Nat.min (S i * k) n - i * k)%nat).
  replace n with (i * k + (m + (n - i * k - m)))%nat at 1 by (subst m; cbn; lia).
  rewrite !Sum_split.
  rewrite (Sum_all_0 (i * k)), (Sum_all_0 (n - i * k - m)).
  - rewrite Rplus_0_l, Rplus_0_r. assert (Es : seq (i * k) m = map (fun j => (i * k + j)%nat) (seq 0 m)).
    { clear. induction m as [|m IH]; [reflexivity|]. rewrite !seq_S, map_app, IH. reflexivity. }
    rewrite Es, map_map, sumR_map_seq. apply Sum_ext. intros j Hj. unfold in_group.
    assert (Q : ((i * k + j) / k = i)%nat).
    { symmetry; apply (Nat.div_unique _ _ _ j); [subst m; cbn in Hj; lia|lia]. }
    rewrite Q, Nat.eqb_refl. reflexivity.
  - intros j Hj. unfold in_group. destruct (Nat.eqb_spec ((i * k + (m + j)) / k) i) as [Q|]; [|reflexivity].
    exfalso. pose proof (Nat.mul_succ_div_gt (i * k + (m + j)) k ltac:(lia)). rewrite Q in H. subst m. cbn in *. nia.
  - intros j Hj. unfold in_group. destruct (Nat.eqb_spec (j / k) i) as [Q|]; [|reflexivity].
    exfalso. pose proof (Nat.mul_div_le j k ltac:(lia)). rewrite Q in H. nia.
Qed.
Lemma Sum_groups k n m f : (0 < k)%nat -> (n <= m * k)%nat ->
  Sum m (fun i => Sum n (fun b => if in_group k i b then f b else 0)) = Sum n f.
Proof.
  intros Hk Hm. rewrite Sum_swap. apply Sum_ext. intros b Hb.
  rewrite (Sum_single m _ (b / k)%nat).
  - unfold in_group. rewrite Nat.eqb_refl. reflexivity.
  - apply Nat.div_lt_upper_bound; nia.
  - intros i _ Hi. unfold in_group. destruct (Nat.eqb_spec (b / k) i); [congruence|reflexivity].
Qed.
Lemma group_width k n E i : (0 < k)%nat -> (i < merged k n)%nat ->
  Sum n (fun b => if in_group k i b then wid E b else 0) = wid (merged_edges k n E) i.
Proof.
  intros Hk Hi. apply merged_lt in Hi; [|exact Hk]. rewrite <- sumR_group by lia. unfold group, merged_edges, wid.
  rewrite (Nat.min_l (i * k) n) by lia. set (m := Nat.min (S i * k) n).
  assert (Hm : (i * k <= m)%nat) by (subst m; apply Nat.min_glb; [cbn|]; lia). clearbody m.
  assert (Es : forall p a, sumR (map (fun i => E (S i) - E i) (seq a p)) = E (a + p)%nat - E a).
  { clear. induction p as [|p IH]; intros a; [cbn; rewrite Nat.add_0_r; lra|]. cbn [seq map sumR fold_right].
    unfold sumR in IH. rewrite IH. replace (S a + p)%nat with (a + S p)%nat by lia. lra. }
  rewrite Es. replace (i * k + (m - i * k))%nat with m by lia. reflexivity.
Qed.

(** ** the template object *)
(** [g] holds templates F l z t on the bins with edges zE, tE; the template with
    metallicity index z and age index t is in column z*nt + t *)
Record templates_on (g : mgrid) (nL nz nt : nat) (zE tE : nat -> R) (F : nat -> nat -> nat -> R) : Prop := {
  to_ze : vec (g_edges_z g) (S nz) zE;
  to_te : vec (g_edges_t g) (S nt) tE;
  to_zc : vec (g_cents_z g) nz (mid zE);
  to_tc : vec (g_cents_t g) nt (mid tE);
  to_dz : vec (g_delta_z g) nz (wid zE);
  to_dt : vec (g_delta_t g) nt (wid tE);
  to_dims : g_dims g = (nz, nt);
  to_xs : shp (g_X g) = [nL; (nz * nt)%nat];
  to_x : forall l z t, (l < nL)%nat -> (z < nz)%nat -> (t < nt)%nat ->
         ent (g_X g) [l; (z * nt + t)%nat] = Fin (F l z t)
}.

Lemma unravel_merge n a b l i j : (l < n)%nat -> (i < a)%nat -> (j < b)%nat ->
  unravel_idx [n; (a * b)%nat] (ravel_idx [n; a; b] [l; i; j]) = [l; (i * b + j)%nat].
Proof.
  intros Hl Hi Hj. cbn [unravel_idx ravel_idx size_of fold_right]. rewrite !Nat.mul_1_r, !Nat.add_0_r, Nat.div_1_r.
  assert (i * b + j < a * b)%nat by nia.
  f_equal; [|f_equal].
  - symmetry. apply (Nat.div_unique _ _ _ (i * b + j)); lia.
  - symmetry. apply (Nat.mod_unique _ _ l); lia.
Qed.
Lemma unravel_split n a b l i j : (l < n)%nat -> (i < a)%nat -> (j < b)%nat ->
  unravel_idx [n; a; b] (ravel_idx [n; (a * b)%nat] [l; (i * b + j)%nat]) = [l; i; j].
Proof.
  intros Hl Hi Hj. cbn [unravel_idx ravel_idx size_of fold_right]. rewrite !Nat.mul_1_r, !Nat.add_0_r, Nat.div_1_r.
  assert (i * b + j < a * b)%nat by nia.
  assert (Q : ((l * (a * b) + (i * b + j)) mod (a * b) = i * b + j)%nat) by (symmetry; apply (Nat.mod_unique _ _ l); lia).
  rewrite Q. f_equal; [|f_equal; [|f_equal]].
  - symmetry. apply (Nat.div_unique _ _ _ (i * b + j)); lia.
  - symmetry. apply (Nat.div_unique _ _ _ j); lia.
  - symmetry. apply (Nat.mod_unique _ _ i); lia.
Qed.

Lemma map_res_seq {B} (f : nat -> res B) (h : nat -> B) n :
  (forall i, (i < n)%nat -> f i = Ok (h i)) -> map_res f (seq 0 n) = Ok (map h (seq 0 n)).
Proof.
  intros H. apply map_res_ok. intros i Hi. apply in_seq in Hi. apply H. lia.
Qed.
Lemma nth_groups k n m i : (i < m)%nat -> nth i (map (group k n) (seq 0 m)) [] = group k n i.
Proof.
  intros H. rewrite (nth_indep _ [] (group k n 0)) by (rewrite map_length, seq_length; exact H).
  rewrite map_nth, seq_nth by exact H. reflexivity.
Qed.
Lemma group_lt k n i b : In b (group k n i) -> (b < n)%nat.
Proof. unfold group. rewrite in_seq. lia. Qed.
Lemma nsum_rect (f : nat -> nat -> num) (h : nat -> nat -> R) la lb :
  (forall a b, In a la -> In b lb -> f a b = Fin (h a b)) ->
  nsum (flat_map (fun a => map (f a) lb) la) = Fin (sumR (map (fun a => sumR (map (h a) lb)) la)).
Proof.
  intros H. rewrite <- sumR_flat_map, <- nsum_Fin, map_flat_map. f_equal.
  induction la as [|a la IH]; [reflexivity|]. cbn [flat_map]. rewrite IH by (intros; apply H; [right|]; assumption). f_equal.
  rewrite map_map. apply map_ext_in. intros b Hb. apply H; [left; reflexivity|exact Hb].
Qed.

(** what one rebinned template is: the area weighted mean over the merged bins *)
Definition merged_sum (kz ka nz nt i j : nat) (f : nat -> nat -> R) : R :=
  Sum nz (fun z => Sum nt (fun t => if (in_group kz i z && in_group ka j t)%bool then f z t else 0)).
Definition merged_F (kz ka nz nt : nat) (zE tE : nat -> R) (F : nat -> nat -> nat -> R) (l i j : nat) : R :=
  merged_sum kz ka nz nt i j (fun z t => F l z t * (wid zE z * wid tE t))
  / (wid (merged_edges kz nz zE) i * wid (merged_edges ka nt tE) j).

Lemma merged_sum_groups kz ka nz nt i j f : (0 < kz)%nat -> (0 < ka)%nat -> (i * kz <= nz)%nat -> (j * ka <= nt)%nat ->
  sumR (map (fun z => sumR (map (f z) (group ka nt j))) (group kz nz i)) = merged_sum kz ka nz nt i j f.
Proof.
  intros Hz Ha Hi Hj. rewrite sumR_group by assumption. unfold merged_sum. apply Sum_ext. intros z Hz'.
  destruct (in_group kz i z); cbn [andb].
  - apply sumR_group; assumption.
  - symmetry. apply Sum_0.
Qed.
Lemma merged_area kz ka nz nt i j zE tE : (0 < kz)%nat -> (0 < ka)%nat -> (i < merged kz nz)%nat -> (j < merged ka nt)%nat ->
  merged_sum kz ka nz nt i j (fun z t => wid zE z * wid tE t) =
  wid (merged_edges kz nz zE) i * wid (merged_edges ka nt tE) j.
Proof.
  intros Hz Ha Hi Hj. rewrite <- (group_width kz nz zE i Hz Hi), <- (group_width ka nt tE j Ha Hj).
  unfold merged_sum. rewrite <- Sum_scal_r. apply Sum_ext. intros z _. destruct (in_group kz i z); cbn [andb].
  - rewrite <- Sum_scal. apply Sum_ext. intros t _. destruct (in_group ka j t); ring.
  - rewrite Sum_0. ring.
Qed.

Theorem rebin_ok kz ka g nL nz nt zE tE F : (0 < kz)%nat -> (0 < ka)%nat -> (0 < nz)%nat -> (0 < nt)%nat ->
  increasing nz zE -> increasing nt tE -> templates_on g nL nz nt zE tE F ->
  exists g', rebin_par_grid ka kz g = Ok g' /\
    templates_on g' nL (merged kz nz) (merged ka nt) (merged_edges kz nz zE) (merged_edges ka nt tE)
      (merged_F kz ka nz nt zE tE F) /\
    g_n g' = g_n g /\ g_lmd g' = g_lmd g /\ g_par_idx g' = g_par_idx g /\ g_p g' = g_p g /\
    g_t_ticks g' = g_t_ticks g /\ g_z_ticks g' = g_z_ticks g /\
    g_img_t_ticks g' = g_img_t_ticks g /\ g_img_z_ticks g' = g_img_z_ticks g.
Proof.
  intros Hkz Hka Hnz Hnt HzE HtE [Hze Hte Hzc Htc Hdz Hdt Hd Hxs Hx]. unfold rebin_par_grid.
  set (mz := merged kz nz). set (mt := merged ka nt).
  assert (Lz : forall i, (i < mz -> i * kz <= nz)%nat) by (intros i Hi; apply merged_lt in Hi; lia).
  assert (Lt : forall i, (i < mt -> i * ka <= nt)%nat) by (intros i Hi; apply merged_lt in Hi; lia).
  destruct (rebin_edges_ok kz _ _ _ Hkz Hnz HzE Hze) as (ez & E1 & Hez). rewrite E1. cbn [bind].
  destruct (mids_ok _ _ _ Hez) as (cz & E2 & Hcz). rewrite E2. cbn [bind].
  destruct (diffs_ok _ _ _ Hez) as (dz' & E3 & Hdz'). rewrite E3. cbn [bind].
  destruct (rebin_edges_ok ka _ _ _ Hka Hnt HtE Hte) as (et & E4 & Het). rewrite E4. cbn [bind].
  destruct (mids_ok _ _ _ Het) as (ct & E5 & Hct). rewrite E5. cbn [bind].
  destruct (diffs_ok _ _ _ Het) as (dt' & E6 & Hdt'). rewrite E6. cbn [bind].
  rewrite (vec_len _ _ _ Hcz), (vec_len _ _ _ Hct). fold mz in Hcz, Hez, Hdz'. fold mt in Hct, Het, Hdt'. fold mz mt.
  rewrite Hd. cbn [fst snd].
  (* X3 *)
  assert (EX : exists x3, reshape3 (g_X g) nz nt = Ok x3 /\
     arr_is x3 [nL; nz; nt] (fun idx => match idx with [l; z; t] => Fin (F l z t) | _ => NaN end)).
  { unfold reshape3. destruct (Nat.eqb_spec (nz * nt) 0); [nia|]. rewrite Hxs. cbn [size_of fold_right]. rewrite Nat.mul_1_r.
    rewrite Nat.mod_mul, Nat.div_mul by lia. cbn [Nat.eqb]. unfold reshape. rewrite Hxs. cbn [size_of fold_right].
    rewrite !Nat.mul_1_r, Nat.eqb_refl. eexists; split; [reflexivity|]. split; [reflexivity|].
    intros idx Hi. cbn [shp] in Hi. inb_inv. cbn [ent]. rewrite unravel_merge by assumption. apply Hx; assumption. }
  destruct EX as (x3 & EX & Hx3). rewrite EX. cbn [bind].
  assert (Adz : arr_is (g_delta_z g) [nz] (fun idx => match idx with [i] => Fin (wid zE i) | _ => NaN end)).
  { split; [apply Hdz|]. intros idx Hi. inb_inv. apply Hdz. assumption. }
  assert (Adt : arr_is (g_delta_t g) [nt] (fun idx => match idx with [i] => Fin (wid tE i) | _ => NaN end)).
  { split; [apply Hdt|]. intros idx Hi. inb_inv. apply Hdt. assumption. }
  destruct (getitem_is' [IAll; INew] _ _ _ [nz; 1%nat] Adz eq_refl) as (dza & E7 & Hdza). rewrite E7. cbn [bind].
  destruct (getitem_is' [INew; IAll] _ _ _ [1%nat; nt] Adt eq_refl) as (dta & E8 & Hdta). rewrite E8. cbn [bind].
  assert (B1 : bshape [nz; 1%nat] [1%nat; nt] = Some [nz; nt]).
  { unfold bshape. cbn [rev app bshape_rev]. rewrite bdim_1_l, bdim_1_r. reflexivity. }
  destruct (bop_is nmul _ _ _ _ _ _ _ Hdza Hdta B1) as (area & E9 & Harea). rewrite E9. cbn [bind].
  assert (Harea' : arr_is area [nz; nt] (fun idx => match idx with [z; t] => Fin (wid zE z * wid tE t) | _ => NaN end)).
  { eapply arr_is_ext; [exact Harea|]. intros idx Hi. inb_inv. cbn [bidx List.length Nat.sub skipn map2]. 
    unfold bidx. cbn [List.length Nat.sub skipn map2 gi_idx hd tl]. rewrite (pick_lt nz), (pick_lt nt) by assumption. reflexivity. }
  assert (B2 : bshape [nL; nz; nt] [nz; nt] = Some [nL; nz; nt]).
  { unfold bshape. cbn [rev app bshape_rev]. rewrite !bdim_same. reflexivity. }
  destruct (bop_is nmul _ _ _ _ _ _ _ Hx3 Harea' B2) as (xa & E10 & Hxa). rewrite E10. cbn [bind].
  assert (Hxa' : arr_is xa [nL; nz; nt] (fun idx => match idx with [l; z; t] => Fin (F l z t * (wid zE z * wid tE t)) | _ => NaN end)).
  { eapply arr_is_ext; [exact Hxa|]. intros idx Hi. inb_inv. cbn [bidx List.length Nat.sub skipn map2].
    unfold bidx. cbn [List.length Nat.sub skipn map2]. rewrite (pick_lt nz), (pick_lt nt), (pick_lt nL) by assumption. reflexivity. }
  rewrite (proj1 Hxa'). cbn [nth].
  rewrite (map_res_seq _ (group kz nz) mz) by (intros i Hi; eapply bin_slice_ok; eassumption). cbn [bind].
  rewrite (map_res_seq _ (group ka nt) mt) by (intros i Hi; eapply bin_slice_ok; eassumption). cbn [bind].
  replace (len0 x3) with nL by (unfold len0; rewrite (proj1 Hx3); reflexivity).
  unfold reshape. cbn [shp size_of fold_right]. rewrite !Nat.mul_1_r, Nat.eqb_refl. cbn [bind].
  eexists; split; [reflexivity|]. split; [|repeat split; reflexivity].
  split; cbn [g_edges_z g_edges_t g_cents_z g_cents_t g_delta_z g_delta_t g_dims g_X shp]; try assumption; try reflexivity.
  intros l z t Hl Hz Ht. cbn [ent].
  rewrite unravel_split by assumption.
  rewrite !nth_groups by assumption.
  rewrite (nsum_rect (fun a b => ent xa [l; a; b]) (fun z t => F l z t * (wid zE z * wid tE t))).
  2:{ intros a b Ia Ib. apply group_lt in Ia. apply group_lt in Ib. rewrite (proj2 Hxa') by (repeat constructor; assumption). reflexivity. }
  rewrite (nsum_rect (fun a b => ent area [a; b]) (fun z t => wid zE z * wid tE t)).
  2:{ intros a b Ia Ib. apply group_lt in Ia. apply group_lt in Ib. rewrite (proj2 Harea') by (repeat constructor; assumption). reflexivity. }
  rewrite !merged_sum_groups by (auto; apply Lz || apply Lt; assumption).
  rewrite merged_area by assumption. rewrite ndiv_Fin; [reflexivity|].
  pose proof (merged_increasing kz nz zE Hkz HzE z Hz). pose proof (merged_increasing ka nt tE Hka HtE t Ht).
  assert (0 < wid (merged_edges kz nz zE) z) by (unfold wid; lra).
  assert (0 < wid (merged_edges ka nt tE) t) by (unfold wid; lra).
  apply Rgt_not_eq. apply Rmult_lt_0_compat; assumption.
Qed.
