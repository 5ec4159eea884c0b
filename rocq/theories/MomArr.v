(** * MomArr: the array manipulations of the moment methods, for any shape of
    the conditioners. *)
From Coq Require Import Reals Lra Lia List Bool Arith ZArith.
From Verif Require Import Num NumLemmas Arr ArrLemmas Moments.
Import ListNotations.
Local Open Scope nat_scope.

Lemma self_is {A} (a : arr A) s : shp a = s -> arr_is a s (ent a).
Proof. intros H; split; [exact H|reflexivity]. Qed.

(** ** reductions of leading axes *)
Lemma keep_all_false {A} (s : list A) : keep false (repeat false (length s)) s = s.
Proof. induction s; cbn; congruence. Qed.
Lemma keep_none_true {A} (s : list A) : keep true (repeat false (length s)) s = [].
Proof. induction s; cbn; auto. Qed.
Lemma merge_false r sub n : length r = n -> merge (repeat false n) r sub = r.
Proof.
  revert r; induction n as [|n IH]; intros [|i r] H; cbn in *; try discriminate; [reflexivity|].
  rewrite IH by lia; reflexivity.
Qed.
Lemma memb_big k axs : (forall a, In a axs -> a < k) -> memb k axs = false.
Proof.
  intros H. unfold memb. induction axs as [|a axs IH]; cbn; [reflexivity|].
  rewrite IH by (intros; apply H; right; assumption).
  assert (a < k) by (apply H; left; reflexivity). destruct (Nat.eqb_spec k a); [lia|reflexivity].
Qed.
Lemma axis_mask_app n m axs : (forall a, In a axs -> a < n) ->
  axis_mask (n + m) axs = (axis_mask n axs ++ repeat false m)%list.
Proof.
  intros H. unfold axis_mask. rewrite seq_app, map_app. f_equal. cbn [Nat.add].
  assert (G : forall k, n <= k -> map (fun j => memb j axs) (seq k m) = repeat false m).
  { induction m as [|m IH]; intros k Hk; cbn; [reflexivity|]. rewrite IH by lia.
    rewrite memb_big; [reflexivity|]. intros a Ha. apply H in Ha. lia. }
  apply G; lia.
Qed.

Lemma norm_axes_ok nd l : (forall a, In a l -> a < nd) -> nodupb l = true ->
  norm_axes nd (map Z.of_nat l) = Ok l.
Proof.
  intros H Hd. unfold norm_axes.
  assert (E : map_res (norm_axis nd) (map Z.of_nat l) = Ok l).
  { clear Hd. induction l as [|a l IH]; cbn; [reflexivity|].
    unfold norm_axis at 1. rewrite (proj2 (Z.leb_le 0 (Z.of_nat a))) by lia.
    assert (a < nd) by (apply H; left; reflexivity).
    rewrite (proj2 (Z.ltb_lt _ _)) by lia. cbn. rewrite IH by (intros; apply H; right; assumption).
    cbn. rewrite Nat2Z.id; reflexivity. }
  rewrite E. cbn. rewrite Hd. reflexivity.
Qed.

Lemma keep_app {A} b m1 m2 (s1 s2 : list A) : length m1 = length s1 ->
  keep b (m1 ++ m2) (s1 ++ s2) = (keep b m1 s1 ++ keep b m2 s2)%list.
Proof.
  revert s1; induction m1 as [|m m1 IH]; intros [|d s1] H; cbn in *; try discriminate; [reflexivity|].
  rewrite IH by lia. destruct (Bool.eqb m b); reflexivity.
Qed.
Lemma merge_app m1 r m i1 sub : length i1 = length (filter negb m1) -> length r = m ->
  merge (m1 ++ repeat false m) (i1 ++ r) sub = (merge m1 i1 sub ++ r)%list.
Proof.
  revert i1 sub; induction m1 as [|[] m1 IH]; intros i1 sub H Hr; cbn [app merge].
  - destruct i1; [|discriminate]. apply merge_false; assumption.
  - cbn. f_equal. apply IH; assumption.
  - cbn in H. destruct i1 as [|i i1]; [discriminate|]. cbn. f_equal. apply IH; [cbn in H; lia|assumption].
Qed.

Lemma map_all_idx1 {B} (F : list nat -> B) n : map F (all_idx [n]) = map (fun k => F [k]) (seq 0 n).
Proof. unfold all_idx. induction (seq 0 n) as [|k l IH]; cbn; [reflexivity|]. f_equal. exact IH. Qed.

(** sum over axis 0 *)
Lemma asum0_is (a : arr num) n s : shp a = n :: s ->
  exists b, asum [0]%Z a = Ok b /\
    arr_is b s (fun r => nsum (map (fun k => ent a (k :: r)) (seq 0 n))).
Proof.
  intros H. destruct (asum_is [0]%Z [0] a (n :: s) (ent a) (self_is a _ H)) as (b & E & Hb).
  { apply (norm_axes_ok (length (n :: s)) [0]); [|reflexivity]. intros x [<-|[]]. cbn; lia. }
  exists b; split; [exact E|].
  change (length (n :: s)) with (1 + length s) in Hb. rewrite axis_mask_app in Hb by (intros x [<-|[]]; lia).
  cbn [axis_mask seq map memb existsb Nat.eqb orb app keep Bool.eqb] in Hb.
  rewrite keep_all_false, keep_none_true in Hb. eapply arr_is_ext; [exact Hb|].
  intros r Hr. cbv beta. f_equal. rewrite map_all_idx1. apply map_ext. intros k. f_equal.
  cbn [merge hd tl]. f_equal. apply merge_false. apply inb_length; assumption.
Qed.

(** sum over axis 1 *)
Lemma asum1_is (a : arr num) n m s : shp a = n :: m :: s ->
  exists b, asum [1]%Z a = Ok b /\
    arr_is b (n :: s) (fun r => nsum (map (fun k => ent a (hd 0 r :: k :: tl r)) (seq 0 m))).
Proof.
  intros H. destruct (asum_is [1]%Z [1] a (n :: m :: s) (ent a) (self_is a _ H)) as (b & E & Hb).
  { apply (norm_axes_ok (length (n :: m :: s)) [1]); [|reflexivity]. intros x [<-|[]]. cbn; lia. }
  exists b; split; [exact E|].
  change (length (n :: m :: s)) with (2 + length s) in Hb. rewrite axis_mask_app in Hb by (intros x [<-|[]]; lia).
  cbn [axis_mask seq map memb existsb Nat.eqb orb app keep Bool.eqb] in Hb.
  rewrite keep_all_false, keep_none_true in Hb. eapply arr_is_ext; [exact Hb|].
  intros r Hr. cbv beta. f_equal. apply inb_cons in Hr as (i & r' & -> & Hi & Hr).
  rewrite map_all_idx1. apply map_ext. intros k. f_equal.
  cbn [merge hd tl]. do 2 f_equal. apply merge_false. apply inb_length; assumption.
Qed.

(** sum over axis 2 *)
Lemma asum2_is (a : arr num) n m l s : shp a = n :: m :: l :: s ->
  exists b, asum [2]%Z a = Ok b /\
    arr_is b (n :: m :: s) (fun r => nsum (map (fun k => ent a (hd 0 r :: hd 0 (tl r) :: k :: tl (tl r))) (seq 0 l))).
Proof.
  intros H. destruct (asum_is [2]%Z [2] a (n :: m :: l :: s) (ent a) (self_is a _ H)) as (b & E & Hb).
  { apply (norm_axes_ok (length (n :: m :: l :: s)) [2]); [|reflexivity]. intros x [<-|[]]. cbn; lia. }
  exists b; split; [exact E|].
  change (length (n :: m :: l :: s)) with (3 + length s) in Hb. rewrite axis_mask_app in Hb by (intros x [<-|[]]; lia).
  cbn [axis_mask seq map memb existsb Nat.eqb orb app keep Bool.eqb] in Hb.
  rewrite keep_all_false, keep_none_true in Hb. eapply arr_is_ext; [exact Hb|].
  intros r Hr. cbv beta. f_equal. apply inb_cons in Hr as (i & r' & -> & Hi & Hr). apply inb_cons in Hr as (i' & r & -> & Hi' & Hr).
  rewrite map_all_idx1. apply map_ext. intros k. f_equal.
  cbn [merge hd tl]. do 3 f_equal. apply merge_false. apply inb_length; assumption.
Qed.

Lemma nadd_0_l a : nadd (Fin 0) a = a.
Proof. destruct a; cbv [nadd]; try reflexivity. f_equal; ring. Qed.
Lemma nadd_assoc a b c : nadd (nadd a b) c = nadd a (nadd b c).
Proof. destruct a, b, c; cbv [nadd]; try reflexivity. f_equal; ring. Qed.
Lemma nsum_app l1 l2 : nsum (l1 ++ l2) = nadd (nsum l1) (nsum l2).
Proof.
  induction l1 as [|a l1 IH]; [symmetry; apply nadd_0_l|].
  change (nsum ((a :: l1) ++ l2)) with (nadd a (nsum (l1 ++ l2))). rewrite IH, <- nadd_assoc. reflexivity.
Qed.
Lemma nsum_all_idx2 (F : list nat -> num) n m :
  nsum (map F (all_idx [n; m])) =
  nsum (map (fun i => nsum (map (fun k => F [i; k]) (seq 0 m))) (seq 0 n)).
Proof.
  change (all_idx [n; m]) with (flat_map (fun i => map (cons i) (all_idx [m])) (seq 0 n)).
  induction (seq 0 n) as [|i l IH]; [reflexivity|].
  cbn [flat_map]. rewrite map_app, nsum_app, IH. cbn [map nsum fold_right]. f_equal.
  rewrite map_map. rewrite (map_all_idx1 (fun x => F (i :: x)) m). reflexivity.
Qed.

(** sum over axes 0 and 1 *)
Lemma asum01_is (a : arr num) n m s : shp a = n :: m :: s ->
  exists b, asum [0; 1]%Z a = Ok b /\
    arr_is b s (fun r => nsum (map (fun i => nsum (map (fun k => ent a (i :: k :: r)) (seq 0 m))) (seq 0 n))).
Proof.
  intros H. destruct (asum_is [0; 1]%Z [0; 1] a (n :: m :: s) (ent a) (self_is a _ H)) as (b & E & Hb).
  { apply (norm_axes_ok (length (n :: m :: s)) [0; 1]); [|reflexivity]. intros x [<-|[<-|[]]]; cbn; lia. }
  exists b; split; [exact E|].
  change (length (n :: m :: s)) with (2 + length s) in Hb. rewrite axis_mask_app in Hb by (intros x [<-|[<-|[]]]; lia).
  cbn [axis_mask seq map memb existsb Nat.eqb orb app keep Bool.eqb] in Hb.
  rewrite keep_all_false, keep_none_true in Hb. eapply arr_is_ext; [exact Hb|].
  intros r Hr. cbv beta. rewrite nsum_all_idx2. f_equal. apply map_ext. intros i. f_equal. apply map_ext. intros k. f_equal.
  cbn [merge hd tl]. do 2 f_equal. apply merge_false. apply inb_length; assumption.
Qed.

(** sum over the last axis *)
Lemma norm_axis_last n : norm_axes (S n) [-1]%Z = Ok [n].
Proof.
  unfold norm_axes, map_res, norm_axis. cbn [Z.leb Z.compare].
  rewrite (proj2 (Z.leb_le 0 _)) by lia. cbn [bind]. replace (Z.to_nat (-1 + Z.of_nat (S n))) with n by lia.
  reflexivity.
Qed.
Lemma axis_mask_last n : axis_mask (n + 1) [n] = (repeat false n ++ [true])%list.
Proof.
  unfold axis_mask. rewrite seq_app, map_app. cbn [Nat.add seq map memb existsb]. rewrite Nat.eqb_refl. f_equal.
  assert (G : forall m k, k + m <= n -> map (fun j => memb j [n]) (seq k m) = repeat false m).
  { induction m as [|m IH]; intros k Hk; cbn; [reflexivity|]. rewrite IH by lia.
    destruct (Nat.eqb_spec k n); [lia|reflexivity]. }
  apply G; lia.
Qed.
Lemma merge_last r sub n : length r = n -> merge (repeat false n ++ [true]) r sub = (r ++ [hd 0%nat sub])%list.
Proof.
  revert r; induction n as [|n IH]; intros [|i r] H; cbn in *; try discriminate; [reflexivity|].
  rewrite IH by lia; reflexivity.
Qed.
Lemma asum_last_is (a : arr num) n s : shp a = (s ++ [n])%list ->
  exists b, asum [-1]%Z a = Ok b /\
    arr_is b s (fun r => nsum (map (fun k => ent a (r ++ [k])%list) (seq 0 n))).
Proof.
  intros H. destruct (asum_is [-1]%Z [length s] a (s ++ [n])%list (ent a) (self_is a _ H)) as (b & E & Hb).
  { rewrite app_length, Nat.add_1_r. apply norm_axis_last. }
  exists b; split; [exact E|]. rewrite app_length in Hb. cbn [length] in Hb. rewrite axis_mask_last in Hb.
  rewrite !keep_app in Hb by (rewrite repeat_length; reflexivity).
  rewrite keep_all_false, keep_none_true in Hb. cbn [keep Bool.eqb app] in Hb. rewrite app_nil_r in Hb.
  eapply arr_is_ext; [exact Hb|].
  intros r Hr. cbv beta. f_equal. rewrite map_all_idx1. apply map_ext. intros k. f_equal.
  rewrite merge_last by (apply inb_length; assumption). reflexivity.
Qed.

(** ** transposed products *)
Lemma rev_snoc (s : list nat) n : rev (rev s ++ [n]) = n :: s.
Proof. rewrite rev_app_distr, rev_involutive. reflexivity. Qed.

(** v * p.T for 1-d v: broadcast along the last axis of p.T, i.e. the first of p *)
Lemma bop_vT_is (op : num -> num -> num) (v p : arr num) n s : shp v = [n] -> shp p = n :: s ->
  exists q, bop op v (T p) = Ok q /\ shp q = (rev s ++ [n])%list /\
    (forall k r, k < n -> inb r s -> ent q (rev r ++ [k])%list = op (ent v [k]) (ent p (k :: r))).
Proof.
  intros Hv Hp. pose proof (T_is p _ _ (self_is p _ Hp)) as HT. cbn [rev] in HT.
  destruct (bop_is op v (T p) _ _ _ _ (rev s ++ [n])%list (self_is v _ Hv) HT) as (q & E & Hq & He).
  { rewrite bshape_comm. apply bshape_last. }
  exists q; split; [exact E|]. split; [exact Hq|]. intros k r Hk Hr.
  assert (HI : inb (rev r ++ [k]) (rev s ++ [n])).
  { apply inb_app; [apply inb_rev; assumption|]. constructor; [assumption|constructor]. }
  rewrite He by exact HI. rewrite (bidx_self (rev s ++ [n])) by exact HI. f_equal.
  - f_equal. apply bidx_last with (s := rev s); [|assumption]. rewrite !rev_length. apply inb_length; assumption.
  - rewrite rev_snoc. reflexivity.
Qed.
Lemma T_rev_ent {A} (q : arr A) s n k r : shp q = (rev s ++ [n])%list ->
  shp (T q) = n :: s /\ ent (T q) (k :: r) = ent q (rev r ++ [k])%list.
Proof. intros H. split; cbn; [rewrite H; apply rev_snoc|reflexivity]. Qed.

(** v - mu[na].T *)
Lemma sub_mu_is (op : num -> num -> num) (v mu : arr num) n s : shp v = [n] -> shp mu = s ->
  exists mu' q, getitem [INew] mu = Ok mu' /\ bop op v (T mu') = Ok q /\ shp q = (rev s ++ [n])%list /\
    (forall k r, k < n -> inb r s -> ent q (rev r ++ [k])%list = op (ent v [k]) (ent mu r)).
Proof.
  intros Hv Hm. unfold getitem. cbn [gi_shape]. rewrite Hm. eexists.
  match goal with |- exists q, Ok ?m = _ /\ _ => set (mu' := m) end.
  assert (Hm' : shp mu' = 1 :: s) by (unfold mu'; reflexivity).
  pose proof (T_is mu' _ _ (self_is mu' _ Hm')) as HT. cbn [rev] in HT.
  assert (HB : bshape [n] (rev s ++ [1]) = Some (rev s ++ [n])%list).
  { unfold bshape. rewrite rev_app_distr, rev_involutive. cbn [rev app bshape_rev]. rewrite bdim_1_r.
    cbn [rev]. reflexivity. }
  destruct (bop_is op v (T mu') _ _ _ _ _ (self_is v _ Hv) HT HB) as (q & E & Hq & He).
  exists q. split; [reflexivity|]. split; [exact E|]. split; [exact Hq|]. intros k r Hk Hr.
  assert (HI : inb (rev r ++ [k]) (rev s ++ [n])).
  { apply inb_app; [apply inb_rev; assumption|]. constructor; [assumption|constructor]. }
  rewrite He by exact HI. f_equal.
  - f_equal. apply bidx_last with (s := rev s); [|assumption]. rewrite !rev_length. apply inb_length; assumption.
  - assert (L : length (rev s ++ [1]) = length (rev r ++ [k])).
    { rewrite !app_length, !rev_length. rewrite (inb_length _ _ Hr). reflexivity. }
    unfold bidx. rewrite L, Nat.sub_diag. cbn [skipn].
    rewrite map2_app by (rewrite !rev_length; symmetry; apply inb_length; assumption).
    cbn [map2]. rewrite pick_1.
    assert (M : map2 pick (rev s) (rev r) = rev r).
    { pose proof (bidx_self (rev s) (rev r) (inb_rev _ _ Hr)) as X. unfold bidx in X.
      rewrite !rev_length, (inb_length _ _ Hr), Nat.sub_diag in X. exact X. }
    rewrite M, rev_snoc. reflexivity.
Qed.

(** two arrays of the same shape *)
Lemma bop_same_is (op : num -> num -> num) (a b : arr num) s : shp a = s -> shp b = s ->
  exists q, bop op a b = Ok q /\ shp q = s /\ (forall r, inb r s -> ent q r = op (ent a r) (ent b r)).
Proof.
  intros Ha Hb. destruct (bop_is op a b _ _ _ _ s (self_is a _ Ha) (self_is b _ Hb) (bshape_same s)) as (q & E & Hq & He).
  exists q; split; [exact E|]; split; [exact Hq|]. intros r Hr. rewrite He by assumption.
  rewrite bidx_self by assumption; reflexivity.
Qed.

Lemma stack2_is {A} (a b : arr A) d s : shp a = s -> shp b = s ->
  exists q, stack [a; b] d = Ok q /\ shp q = 2 :: s /\
    (forall r, ent q (0 :: r) = ent a r) /\ (forall r, ent q (1 :: r) = ent b r).
Proof.
  intros Ha Hb. unfold stack. cbn [forallb]. rewrite Ha, Hb, natlist_eqb_refl. cbn [andb].
  eexists; split; [reflexivity|]. cbn. auto.
Qed.

Lemma nsum_ext {A} (f h : A -> num) l : (forall a, In a l -> f a = h a) -> nsum (map f l) = nsum (map h l).
Proof. intros H. f_equal. apply map_ext_in. exact H. Qed.
