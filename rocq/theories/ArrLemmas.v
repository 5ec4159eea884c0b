(** * ArrLemmas: facts about the array model. *)
From Coq Require Import Reals Lra Lia List Bool Arith ZArith.
From Verif Require Import Num NumLemmas Arr.
Import ListNotations.

Lemma natlist_eqb_refl l : natlist_eqb l l = true.
Proof. induction l; cbn; [reflexivity|]. rewrite Nat.eqb_refl; assumption. Qed.

Lemma natlist_eqb_eq a b : natlist_eqb a b = true <-> a = b.
Proof.
  revert b; induction a as [|x a IH]; intros [|y b]; cbn; split; try discriminate; auto.
  - rewrite andb_true_iff, Nat.eqb_eq, IH. intros [-> ->]; reflexivity.
  - intros H; injection H as -> ->. rewrite Nat.eqb_refl; apply IH; reflexivity.
Qed.

(** ** broadcasting of symbolic dimensions *)
Lemma bdim_same n : bdim n n = Some n.
Proof. unfold bdim; rewrite Nat.eqb_refl; reflexivity. Qed.
Lemma bdim_1_l n : bdim 1 n = Some n.
Proof. unfold bdim. destruct (Nat.eqb_spec 1 n) as [<-|]; reflexivity. Qed.
Lemma bdim_1_r n : bdim n 1 = Some n.
Proof. unfold bdim. destruct (Nat.eqb_spec n 1) as [->|]; reflexivity. Qed.
Lemma pick_1 i : pick 1 i = 0. Proof. reflexivity. Qed.
Lemma pick_lt n i : i < n -> pick n i = i.
Proof. unfold pick; destruct (Nat.eqb_spec n 1); lia. Qed.
Lemma pick_0 n : pick n 0 = 0.
Proof. unfold pick; destruct (Nat.eqb n 1); reflexivity. Qed.

Lemma pick_pick n i : pick n (pick n i) = pick n i.
Proof. unfold pick; destruct (Nat.eqb n 1); reflexivity. Qed.

Global Arguments bdim : simpl never.
Global Arguments pick : simpl never.
Global Arguments lse : simpl never.
Global Arguments nsum : simpl never.
Global Arguments nlog : simpl never.
Global Arguments nexp : simpl never.
Global Arguments nadd : simpl never.
Global Arguments nsub : simpl never.
Global Arguments nmul : simpl never.
Global Arguments ndiv : simpl never.
Global Arguments nsqrt : simpl never.
Global Arguments npow : simpl never.

(** ** in-bounds indices *)
Lemma inb_nil idx : inb idx [] -> idx = [].
Proof. inversion 1; reflexivity. Qed.
Lemma inb_cons idx d s : inb idx (d :: s) -> exists i r, idx = i :: r /\ i < d /\ inb r s.
Proof. inversion 1; subst; eauto. Qed.

Ltac inb_inv :=
  repeat match goal with
  | H : inb ?idx [] |- _ => apply inb_nil in H; try subst idx
  | H : inb ?idx (_ :: _) |- _ =>
      let i := fresh "i" in let r := fresh "r" in
      let Hi := fresh "Hi" in let Hr := fresh "Hr" in
      apply inb_cons in H; destruct H as (i & r & ? & Hi & Hr); try subst idx
  end.

Lemma in_all_idx s idx : In idx (all_idx s) <-> inb idx s.
Proof.
  revert idx; induction s as [|d s IH]; intros idx; cbn.
  - split; [intros [<-|[]]; constructor|]. intros H; apply inb_nil in H; auto.
  - rewrite in_flat_map. split.
    + intros (i & Hi & H). apply in_map_iff in H as (r & <- & Hr).
      apply in_seq in Hi. constructor; [lia|]. apply IH; assumption.
    + intros H. apply inb_cons in H as (i & r & -> & Hi & Hr).
      exists i; split; [apply in_seq; lia|]. apply in_map, IH; assumption.
Qed.

Lemma sum_all_idx_nil F : sumR (map F (all_idx [])) = F [].
Proof. cbn; lra. Qed.

Lemma sumR_flat_map {A} (h : A -> list R) l :
  sumR (flat_map h l) = sumR (map (fun a => sumR (h a)) l).
Proof.
  induction l as [|a l IH]; [reflexivity|]. cbn [flat_map map].
  rewrite sumR_app, IH; reflexivity.
Qed.

Lemma map_flat_map {A B C} (f : B -> C) (h : A -> list B) l :
  map f (flat_map h l) = flat_map (fun a => map f (h a)) l.
Proof.
  induction l as [|a l IH]; [reflexivity|]. cbn [flat_map]. rewrite map_app, IH; reflexivity.
Qed.

Lemma sum_all_idx_cons F n s :
  sumR (map F (all_idx (n :: s))) =
  Sum n (fun i => sumR (map (fun r => F (i :: r)) (all_idx s))).
Proof.
  cbn [all_idx]. rewrite map_flat_map, sumR_flat_map, <- sumR_map_seq.
  f_equal. apply map_ext; intros i. rewrite map_map; reflexivity.
Qed.

Global Arguments all_idx : simpl never.

(** ** reductions *)
Lemma has_zero_false s : (forall d, In d s -> d <> 0) -> has_zero s = false.
Proof.
  intros H. unfold has_zero. apply not_true_is_false. intros E.
  apply existsb_exists in E as (d & Hd & E). apply Nat.eqb_eq in E. apply (H d Hd); auto.
Qed.

(** ** bop with explicit shapes *)
Lemma bop_eq {A B C} (f : A -> B -> C) a b sa sb s :
  shp a = sa -> shp b = sb -> bshape sa sb = Some s ->
  bop f a b = Ok (Arr s (fun idx => f (ent a (bidx sa idx)) (ent b (bidx sb idx)))).
Proof. intros <- <- H. unfold bop. rewrite H; reflexivity. Qed.

Lemma iop_eq {A B} (f : A -> B -> A) a b sa sb :
  shp a = sa -> shp b = sb -> bshape sa sb = Some sa ->
  iop f a b = Ok (Arr sa (fun idx => f (ent a idx) (ent b (bidx sb idx)))).
Proof. intros <- <- H. unfold iop. rewrite H, natlist_eqb_refl; reflexivity. Qed.

(** compute a broadcast shape with symbolic dimensions *)
Ltac bsh :=
  cbn [shp]; unfold bshape; cbn [rev app bshape_rev];
  repeat (rewrite ?bdim_same, ?bdim_1_l, ?bdim_1_r; cbn [rev app bshape_rev]);
  reflexivity.

(** simplify picks of in-range indices *)
Ltac picks := rewrite ?pick_pick, ?pick_1, ?pick_0; repeat rewrite pick_lt by (assumption || lia).

(** ** generic in-bounds facts for broadcasting *)
Lemma inb_length idx s : inb idx s -> length idx = length s.
Proof. induction 1; cbn; auto. Qed.

Lemma inb_app i1 s1 i2 s2 : inb i1 s1 -> inb i2 s2 -> inb (i1 ++ i2) (s1 ++ s2).
Proof. intros; apply Forall2_app; assumption. Qed.

Lemma inb_app_inv i s1 s2 :
  inb i (s1 ++ s2) -> exists i1 i2, i = i1 ++ i2 /\ inb i1 s1 /\ inb i2 s2.
Proof.
  intros H. apply Forall2_app_inv_r in H as (i1 & i2 & H1 & H2 & ->). eauto.
Qed.

Lemma inb_rev idx s : inb idx s -> inb (rev idx) (rev s).
Proof.
  induction 1; cbn; [constructor|]. apply inb_app; [assumption|]. repeat constructor; assumption.
Qed.

Lemma map2_app {A B C} (f : A -> B -> C) l1 l2 m1 m2 :
  length l1 = length m1 -> map2 f (l1 ++ l2) (m1 ++ m2) = map2 f l1 m1 ++ map2 f l2 m2.
Proof.
  revert m1; induction l1 as [|a l1 IH]; intros [|b m1] H; cbn in *; try discriminate; auto.
  rewrite IH by lia; reflexivity.
Qed.

Lemma map2_rev {A B C} (f : A -> B -> C) l m :
  length l = length m -> rev (map2 f l m) = map2 f (rev l) (rev m).
Proof.
  revert m; induction l as [|a l IH]; intros [|b m] H; cbn in *; try discriminate; auto.
  rewrite map2_app by (rewrite !rev_length; lia). rewrite IH by lia. reflexivity.
Qed.

Lemma map2_nil_r {A B C} (f : A -> B -> C) l : map2 f l [] = [].
Proof. destruct l; reflexivity. Qed.

Lemma map2_firstn_r {A B C} (f : A -> B -> C) l m k :
  length l <= k -> map2 f l (firstn k m) = map2 f l m.
Proof.
  revert m k; induction l as [|a l IH]; intros m k H; [reflexivity|].
  destruct m as [|b m]; [rewrite firstn_nil; reflexivity|].
  destruct k as [|k]; cbn in *; [lia|]. rewrite IH by lia; reflexivity.
Qed.

(** right-aligned indexing seen from the right *)
Lemma bidx_rev s idx : length s <= length idx -> rev (bidx s idx) = map2 pick (rev s) (rev idx).
Proof.
  intros H. unfold bidx. rewrite map2_rev by (rewrite skipn_length; lia).
  set (k := length idx - length s).
  assert (E : rev idx = rev (skipn k idx) ++ rev (firstn k idx)).
  { rewrite <- rev_app_distr, firstn_skipn; reflexivity. }
  rewrite E.
  rewrite <- (map2_firstn_r pick (rev s) (rev (skipn k idx) ++ rev (firstn k idx)) (length (skipn k idx))).
  - rewrite firstn_app, rev_length, Nat.sub_diag, firstn_O, app_nil_r.
    rewrite firstn_all2 by (rewrite rev_length; lia). reflexivity.
  - rewrite rev_length, skipn_length; subst k; lia.
Qed.

Lemma pick_bound_l a b d i : bdim a b = Some d -> i < d -> pick a i < a.
Proof.
  unfold bdim, pick. destruct (Nat.eqb_spec a b); [intros [= <-]; destruct (Nat.eqb_spec a 1); lia|].
  destruct (Nat.eqb_spec a 1); [lia|]. destruct (Nat.eqb_spec b 1); [intros [= <-]; lia|discriminate].
Qed.

Lemma bdim_comm a b : bdim a b = bdim b a.
Proof.
  unfold bdim. destruct (Nat.eqb_spec a b) as [->|n].
  - rewrite Nat.eqb_refl; reflexivity.
  - destruct (Nat.eqb_spec b a); [congruence|].
    destruct (Nat.eqb_spec a 1), (Nat.eqb_spec b 1); subst; congruence.
Qed.

Lemma bshape_rev_comm s1 s2 : bshape_rev s1 s2 = bshape_rev s2 s1.
Proof.
  revert s2; induction s1 as [|a s1 IH]; intros [|b s2]; cbn; auto.
  rewrite bdim_comm, IH; reflexivity.
Qed.
Lemma bshape_comm s1 s2 : bshape s1 s2 = bshape s2 s1.
Proof. unfold bshape; rewrite bshape_rev_comm; reflexivity. Qed.

Lemma bshape_rev_length s1 s2 s : bshape_rev s1 s2 = Some s -> length s1 <= length s.
Proof.
  revert s2 s; induction s1 as [|a s1 IH]; intros [|b s2] s; cbn.
  - intros [= <-]; reflexivity.
  - intros [= <-]; cbn; lia.
  - intros [= <-]; reflexivity.
  - destruct (bdim a b); [|discriminate]. destruct (bshape_rev s1 s2) eqn:E; [|discriminate].
    intros [= <-]. cbn. apply IH in E; lia.
Qed.

Lemma bshape_rev_inb s1 s2 s idx :
  bshape_rev s1 s2 = Some s -> inb idx s -> inb (map2 pick s1 idx) s1.
Proof.
  revert s2 s idx; induction s1 as [|a s1 IH]; intros s2 s idx; cbn; [constructor|].
  destruct s2 as [|b s2].
  - intros [= <-] H. apply inb_cons in H as (i & r & -> & Hi & Hr). cbn.
    constructor; [rewrite pick_lt; auto|]. eapply (IH []); [|exact Hr].
    destruct s1; reflexivity.
  - destruct (bdim a b) as [d|] eqn:Ed; [|discriminate].
    destruct (bshape_rev s1 s2) as [r'|] eqn:E; [|discriminate].
    intros [= <-] H. apply inb_cons in H as (i & r & -> & Hi & Hr). cbn.
    constructor; [eapply pick_bound_l; eauto|]. eapply IH; eauto.
Qed.

Lemma bshape_inb_l s1 s2 s idx : bshape s1 s2 = Some s -> inb idx s -> inb (bidx s1 idx) s1.
Proof.
  unfold bshape. destruct (bshape_rev (rev s1) (rev s2)) as [r|] eqn:E; [|discriminate].
  intros [= <-] H.
  assert (L : length s1 <= length idx).
  { apply inb_length in H. rewrite H, rev_length. apply bshape_rev_length in E.
    rewrite rev_length in E; exact E. }
  apply inb_rev in H. rewrite rev_involutive in H.
  eapply bshape_rev_inb in H; [|exact E].
  rewrite <- (rev_involutive s1) at 2. rewrite <- (rev_involutive (bidx s1 idx)).
  apply inb_rev. rewrite bidx_rev by exact L. exact H.
Qed.
Lemma bshape_inb_r s1 s2 s idx : bshape s1 s2 = Some s -> inb idx s -> inb (bidx s2 idx) s2.
Proof. rewrite bshape_comm. apply bshape_inb_l. Qed.

Lemma bidx_self s idx : inb idx s -> bidx s idx = idx.
Proof.
  intros H. unfold bidx. rewrite (inb_length _ _ H), Nat.sub_diag. cbn [skipn].
  induction H as [|i d r s Hi Hr IH]; [reflexivity|]. cbn.
  rewrite pick_lt by assumption. rewrite IH; reflexivity.
Qed.

Lemma bshape_same s : bshape s s = Some s.
Proof.
  unfold bshape. assert (E : forall l, bshape_rev l l = Some l).
  { induction l as [|a l IH]; [reflexivity|]. cbn. rewrite bdim_same, IH; reflexivity. }
  rewrite E, rev_involutive; reflexivity.
Qed.

Lemma bshape_nil_l s : bshape [] s = Some s.
Proof. unfold bshape; cbn. destruct (rev s) eqn:E; rewrite <- E, rev_involutive; reflexivity. Qed.
Lemma bshape_nil_r s : bshape s [] = Some s.
Proof. rewrite bshape_comm; apply bshape_nil_l. Qed.
Lemma bidx_nil idx : bidx [] idx = [].
Proof. reflexivity. Qed.

(** broadcasting a vector of the last axis *)
Lemma bshape_last s n : bshape (s ++ [n]) [n] = Some (s ++ [n]).
Proof.
  unfold bshape. rewrite rev_app_distr. cbn. rewrite bdim_same.
  replace (bshape_rev (rev s) []) with (Some (rev s)) by (destruct (rev s); reflexivity).
  cbn. rewrite rev_involutive; reflexivity.
Qed.
Lemma bidx_last (s : list nat) n idx i : length idx = length s -> i < n -> bidx [n] (idx ++ [i]) = [i].
Proof.
  intros H Hi. unfold bidx. rewrite app_length. cbn [length].
  replace (length idx + 1 - 1) with (length idx) by lia.
  rewrite skipn_app, skipn_all, Nat.sub_diag. cbn. rewrite pick_lt by assumption; reflexivity.
Qed.

(** ** the operations on arrays known up to in-bounds entries *)
Section ArrIs.
Context {A B C : Type}.

Lemma arr_is_ext (a : arr A) s f f' :
  arr_is a s f -> (forall idx, inb idx s -> f idx = f' idx) -> arr_is a s f'.
Proof. intros [Hs He] H; split; [assumption|]. intros; rewrite He, H by assumption; reflexivity. Qed.

Lemma amap_is (op : A -> B) a s f : arr_is a s f -> arr_is (amap op a) s (fun idx => op (f idx)).
Proof. intros [Hs He]; split; [exact Hs|]. intros; cbn; rewrite He by assumption; reflexivity. Qed.

Lemma bop_is (op : A -> B -> C) a b sa fa sb fb s :
  arr_is a sa fa -> arr_is b sb fb -> bshape sa sb = Some s ->
  exists r, bop op a b = Ok r /\
            arr_is r s (fun idx => op (fa (bidx sa idx)) (fb (bidx sb idx))).
Proof.
  intros [Hsa Hfa] [Hsb Hfb] H. unfold bop. rewrite Hsa, Hsb, H.
  eexists; split; [reflexivity|]. split; [reflexivity|]. intros idx Hi. cbn.
  rewrite Hfa by (eapply bshape_inb_l; eauto). rewrite Hfb by (eapply bshape_inb_r; eauto).
  reflexivity.
Qed.

Lemma iop_is (op : A -> B -> A) a b sa fa sb fb :
  arr_is a sa fa -> arr_is b sb fb -> bshape sa sb = Some sa ->
  exists r, iop op a b = Ok r /\
            arr_is r sa (fun idx => op (fa idx) (fb (bidx sb idx))).
Proof.
  intros [Hsa Hfa] [Hsb Hfb] H. unfold iop. rewrite Hsa, Hsb, H, natlist_eqb_refl.
  eexists; split; [reflexivity|]. split; [reflexivity|]. intros idx Hi. cbn.
  rewrite Hfa by assumption. rewrite Hfb by (eapply bshape_inb_r; eauto). reflexivity.
Qed.

Lemma T_is (a : arr A) s f : arr_is a s f -> arr_is (T a) (rev s) (fun idx => f (rev idx)).
Proof.
  intros [Hs He]; split; [cbn; rewrite Hs; reflexivity|]. intros idx Hi. cbn.
  apply He. rewrite <- (rev_involutive s). apply inb_rev; assumption.
Qed.

Lemma scal_is (x : A) : arr_is (scal x) [] (fun _ => x).
Proof. split; reflexivity. Qed.

Lemma full_is (x : A) s : arr_is (full s x) s (fun _ => x).
Proof. split; reflexivity. Qed.

Lemma getitem_is spec (a : arr A) s f s' :
  arr_is a s f -> gi_shape spec s = Some s' ->
  (forall idx, inb idx s' -> inb (gi_idx spec s idx) s) ->
  exists r, getitem spec a = Ok r /\ arr_is r s' (fun idx => f (gi_idx spec s idx)).
Proof.
  intros [Hs He] H Hin. unfold getitem. rewrite Hs, H. eexists; split; [reflexivity|].
  split; [reflexivity|]. intros; cbn. apply He; auto.
Qed.

Lemma int_ok_pos d k : int_ok d k = true -> int_pos d k < d.
Proof.
  unfold int_ok, int_pos. rewrite andb_true_iff, Z.leb_le, Z.ltb_lt. intros [H1 H2].
  destruct (Z.leb_spec 0 k); lia.
Qed.

Lemma gi_inb spec s s' idx :
  gi_shape spec s = Some s' -> inb idx s' -> inb (gi_idx spec s idx) s.
Proof.
  revert s s' idx; induction spec as [|[| |k] sp IH]; intros s s' idx; cbn.
  - intros [= <-]; auto.
  - destruct (gi_shape sp s) eqn:E; [|discriminate]. intros [= <-] H.
    apply inb_cons in H as (i & r & -> & _ & Hr). eapply IH; eauto.
  - destruct s as [|d s]; [discriminate|]. destruct (gi_shape sp s) eqn:E; [|discriminate].
    intros [= <-] H. apply inb_cons in H as (i & r & -> & Hi & Hr). cbn.
    constructor; [assumption|]. eapply IH; eauto.
  - destruct s as [|d s]; [discriminate|]. destruct (int_ok d k) eqn:Ek; [|discriminate].
    intros E H. cbn. constructor; [apply int_ok_pos; assumption|]. eapply IH; eauto.
Qed.

Lemma getitem_is' spec (a : arr A) s f s' :
  arr_is a s f -> gi_shape spec s = Some s' ->
  exists r, getitem spec a = Ok r /\ arr_is r s' (fun idx => f (gi_idx spec s idx)).
Proof. intros Ha H. apply getitem_is; auto. intros; eapply gi_inb; eauto. Qed.

Lemma merge_inb mask s idx sub :
  length mask = length s ->
  inb idx (keep false mask s) -> inb sub (keep true mask s) -> inb (merge mask idx sub) s.
Proof.
  revert s idx sub; induction mask as [|[] mask IH]; intros [|d s] idx sub L H1 H2; cbn in *;
    try discriminate.
  - constructor.
  - apply inb_cons in H2 as (i & r & -> & Hi & Hr). constructor; [exact Hi|]. apply IH; auto; lia.
  - apply inb_cons in H1 as (i & r & -> & Hi & Hr). constructor; [exact Hi|]. apply IH; auto; lia.
Qed.

Lemma reduce_is (red : list A -> B) axs (a : arr A) s f :
  arr_is a s f ->
  arr_is (reduce red axs a) (keep false (axis_mask (length s) axs) s)
    (fun idx => red (map (fun sub => f (merge (axis_mask (length s) axs) idx sub))
                         (all_idx (keep true (axis_mask (length s) axs) s)))).
Proof.
  intros [Hs He]. unfold reduce. rewrite Hs. split; [reflexivity|]. intros idx Hi. cbn.
  f_equal. apply map_ext_in. intros sub Hsub. apply in_all_idx in Hsub. apply He.
  apply merge_inb; auto. unfold axis_mask. rewrite map_length, seq_length; reflexivity.
Qed.

Lemma transpose_is (a : arr A) s f order :
  arr_is a s f ->
  (forall idx, inb idx (map (fun k => nth k s 0) order) ->
     inb (map (fun j => nth (index_of j order) idx 0) (seq 0 (length s))) s) ->
  arr_is (transpose a order) (map (fun k => nth k s 0) order)
    (fun idx => f (map (fun j => nth (index_of j order) idx 0) (seq 0 (length s)))).
Proof.
  intros [Hs He] H. unfold transpose. rewrite Hs. split; [reflexivity|]. intros; cbn.
  apply He; auto.
Qed.

Lemma slice0_is lo n (a : arr A) d s f :
  arr_is a (d :: s) f -> lo + n <= d ->
  arr_is (slice0 lo n a) (n :: s) (fun idx => f ((lo + hd 0 idx) :: tl idx)).
Proof.
  intros [Hs He] H. unfold slice0. rewrite Hs. split; [reflexivity|]. intros idx Hi.
  apply inb_cons in Hi as (i & r & -> & Hi & Hr). cbn. apply He. constructor; [lia|assumption].
Qed.

Lemma tail0_is (a : arr A) d s f :
  arr_is a (d :: s) f -> 0 < d ->
  arr_is (tail0 a) ((d - 1) :: s) (fun idx => f (S (hd 0 idx) :: tl idx)).
Proof.
  intros Ha Hd. unfold tail0, len0. destruct Ha as [Hs He]. rewrite Hs. cbn [hd].
  apply (slice0_is 1 (d - 1) a d s f); [split; assumption|lia].
Qed.
Lemma init0_is (a : arr A) d s f :
  arr_is a (d :: s) f -> arr_is (init0 a) ((d - 1) :: s) f.
Proof.
  intros Ha. unfold init0, len0. pose proof Ha as [Hs He]. rewrite Hs. cbn [hd].
  eapply arr_is_ext; [eapply (slice0_is 0 (d - 1) a d s f); [exact Ha|lia]|].
  intros idx Hi. apply inb_cons in Hi as (i & r & -> & Hi & Hr). reflexivity.
Qed.

Lemma concat0_is (a b : arr A) n m s f h :
  arr_is a (n :: s) f -> arr_is b (m :: s) h ->
  exists r, concat0 a b = Ok r /\
    arr_is r (n + m :: s) (fun idx => if Nat.ltb (hd 0 idx) n then f idx
                                      else h ((hd 0 idx - n) :: tl idx)).
Proof.
  intros [Hsa Hfa] [Hsb Hfb]. unfold concat0. rewrite Hsa, Hsb, natlist_eqb_refl.
  eexists; split; [reflexivity|]. split; [reflexivity|]. intros idx Hi.
  apply inb_cons in Hi as (i & r & -> & Hi & Hr). cbn [ent hd tl].
  destruct (Nat.ltb_spec i n).
  - apply Hfa. constructor; assumption.
  - apply Hfb. constructor; [lia|assumption].
Qed.

Lemma broadcast_to_is (a : arr A) s f s' :
  arr_is a s f -> bshape s s' = Some s' ->
  exists r, broadcast_to a s' = Ok r /\ arr_is r s' (fun idx => f (bidx s idx)).
Proof.
  intros [Hs He] H. unfold broadcast_to. rewrite Hs, H, natlist_eqb_refl.
  eexists; split; [reflexivity|]. split; [reflexivity|]. intros; cbn. apply He.
  eapply bshape_inb_l; eauto.
Qed.

End ArrIs.

Lemma cumsum0_is (a : arr num) d s f :
  arr_is a (d :: s) f ->
  arr_is (cumsum0 a) (d :: s)
    (fun idx => nsum (map (fun k => f (k :: tl idx)) (seq 0 (S (hd 0 idx))))).
Proof.
  intros [Hs He]. split; [exact Hs|]. intros idx Hi.
  apply inb_cons in Hi as (i & r & -> & Hi & Hr). cbn.
  change (nsum (map (fun k => ent a (k :: r)) (seq 0 (S i))) =
          nsum (map (fun k => f (k :: r)) (seq 0 (S i)))).
  f_equal. apply map_ext_in. intros k Hk. apply in_seq in Hk. apply He.
  constructor; [lia|assumption].
Qed.

Lemma asum_is axes axs (a : arr num) s f :
  arr_is a s f -> norm_axes (length s) axes = Ok axs ->
  exists r, asum axes a = Ok r /\
   arr_is r (keep false (axis_mask (length s) axs) s)
    (fun idx => nsum (map (fun sub => f (merge (axis_mask (length s) axs) idx sub))
                         (all_idx (keep true (axis_mask (length s) axs) s)))).
Proof.
  intros Ha H. unfold asum. pose proof Ha as [Hs _]. rewrite Hs, H. cbn [bind].
  eexists; split; [reflexivity|]. apply reduce_is; assumption.
Qed.

Lemma logsumexp_is axes axs (a : arr num) s f :
  arr_is a s f -> norm_axes (length s) axes = Ok axs ->
  has_zero (keep true (axis_mask (length s) axs) s) = false ->
  exists r, logsumexp a axes = Ok r /\
   arr_is r (keep false (axis_mask (length s) axs) s)
    (fun idx => lse (map (fun sub => f (merge (axis_mask (length s) axs) idx sub))
                         (all_idx (keep true (axis_mask (length s) axs) s)))).
Proof.
  intros Ha H Hz. unfold logsumexp. pose proof Ha as [Hs _]. rewrite Hs, H. cbn [bind].
  rewrite Hz. eexists; split; [reflexivity|]. apply reduce_is; assumption.
Qed.

Lemma logsumexp_all_is (a : arr num) s f :
  arr_is a s f -> has_zero s = false ->
  exists r, logsumexp_all a = Ok r /\ arr_is r [] (fun _ => lse (map f (all_idx s))).
Proof.
  intros [Hs He] Hz. unfold logsumexp_all. rewrite Hs, Hz. eexists; split; [reflexivity|].
  split; [reflexivity|]. intros idx _. cbn. f_equal. apply map_ext_in. intros i Hi.
  apply in_all_idx in Hi. auto.
Qed.

Lemma moveaxis_is {A} (a : arr A) s f src dst src' dst' :
  arr_is a s f -> norm_axes (length s) src = Ok src' -> norm_axes (length s) dst = Ok dst' ->
  length src' = length dst' ->
  (forall idx, inb idx (map (fun k => nth k s 0) (moveaxis_order (length s) src' dst')) ->
     inb (map (fun j => nth (index_of j (moveaxis_order (length s) src' dst')) idx 0) (seq 0 (length s))) s) ->
  exists r, moveaxis a src dst = Ok r /\
    arr_is r (map (fun k => nth k s 0) (moveaxis_order (length s) src' dst'))
     (fun idx => f (map (fun j => nth (index_of j (moveaxis_order (length s) src' dst')) idx 0) (seq 0 (length s)))).
Proof.
  intros Ha Hs Hd L H. unfold moveaxis. pose proof Ha as [E _]. rewrite E, Hs. cbn [bind].
  rewrite Hd. cbn [bind]. rewrite L, Nat.eqb_refl. eexists; split; [reflexivity|].
  apply transpose_is; assumption.
Qed.
