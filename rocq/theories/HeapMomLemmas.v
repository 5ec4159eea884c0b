(** * HeapMomLemmas: moments on the heap against moments on values. *)
From Coq Require Import Reals String Ascii List Bool Arith ZArith Lia.
From Verif Require Import Num Arr ArrLemmas PyStr Cube Base Moments NormalL Heap HeapLemmas HeapClaims HeapMom.
Import ListNotations.
Local Open Scope nat_scope.

(** ** further operations on values *)
Lemma same_asum_all a b : same a b -> same (asum_all a) (asum_all b).
Proof.
  intros [H1 H2]. unfold asum_all. rewrite <- H1. split; [reflexivity|]. intros idx _. cbn. f_equal.
  apply map_ext_in. intros i Hi. apply H2, in_all_idx; exact Hi.
Qed.
Lemma same_cumsum0 a b : same a b -> same (cumsum0 a) (cumsum0 b).
Proof.
  intros [H1 H2]. unfold cumsum0. rewrite <- H1. split; [reflexivity|]. intros [|i r] Hi; [reflexivity|].
  cbn [ent shp] in *. f_equal. apply map_ext_in. intros k Hk. apply in_seq in Hk. apply H2.
  destruct (shp a) as [|d s]; [inversion Hi|]. apply inb_cons in Hi as (i' & r' & [= <- <-] & Hi & Hr). constructor; [lia|exact Hr].
Qed.
Lemma same_concat0 {A} (a a' b b' : arr A) : same a a' -> same b b' -> ressame (concat0 a b) (concat0 a' b').
Proof.
  intros [H1 H2] [H3 H4]. unfold concat0. rewrite <- H1, <- H3.
  destruct (shp a) as [|n s] eqn:Ea; [reflexivity|]. destruct (shp b) as [|m s'] eqn:Eb; [reflexivity|].
  destruct (natlist_eqb s s') eqn:E; [|reflexivity]. apply natlist_eqb_eq in E. subst s'.
  split; [reflexivity|]. intros idx Hi. cbn [shp ent] in *. apply inb_cons in Hi as (i & r & -> & Hi & Hr).
  destruct (Nat.ltb_spec i n).
  - apply H2. constructor; assumption.
  - apply H4. constructor; [lia|assumption].
Qed.
Lemma same_stack {A} (l l' : list (arr A)) d : Forall2 same l l' -> ressame (stack l d) (stack l' d).
Proof.
  intros H. destruct H as [|a a' l l' Ha Hl]; [apply same_refl|]. unfold stack. rewrite <- (proj1 Ha).
  assert (E : forallb (fun b => natlist_eqb (shp a) (shp b)) l' = forallb (fun b => natlist_eqb (shp a) (shp b)) l).
  { clear -Hl. induction Hl as [|b b' l l' Hb Hl IH]; [reflexivity|]. cbn. rewrite IH, (proj1 Hb). reflexivity. }
  rewrite E. destruct (forallb _ l) eqn:F; [|reflexivity].
  assert (Ln : length (a :: l) = length (a' :: l')).
  { cbn. f_equal. clear -Hl. induction Hl; cbn; congruence. }
  split; [cbn; cbn in Ln; congruence|]. intros idx Hi. cbn [shp ent] in *.
  apply inb_cons in Hi as (i & r & -> & Hi & Hr).
  assert (H : Forall2 same (a :: l) (a' :: l')) by (constructor; assumption).
  assert (Fs : Forall (fun b => shp b = shp a) (a :: l)).
  { constructor; [reflexivity|]. apply Forall_forall. intros b Hb. rewrite forallb_forall in F.
    specialize (F b Hb). apply natlist_eqb_eq in F. congruence. }
  revert H Fs. generalize (a :: l), (a' :: l'). clear - Hr. intros m m' H. revert i.
  induction H as [|b b' m m' Hb Hm IH]; intros i Fs; [destruct i; reflexivity|]. inversion Fs; subst.
  destruct i; cbn; [apply Hb; rewrite H1; exact Hr|]. apply IH; assumption.
Qed.
Lemma same_broadcast {A} (a b : arr A) s : same a b -> ressame (broadcast_to a s) (broadcast_to b s).
Proof.
  intros [H1 H2]. unfold broadcast_to. rewrite <- H1. destruct (bshape (shp a) s) as [s'|] eqn:E; [|reflexivity].
  destruct (natlist_eqb s' s) eqn:En; [|reflexivity]. apply natlist_eqb_eq in En. subst s'.
  split; [reflexivity|]. intros idx Hi. cbn. apply H2. eapply bshape_inb_l; eauto.
Qed.

(** ** arrays that hold a value; unlike [ref], several entries may be one cell *)
Definition sees (h : heap) (r : nda) (v : arr num) : Prop := na_addr r < length h /\ same (value h r) v.
Lemma ref_sees n h r v : ref n h r v -> sees h r v.
Proof. intros (H1 & _ & H2). split; [lia|exact H2]. Qed.
Lemma sees_keeps h h' r v : keeps (length h) h h' -> sees h r v -> sees h' r v.
Proof. intros K [H1 H2]. split; [destruct K; lia|]. rewrite (keeps_value (length h) h h') by auto. exact H2. Qed.
Lemma sees_shp h r v : sees h r v -> na_shp r = shp v.
Proof. intros [_ [H _]]. exact H. Qed.
Lemma sees_T h r v : sees h r v -> sees h (v_T r) (T v).
Proof. intros [H1 H2]. split; [exact H1|exact (same_T _ _ H2)]. Qed.
Lemma sees_slice h r v lo k : lo + k <= hd 0 (na_shp r) \/ k = 0 -> sees h r v -> sees h (v_slice0 lo k r) (slice0 lo k v).
Proof.
  intros Hk [H1 H3]. split; [exact H1|]. pose proof (same_slice0 lo k (value h r) v Hk H3) as [A B].
  split; [exact A|]. intros idx Hi. rewrite <- B by exact Hi. cbn. destruct idx; reflexivity.
Qed.
Lemma sees_tail h r v : sees h r v -> sees h (v_tail0 r) (tail0 v).
Proof. intros H. unfold v_tail0, tail0, len0. rewrite <- (sees_shp _ _ _ H). apply sees_slice; [lia|exact H]. Qed.
Lemma sees_init h r v : sees h r v -> sees h (v_init0 r) (init0 v).
Proof. intros H. unfold v_init0, init0, len0. rewrite <- (sees_shp _ _ _ H). apply sees_slice; [lia|exact H]. Qed.
Definition view_ok (h : heap) (r : nda) (x : res nda) (p : res (arr num)) : Prop :=
  match x, p with
  | Ok r', Ok v' => na_addr r' = na_addr r /\ sees h r' v'
  | Err e, Err e' => e = e'
  | _, _ => False
  end.
Lemma sees_getitem h spec r v : sees h r v -> view_ok h r (v_getitem spec r) (getitem spec v).
Proof.
  intros [H1 H3]. pose proof (same_getitem spec _ _ H3) as H. unfold view_ok, v_getitem, getitem in *. cbn [value shp] in H.
  destruct (gi_shape spec (na_shp r)); destruct (gi_shape spec (shp v)); cbn in H; try contradiction; auto.
  split; [reflexivity|]. split; [exact H1|exact H].
Qed.
Lemma sees_moveaxis h s d r v : sees h r v -> view_ok h r (v_moveaxis r s d) (moveaxis v s d).
Proof.
  intros [H1 H3]. pose proof (same_moveaxis s d _ _ H3) as H. unfold view_ok, v_moveaxis, moveaxis in *. cbn [value shp] in H.
  destruct (norm_axes (length (na_shp r)) s) as [s1|]; destruct (norm_axes (length (shp v)) s) as [s2|]; cbn in *;
    destruct (norm_axes (length (na_shp r)) d) as [d1|]; destruct (norm_axes (length (shp v)) d) as [d2|]; cbn in *;
    try destruct (length s1 =? length d1); try destruct (length s2 =? length d2); try contradiction; auto.
  split; [reflexivity|]. split; [exact H1|exact H].
Qed.
Lemma sees_broadcast h s r v : sees h r v -> view_ok h r (v_broadcast r s) (broadcast_to v s).
Proof.
  intros [H1 H3]. pose proof (same_broadcast _ _ s H3) as H. unfold view_ok, v_broadcast, broadcast_to in *. cbn [value shp] in H.
  destruct (bshape (na_shp r) s) as [s1|]; destruct (bshape (shp v) s) as [s2|]; cbn in *; try contradiction; auto;
    repeat match goal with |- context [natlist_eqb ?a ?b] => destruct (natlist_eqb a b) end; cbn in *; try contradiction; auto.
  split; [reflexivity|]. split; [exact H1|exact H].
Qed.

(** ** steps.  Nothing that exists when a step begins is changed by it. *)
Section steps.
Context {A B A' B' : Type}.
Lemma g_step h (m : prog A) (p : res B) (R1 : heap -> A -> B -> Prop) (f : A -> prog A') (g : B -> res B') (R : heap -> A' -> B' -> Prop) :
  sp (length h) h m p R1 ->
  (forall h' a b, keeps (length h) h h' -> R1 h' a b -> sp (length h') h' (f a) (g b) R) ->
  sp (length h) h (bnd m f) (bind p g) R.
Proof.
  intros H1 H2. eapply sp_bind; [reflexivity|exact H1|]. intros h' a b K HR.
  eapply sp_weak; [|apply H2; assumption]. apply K.
Qed.
Lemma g_step_ok h (m : prog A) (v : B) (R1 : heap -> A -> B -> Prop) (f : A -> prog A') (q : res B') (R : heap -> A' -> B' -> Prop) :
  sp (length h) h m (Ok v) R1 ->
  (forall h' a, keeps (length h) h h' -> R1 h' a v -> sp (length h') h' (f a) q R) ->
  sp (length h) h (bnd m f) q R.
Proof.
  intros H1 H2. eapply sp_bind_ok; [reflexivity|exact H1|]. intros h' a K HR.
  eapply sp_weak; [|apply H2; assumption]. apply K.
Qed.
Lemma l_step n h (x : res A) (f : A -> prog A') (g : A -> res B') (R : heap -> A' -> B' -> Prop) :
  (forall a, x = Ok a -> sp n h (f a) (g a) R) -> sp n h (bnd (lift x) f) (bind x g) R.
Proof. destruct x as [a|e]; intros H; [exact (H a eq_refl)|split; [apply keeps_refl|reflexivity]]. Qed.
End steps.
(** [m] makes an array not older than [n] *)
Definition newer (n : nat) (h : heap) (r : nda) (v : arr num) : Prop := n <= na_addr r /\ sees h r v.
Definition makes (n : nat) (h : heap) (m : prog nda) (p : res (arr num)) : Prop := sp (length h) h m p (newer n).
Lemma v_step {A B} n h (x : res nda) (p : res (arr num)) r (f : nda -> prog A) (g : arr num -> res B) R :
  view_ok h r x p -> (forall r' v', na_addr r' = na_addr r -> sees h r' v' -> sp n h (f r') (g v') R) ->
  sp n h (bnd (lift x) f) (bind p g) R.
Proof.
  intros H1 H2. destruct x as [r'|e], p as [v'|e']; cbn in H1; try contradiction.
  - exact (H2 r' v' (proj1 H1) (proj2 H1)).
  - split; [apply keeps_refl|exact H1].
Qed.
Lemma v_last n h (x : res nda) (p : res (arr num)) r :
  view_ok h r x p -> n <= na_addr r -> makes n h (lift x) p.
Proof.
  intros H N. split; [apply keeps_refl|]. destruct x, p; cbn in H; auto. destruct H as [E S]. split; [lia|exact S].
Qed.
Lemma makes_weak n k h m p : n <= k -> makes k h m p -> makes n h m p.
Proof. intros L. apply sp_conseq. intros h' a b _ [H1 H2]. split; [lia|exact H2]. Qed.
Lemma makes_sees n h m p : makes n h m p -> sp (length h) h m p sees.
Proof. apply sp_conseq. intros h' a b _ [_ H]. exact H. Qed.
Lemma good_makes n h m p : n <= length h -> good h m p -> makes n h m p.
Proof. intros L. apply sp_conseq. intros h' a b _ H. split; [destruct H; lia|eapply ref_sees; exact H]. Qed.
Lemma mk_new n h f p : n <= length h -> ressame (f h) p -> makes n h (new f) p.
Proof. intros L H. apply good_makes; [exact L|]. apply good_new; exact H. Qed.
Lemma mk_alloc n h v : n <= length h -> makes n h (alloc v) (Ok v).
Proof. intros L. apply good_makes; [exact L|]. apply good_alloc. Qed.
Lemma mk_ret n h r v : n <= na_addr r -> sees h r v -> makes n h (ret r) (Ok v).
Proof. intros N S. apply sp_ret. split; assumption. Qed.

Section ops.
Variables (n : nat) (h : heap) (a b : nda) (va vb : arr num).
Hypotheses (N : n <= length h) (Ha : sees h a va) (Hb : sees h b vb).
Lemma mk_copy : makes n h (h_copy a) (Ok va). Proof. apply mk_new; [exact N|]. apply Ha. Qed.
Lemma mk_map f : makes n h (h_map f a) (Ok (amap f va)). Proof. apply mk_new; [exact N|]. apply same_amap, Ha. Qed.
Lemma mk_sum axes : makes n h (h_sum axes a) (asum axes va). Proof. apply mk_new; [exact N|]. apply same_asum, Ha. Qed.
Lemma mk_sum_all : makes n h (h_sum_all a) (Ok (asum_all va)). Proof. apply mk_new; [exact N|]. apply same_asum_all, Ha. Qed.
Lemma mk_cumsum0 : makes n h (h_cumsum0 a) (Ok (cumsum0 va)). Proof. apply mk_new; [exact N|]. apply same_cumsum0, Ha. Qed.
Lemma mk_bop f : makes n h (h_bop f a b) (bop f va vb).
Proof. apply mk_new; [exact N|]. apply same_bop; [apply Ha|apply Hb]. Qed.
Lemma mk_concat0 : makes n h (h_concat0 a b) (concat0 va vb).
Proof. apply mk_new; [exact N|]. apply same_concat0; [apply Ha|apply Hb]. Qed.
Lemma mk_stack l vl : Forall2 (sees h) l vl -> makes n h (h_stack l) (stack vl NaN).
Proof.
  intros H. apply mk_new; [exact N|]. apply same_stack. induction H as [|r v l vl Hr Hl IH]; cbn; constructor; [apply Hr|exact IH].
Qed.
Lemma mk_stack2 : makes n h (h_stack [a; b]) (stack [va; vb] NaN).
Proof. apply mk_stack. repeat constructor; first [apply Ha|apply Hb]. Qed.
End ops.
Lemma list_sp {A B} (h0 : heap) (f : A -> prog nda) (g : B -> res (arr num)) l l' :
  Forall2 (fun a b => forall h, keeps (length h0) h0 h -> sp (length h) h (f a) (g b) sees) l l' ->
  forall h, keeps (length h0) h0 h -> sp (length h) h (h_list f l) (map_res g l') (fun h' => Forall2 (sees h')).
Proof.
  induction 1 as [|a b l l' Hab Hl IH]; intros h K; cbn [h_list map_res]; [apply sp_ret; constructor|].
  eapply g_step; [apply Hab; exact K|]. intros h1 r v K1 Hr.
  assert (K01 : keeps (length h0) h0 h1) by (eapply keeps_trans; [exact K|eapply keeps_weak; [apply K|exact K1]]).
  eapply g_step; [apply IH; exact K01|]. intros h2 rs vs K2 Hrs. apply sp_ret. constructor; [eapply sees_keeps; eassumption|exact Hrs].
Qed.

(** ** the cube *)
Definition grid_in (h : heap) (g : hgrid) (c : cube) : Prop :=
  cube_in h (hg_cube g) c /\
  sees h (hg_x g) (c_x c) /\ sees h (hg_y g) (c_y c) /\
  sees h (hg_cents_t g) (par_cents_t (c_ssps c)) /\ sees h (hg_cents_z g) (par_cents_z (c_ssps c)) /\
  sees h (hg_edges_t g) (par_edges_t (c_ssps c)) /\ sees h (hg_edges_z g) (par_edges_z (c_ssps c)) /\
  length (shp (c_x c)) = 1 /\ length (shp (c_y c)) = 1.
Lemma grid_keeps h h' g c : keeps (length h) h h' -> grid_in h g c -> grid_in h' g c.
Proof.
  intros K (H1 & H2 & H3 & H4 & H5 & H6 & H7 & H8). split; [eapply cube_keeps; eassumption|].
  repeat (split; [eapply sees_keeps; eassumption|]). exact H8.
Qed.
(** as Moments.v's [obj]; hard-coded means may share memory with the object *)
Definition obj_in (h : heap) (o : hobj) (ov : obj) : Prop :=
  grid_in h (hb_grid o) (o_cube ov) /\
  (forall h' w d lw, keeps (length h) h h' -> good h' (hb_get_p o w d lw) (o_get_p ov w d lw)) /\
  (forall h' w lw, keeps (length h) h h' ->
     match hb_mean o w, o_mean ov w with
     | Some f, Some g => sp (length h') h' (f lw) (g lw) sees
     | None, None => True
     | _, _ => False
     end) /\
  (forall h' w j mu vmu lw, keeps (length h) h h' -> sees h' mu vmu ->
     match hb_moment o w, o_moment ov w with
     | Some f, Some g => makes (length h') h' (f j mu lw) (g j vmu lw)
     | None, None => True
     | _, _ => False
     end).
Lemma obj_keeps h h' o ov : keeps (length h) h h' -> obj_in h o ov -> obj_in h' o ov.
Proof.
  intros K (H1 & H2 & H3 & H4).
  assert (T : forall h2, keeps (length h') h' h2 -> keeps (length h) h h2).
  { intros h2 K2. eapply keeps_trans; [exact K|eapply keeps_weak; [apply K|exact K2]]. }
  split; [eapply grid_keeps; eassumption|]. split; [auto|]. split.
  - intros h2 w lw K2. apply H3; auto.
  - intros h2 w j mu vmu lw K2 S. apply H4; auto.
Qed.

(** carry what is known of a heap over to the heap after a step *)
Ltac mv :=
  match goal with
  | K : keeps (length ?h) ?h ?h' |- _ =>
      repeat match goal with S : sees h _ _ |- _ => apply (sees_keeps _ _ _ _ K) in S end;
      repeat match goal with S : obj_in h _ _ |- _ => apply (obj_keeps _ _ _ _ K) in S end;
      repeat match goal with S : grid_in h _ _ |- _ => apply (grid_keeps _ _ _ _ K) in S end;
      repeat match goal with N : ?n <= length h |- _ => apply (fun x => Nat.le_trans _ _ _ x (proj1 K)) in N end;
      clear K
  end.
Create HintDb sees.
#[local] Hint Resolve sees_T sees_tail sees_init Nat.le_0_l Nat.le_refl : sees.
(** the last operation *)
Ltac op :=
  first [ eapply mk_bop; eauto with sees | eapply mk_map; eauto with sees | eapply mk_sum; eauto with sees
        | eapply mk_sum_all; eauto with sees | eapply mk_stack2; eauto with sees | eapply mk_concat0; eauto with sees
        | eapply mk_cumsum0; eauto with sees | eapply mk_copy; eauto with sees | apply mk_alloc; eauto with sees ].
(** a step which makes a new array (here or on an object in hand) *)
Ltac st r := let h := fresh "h" in let K := fresh "K" in let v := fresh "val_" r in
  eapply g_step; [op|]; intros h r v K [_ ?S]; mv.
Ltac st_ok r := let h := fresh "h" in let K := fresh "K" in
  eapply g_step_ok; [op|]; intros h r K [_ ?S]; mv.
Ltac vi r := let v := fresh "val_" r in
  eapply v_step; [first [eapply sees_getitem | eapply sees_moveaxis | eapply sees_broadcast]; eauto with sees|]; intros r v _ ?S.

Lemma values_sp h g c w : grid_in h g c -> sp (length h) h (h_values g w) (get_variable_values c w) sees.
Proof.
  intros G. pose proof G as (H1 & H2 & H3 & H4 & H5 & H6 & H7). unfold h_values, get_variable_values.
  destruct (String.eqb w "t"); [apply sp_ret; exact H4|].
  destruct (String.eqb w "v").
  { assert (S : sees h (hq_v_edg (hg_cube g)) (c_v_edg c)) by (eapply ref_sees; apply H1).
    eapply g_step; [eapply (mk_bop 0); eauto with sees|]. intros h1 s vs K [_ S1].
    eapply makes_sees. eapply (mk_map 0); eauto with sees. }
  destruct (String.eqb w "z"); [apply sp_ret; exact H5|].
  destruct (String.eqb w "x1"); [apply sp_ret; exact H2|].
  destruct (String.eqb w "x2"); [apply sp_ret; exact H3|apply sp_err].
Qed.
Lemma pixel_edges_makes n h x vx dx : n <= length h -> length (shp vx) = 1 -> sees h x vx ->
  makes n h (h_pixel_edges x dx) (pixel_edges vx dx).
Proof.
  intros N Hx S. unfold h_pixel_edges, pixel_edges, makes.
  eapply g_step_ok; [apply (mk_alloc n); exact N|]. intros h1 d K [_ Sd]. mv.
  eapply g_step; [eapply (mk_bop n); eauto with sees|]. intros h2 lo vlo K [_ Slo]. mv.
  assert (E0 : forall v', getitem [IInt (-1)] vx = Ok v' -> shp v' = []).
  { unfold getitem. destruct (shp vx) as [|d0 [|d1 s]]; cbn in Hx; try lia. cbn. destruct (int_ok d0 (-1)); [|discriminate].
    intros v' [= <-]. reflexivity. }
  unfold h_getitem. pose proof (sees_getitem h2 [IInt (-1)] x vx S) as V.
  destruct (v_getitem [IInt (-1)] x) as [xl|e], (getitem [IInt (-1)] vx) as [vxl|e']; cbn in V; try contradiction;
    [|split; [apply keeps_refl|exact V]].
  destruct V as [_ [_ [Es Ee]]]. specialize (E0 _ eq_refl). cbn [bind].
  match goal with |- sp _ _ (bnd (lift (Ok xl)) ?k) _ _ => change (sp (length h2) h2 (k xl) (concat0 vlo (arr1 [nadd (ent vxl []) (ndiv dx (Fin 2))] NaN)) (newer n)) end.
  cbv beta. eapply g_step_ok with (v := arr1 [nadd (ent vxl []) (ndiv dx (Fin 2))] NaN); [apply (mk_new n); [exact N|]|].
  - cbn [ressame]. rewrite <- Ee; [apply same_refl|]. rewrite Es, E0. constructor.
  - intros h3 hi K [_ Shi]. mv. eapply mk_concat0; eauto.
Qed.
Lemma edges_sp h g c w : grid_in h g c -> sp (length h) h (h_edges g w) (get_variable_edges c w) sees.
Proof.
  intros G. pose proof G as ((C1 & C2 & C3 & C4 & C5 & C6) & H2 & H3 & H4 & H5 & H6 & H7 & H8 & H9).
  unfold h_edges, get_variable_edges. rewrite C5, C6.
  destruct (String.eqb w "t"); [apply sp_ret; exact H6|].
  destruct (String.eqb w "v"); [apply sp_ret; eapply ref_sees; exact C3|].
  destruct (String.eqb w "z"); [apply sp_ret; exact H7|].
  destruct (String.eqb w "x1").
  { eapply makes_sees. apply (pixel_edges_makes 0); auto with sees. }
  destruct (String.eqb w "x2"); [|apply sp_err].
  eapply makes_sees. apply (pixel_edges_makes 0); auto with sees.
Qed.
Lemma size_sp h g c w : grid_in h g c -> sp (length h) h (h_size g w) (get_variable_size c w) (fun _ a b => a = b).
Proof.
  intros G. unfold h_size, get_variable_size. eapply g_step; [apply values_sp; exact G|]. intros h1 r v K S.
  apply sp_ret. rewrite (sees_shp _ _ _ S). reflexivity.
Qed.
Lemma shape_loop_sp g c vars : forall h s, grid_in h g c ->
  sp (length h) h (h_shape_loop g vars s) (shape_loop c vars s) (fun _ a b => a = b).
Proof.
  induction vars as [|var vars IH]; intros h s G; cbn [h_shape_loop shape_loop]; [apply sp_ret; reflexivity|].
  destruct (Ascii.eqb var "x").
  - eapply g_step; [apply size_sp; exact G|]. intros h1 a b K ->. mv.
    eapply g_step; [apply size_sp; exact G|]. intros h2 a' b' K ->. mv. apply IH; exact G.
  - eapply g_step; [apply size_sp; exact G|]. intros h1 a b K ->. mv. apply IH; exact G.
Qed.
Lemma shape_sp h g c w : grid_in h g c -> sp (length h) h (h_shape g w) (get_distribution_shape c w) (fun _ a b => a = b).
Proof. apply shape_loop_sp. Qed.

(** ** the moments *)
Section moments.
Variables (o : hobj) (ov : obj).
Lemma p_makes n h w d lw : obj_in h o ov -> n <= length h -> makes n h (hb_get_p o w d lw) (o_get_p ov w d lw).
Proof. intros (_ & H & _) N. apply good_makes; [exact N|]. apply H, keeps_refl. Qed.
Ltac gp r := let h := fresh "h" in let K := fresh "K" in let v := fresh "val_" r in
  eapply g_step; [eapply (p_makes 0); eauto with sees|]; intros h r v K [_ ?S]; mv.
Ltac va r := let h := fresh "h" in let K := fresh "K" in let v := fresh "val_" r in
  eapply g_step; [eapply values_sp; match goal with O : obj_in _ o ov |- _ => exact (proj1 O) end|]; intros h r v K ?S; mv.
Lemma default_mean_makes n h w lw : obj_in h o ov -> n <= length h ->
  makes n h (h_default_mean o w lw) (default_mean ov w lw).
Proof.
  intros O N. unfold h_default_mean, default_mean, makes. cbv zeta. gp p.
  destruct (is_tvz (part0 w)).
  - va var. st vp. op.
  - apply l_step. intros [] _. st p1. st p2.
    assert (Gx : sees h2 (hg_x (hb_grid o)) (c_x (o_cube ov))) by apply (proj1 O).
    assert (Gy : sees h2 (hg_y (hb_grid o)) (c_y (o_cube ov))) by apply (proj1 O).
    st xp. st m1. st yp. st m2. op.
Qed.
Lemma mean_sp h w lw : obj_in h o ov -> sp (length h) h (h_get_mean o w lw) (get_mean ov w lw) sees.
Proof.
  intros O. unfold h_get_mean, get_mean. apply l_step. intros [] _.
  pose proof (proj1 (proj2 (proj2 O)) h w lw (keeps_refl _ _)) as M.
  destruct (hb_mean o w) as [f|], (o_mean ov w) as [g|]; try contradiction; [exact M|].
  eapply makes_sees. apply (default_mean_makes 0); [exact O|lia].
Qed.
(** without hard-coded means *)
Lemma mean_makes n h w lw : obj_in h o ov -> hb_mean o w = None -> n <= length h ->
  makes n h (h_get_mean o w lw) (get_mean ov w lw).
Proof.
  intros O E N. unfold h_get_mean, get_mean. apply l_step. intros [] _.
  pose proof (proj1 (proj2 (proj2 O)) h w lw (keeps_refl _ _)) as M. rewrite E in *.
  destruct (o_mean ov w); [contradiction|]. apply default_mean_makes; assumption.
Qed.
Lemma powers_makes n h x vx mu vmu j : n <= length h -> sees h x vx -> sees h mu vmu ->
  makes n h (h_powers x mu j) (powers vx vmu j).
Proof. intros N Sx Sm. unfold h_powers, powers, makes. vi mu'. st d. op. Qed.
Ltac pw r := let h := fresh "h" in let K := fresh "K" in let v := fresh "val_" r in
  eapply g_step; [eapply (powers_makes 0); eauto with sees|]; intros h r v K [_ ?S]; mv.
Lemma default_moment_makes n h w j mu vmu lw : obj_in h o ov -> n <= length h -> sees h mu vmu ->
  makes n h (h_default_moment o w j mu lw) (default_moment ov w j vmu lw).
Proof.
  intros O N Sm. unfold h_default_moment, default_moment, makes. cbv zeta. gp p.
  destruct (is_tvz (part0 w)).
  - va val. pw q. st tmp. op.
  - apply l_step. intros [] _. st p1. st p2. rewrite (sees_shp _ _ _ Sm).
    apply (l_step _ _ (pair_check (shp vmu))). intros [] _. vi mu1. vi mu2.
    assert (Gx : sees h2 (hg_x (hb_grid o)) (c_x (o_cube ov))) by apply (proj1 O).
    assert (Gy : sees h2 (hg_y (hb_grid o)) (c_y (o_cube ov))) by apply (proj1 O).
    pw w1. pw w2. st q1. st m1. st q2. st m2. op.
Qed.
Lemma noncentral_makes n h w j mu vmu lw : obj_in h o ov -> n <= length h -> sees h mu vmu ->
  makes n h (h_noncentral o w j mu lw) (get_noncentral_moment ov w j vmu lw).
Proof.
  intros O N Sm. unfold h_noncentral, get_noncentral_moment. apply l_step. intros [] _.
  pose proof (proj2 (proj2 (proj2 O)) h w j mu vmu lw (keeps_refl _ _) Sm) as M.
  destruct (hb_moment o w) as [f|], (o_moment ov w) as [g|]; try contradiction.
  - eapply makes_weak; [exact N|exact M].
  - apply default_moment_makes; assumption.
Qed.
Lemma central_makes n h w j lw : obj_in h o ov -> n <= length h ->
  makes n h (h_central o w j lw) (get_central_moment ov w j lw).
Proof.
  intros O N. unfold h_central, get_central_moment, makes. cbv zeta. apply l_step. intros [] _.
  eapply (g_step _ _ _ sees).
  { destruct (is_tvz (part0 w)); [apply mean_sp; exact O|]. apply l_step. intros [] _.
    eapply g_step; [apply mean_sp; exact O|]. intros h1 m vm K Sm. mv. rewrite (sees_shp _ _ _ Sm).
    apply (l_step _ _ (pair_check (shp vm))). intros [] _. vi mu1. vi mu2.
    eapply makes_sees. eapply (mk_stack2 0); eauto with sees. }
  intros h1 mu vmu K Sm. mv.
  eapply (g_step _ _ _ (fun _ _ _ => True)).
  { destruct (has_char "_" w); [|apply sp_ret; exact I]. apply l_step. intros cs _.
    eapply g_step; [apply volume_good; apply (proj1 O)|]. intros h2 dc vdc K _. apply sp_ret; exact I. }
  intros h2 [] [] K _. mv. apply noncentral_makes; assumption.
Qed.
Ltac cm r := let h := fresh "h" in let K := fresh "K" in let v := fresh "val_" r in
  eapply g_step; [eapply (central_makes 0); eauto with sees|]; intros h r v K [_ ?S]; mv.
Lemma dispersion_makes n h w lw : obj_in h o ov -> n <= length h ->
  makes n h (h_dispersion o w lw) (get_dispersion ov w lw).
Proof. intros O N. unfold h_dispersion, get_dispersion, makes. cm vr. op. Qed.
Lemma normalised_makes n h w j lw : obj_in h o ov -> n <= length h ->
  makes n h (h_normalised o w j lw) (get_normalised_central_moment ov w j lw).
Proof.
  intros O N. unfold h_normalised, get_normalised_central_moment, makes. cm c.
  eapply g_step; [eapply (dispersion_makes 0); eauto with sees|]. intros h1 d vd K [_ Sd]. mv. st_ok e. op.
Qed.
Lemma excess_makes f2m1 n h w j lw : obj_in h o ov -> n <= length h ->
  makes n h (h_excess f2m1 o w j lw) (get_excess_central_moment f2m1 ov w j lw).
Proof.
  intros O N. unfold h_excess, get_excess_central_moment, makes.
  eapply g_step; [eapply (normalised_makes 0); eauto with sees|]. intros h1 d vd K [_ Sd]. mv. st_ok e. op.
Qed.
Lemma deltas_makes n h x vx m vm : n <= length h -> sees h x vx -> sees h m vm ->
  makes n h (h_deltas x m) (deltas vx vm).
Proof.
  intros N Sx Sm. unfold h_deltas, deltas, makes. vi m'. 
  eapply g_step; [eapply (mk_bop n); eauto with sees|]. intros h1 d vd K [A Sd]. apply mk_ret; [exact A|apply sees_T; exact Sd].
Qed.
Lemma double_sum_makes n h p vp a va b vb : n <= length h -> sees h p vp -> sees h a va -> sees h b vb ->
  makes n h (h_double_sum p a b) (double_sum vp va vb).
Proof. intros N Sp Sa Sb. unfold h_double_sum, double_sum, makes. vi a'. st q. vi b'. st q'. op. Qed.
Lemma double_sum'_makes n h p vp a va b vb : n <= length h -> sees h p vp -> sees h a va -> sees h b vb ->
  makes n h (h_double_sum' p a b) (double_sum' vp va vb).
Proof. intros N Sp Sa Sb. unfold h_double_sum', double_sum', makes. vi a'. st q. vi b'. st q'. op. Qed.
Ltac de r := let h := fresh "h" in let K := fresh "K" in let v := fresh "val_" r in
  eapply g_step; [eapply (deltas_makes 0); eauto with sees|]; intros h r v K [_ ?S]; mv.
Ltac ds r := let h := fresh "h" in let K := fresh "K" in let v := fresh "val_" r in
  eapply g_step; [first [eapply (double_sum_makes 0); eauto with sees|eapply (double_sum'_makes 0); eauto with sees]|]; intros h r v K [_ ?S]; mv.
Definition pair_in (h : heap) (a : nda * option nda) (b : arr num * option (arr num)) : Prop :=
  sees h (fst a) (fst b) /\ match snd a, snd b with Some r, Some v => sees h r v | None, None => True | _, _ => False end.
Lemma pair_keeps h h' a b : keeps (length h) h h' -> pair_in h a b -> pair_in h' a b.
Proof.
  intros K [H1 H2]. split; [eapply sees_keeps; eassumption|]. destruct (snd a), (snd b); auto. eapply sees_keeps; eassumption.
Qed.
Lemma var_values_sp h a : obj_in h o ov -> sp (length h) h (h_var_values (hb_grid o) a) (var_values (o_cube ov) a) pair_in.
Proof.
  intros O. unfold h_var_values, var_values. destruct (negb (Ascii.eqb a "x")).
  - va v. apply sp_ret. split; [assumption|exact I].
  - va x1. va x2. apply sp_ret. split; assumption.
Qed.
Lemma covariance_makes n h w lw : obj_in h o ov -> n <= length h ->
  makes n h (h_covariance o w lw) (get_covariance ov w lw).
Proof.
  intros O N. unfold h_covariance, get_covariance, makes. apply l_step. intros parts _. cbv zeta.
  destruct (chars (fst parts)) as [|a [|b [|c cs]]]; try apply sp_err.
  eapply g_step; [apply mean_sp; exact O|]. intros h1 mean0 vmean0 K S0. mv.
  eapply g_step; [apply var_values_sp; exact O|]. intros h2 val0 vval0 K P0. mv.
  eapply g_step; [apply mean_sp; exact O|]. intros h3 mean1 vmean1 K S1. apply (pair_keeps _ _ _ _ K) in P0. mv.
  eapply g_step; [apply var_values_sp; exact O|]. intros h4 val1 vval1 K P1. apply (pair_keeps _ _ _ _ K) in P0. mv.
  eapply g_step; [eapply (p_makes 0); eauto with sees|]. intros h5 p vp K [_ Sp].
  apply (pair_keeps _ _ _ _ K) in P0. apply (pair_keeps _ _ _ _ K) in P1. mv.
  destruct P0 as [P0 P0'], P1 as [P1 P1'].
  destruct (negb (has_char "x" (fst parts))).
  - de dl0. de dl1. apply double_sum_makes; assumption.
  - set (ia := Ascii.eqb a "x").
    assert (Sx : sees h5 (if ia then mean0 else mean1) (if ia then vmean0 else vmean1)) by (destruct ia; assumption).
    assert (Sn : sees h5 (if ia then mean1 else mean0) (if ia then vmean1 else vmean0)) by (destruct ia; assumption).
    assert (Px : pair_in h5 (if ia then val0 else val1) (if ia then vval0 else vval1)) by (destruct ia; split; assumption).
    assert (Pn : pair_in h5 (if ia then val1 else val0) (if ia then vval1 else vval0)) by (destruct ia; split; assumption).
    clear P0 P0' P1 P1' S0 S1.
    revert Sx Sn Px Pn. generalize (if ia then mean0 else mean1) (if ia then vmean0 else vmean1) (if ia then mean1 else mean0)
      (if ia then vmean1 else vmean0) (if ia then val0 else val1) (if ia then vval0 else vval1) (if ia then val1 else val0) (if ia then vval1 else vval0).
    clear mean0 mean1 vmean0 vmean1 val0 val1 vval0 vval1.
    intros mx vmx mn vmn [x1 ox2] [vx1 vox2] [n1 on2] [vn1 von2] Sx Sn [P1 P2] [P3 P4]. cbn [fst snd] in *.
    destruct ox2 as [x2|], vox2 as [vx2|]; try contradiction; [|apply (sp_err (A := nda) (B := arr num))].
    apply (sp_conseq (length h5) h5 _ _ (newer n) (newer n)); [auto|].
    match goal with |- sp _ _ (bnd (lift (Ok x2)) ?k) (bind (Ok vx2) ?k') _ => change (sp (length h5) h5 (k x2) (k' vx2) (newer n)) end. cbv beta.
    vi mx1. de dx1. vi mx2. de dx2.
    destruct on2 as [n2|], von2 as [vn2|]; try contradiction; [apply (sp_err (A := nda) (B := arr num))|].
    match goal with |- sp _ ?h (bnd (lift (Ok tt)) ?k) (bind (Ok tt) ?k') _ => change (sp (length h) h (k tt) (k' tt) (newer n)) end. cbv beta.
    de dn. destruct ia.
    + st q1. ds cva. st q2. ds cvb. op.
    + st q1. ds cva. st q2. ds cvb. op.
Qed.
Lemma correlation_makes n h w lw : obj_in h o ov -> n <= length h ->
  makes n h (h_correlation o w lw) (get_correlation ov w lw).
Proof.
  intros O N. unfold h_correlation, get_correlation, makes. apply l_step. intros parts _.
  destruct (chars (fst parts)) as [|a [|b [|c cs]]]; try apply sp_err.
  eapply g_step; [eapply (covariance_makes 0); eauto with sees|]. intros h1 cv vcv K [_ Sc]. mv.
  unfold get_variance. cm v0. cm v1. st v. st_ok s. op.
Qed.
Lemma l_moment_makes n h w j lw : obj_in h o ov -> n <= length h ->
  makes n h (h_l_moment o w j lw) (get_l_moment ov w j lw).
Proof.
  intros O N. unfold h_l_moment, get_l_moment, makes. cbv zeta. apply l_step. intros [] _. apply l_step. intros cs _.
  gp p. st_ok F. 
  eapply (g_step _ _ _ (newer 0)).
  { destruct (String.length w =? 1); [apply mk_alloc; lia|].
    eapply g_step; [apply shape_sp; apply (proj1 O)|]. intros h2 s s' K ->. apply mk_alloc; lia. }
  intros h2 z vz K [_ Sz]. mv. st F'. st dF. destruct j as [|j]; [apply sp_err|].
  st_ok g.
  eapply g_step; [apply edges_sp; apply (proj1 O)|]. intros h6 x vx K Sx. mv.
  st y. unfold halve. st s. st_ok s2. st q. op.
Qed.
Ltac lm r := let h := fresh "h" in let K := fresh "K" in let v := fresh "val_" r in
  eapply g_step; [eapply (l_moment_makes 0); eauto with sees|]; intros h r v K [_ ?S]; mv.
Lemma normalised_l_makes n h w j lw : obj_in h o ov -> n <= length h ->
  makes n h (h_normalised_l o w j lw) (get_normalised_l_moment ov w j lw).
Proof.
  intros O N. unfold h_normalised_l, get_normalised_l_moment, get_l_dispersion, makes. lm a. lm b. op.
Qed.
Lemma excess_l_makes ppf n h w j lw : obj_in h o ov -> n <= length h ->
  makes n h (h_excess_l ppf o w j lw) (get_excess_l_moment ppf ov w j lw).
Proof.
  intros O N. unfold h_excess_l, get_excess_l_moment, makes.
  eapply g_step; [eapply (normalised_l_makes 0); eauto with sees|]. intros h1 d vd K [_ Sd]. mv.
  apply l_step. intros l _. st_ok e. op.
Qed.
End moments.
