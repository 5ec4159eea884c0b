(** * HeapMixClaims: queries of a mixture on the heap against those on values. *)
From Coq Require Import Reals String Ascii List Bool Arith ZArith Lia.
From Verif Require Import Num Arr ArrLemmas PyStr Cube Base Parametric Mixture Heap HeapLemmas HeapClaims HeapPar HeapParClaims HeapMix.
Import ListNotations.
Local Open Scope nat_scope.

(** [s] is a component object with the methods of [m], in [h] and in any later
    heap which keeps what [h] holds *)
Definition member_in (h : heap) (s : hmember) (m : member) : Prop :=
  table_ok (fun h' => keeps (length h) h h') (hm_table s) (mb_table m).

Lemma comp_member_in h s self y : comp_in h s self -> member_in h (HMember (h_table s) y) (comp_member self).
Proof.
  intros H key. cbn [hm_table mb_table comp_member]. pose proof (base_table_ok s self key) as T. destruct (h_table s key), (base_table self key); try exact T.
  intros h' d lw K. apply T. eapply comp_keeps; eassumption.
Qed.
Lemma par_table_in h s self L y (m : member) : mb_table m = par_table L self -> par_in h s self ->
  member_in h (HMember (h_par_table L s) y) m.
Proof.
  intros Em H key. cbn [hm_table]. rewrite Em. pose proof (par_table_ok L s self key) as T. destruct (h_par_table L s key), (par_table L self key); try exact T.
  intros h' d lw K. apply T. eapply par_keeps; eassumption.
Qed.

(** ** assigning to a row of an array *)
Definition put_row (v : arr num) (i : nat) (w : arr num) : arr num :=
  Arr (shp v) (fun idx => match idx with
                          | [] => ent v []
                          | j :: r => if Nat.eqb j i then ent w r else ent v (j :: r)
                          end).
Lemma int_ok_nat d i : i < d -> int_ok d (Z.of_nat i) = true.
Proof. intros H. unfold int_ok. apply andb_true_iff; split; [apply Z.leb_le|apply Z.ltb_lt]; lia. Qed.
Lemma row_view a i d s : na_shp a = d :: s -> i < d ->
  exists row, v_getitem [IInt (Z.of_nat i)] a = Ok row /\ na_addr row = na_addr a /\ na_shp row = s /\
    forall r, na_idx row r = na_idx a (i :: r).
Proof.
  intros Ea Hi. unfold v_getitem. rewrite Ea. cbn [gi_shape]. rewrite int_ok_nat by exact Hi.
  eexists. split; [reflexivity|]. split; [reflexivity|]. split; [reflexivity|]. intros r. cbn [na_idx gi_idx].
  unfold int_pos. rewrite (proj2 (Z.leb_le 0 (Z.of_nat i))) by lia. rewrite Nat2Z.id. reflexivity.
Qed.
Lemma setitem_sp n k h a i b v w d s : ref n h a v -> shp v = d :: s -> i < d -> ref k h b w ->
  sp n h (h_setitem a i b) (x <- broadcast_to w s ;; Ok (put_row v i x))
     (fun h' _ v' => length h' = length h /\ ref n h' a v').
Proof.
  intros Ha Es Hi Hb. assert (Ea : na_shp a = d :: s) by (destruct Ha as (_ & _ & E & _); cbn in E; congruence).
  destruct (row_view a i d s Ea Hi) as (row & Er & E1 & E2 & E3).
  unfold sp, h_setitem. rewrite Er, E2.
  assert (Sb : same (value h b) w) by apply Hb.
  unfold broadcast_to. rewrite (proj1 Sb). destruct (bshape (shp w) s) as [s'|] eqn:Eb; cbn; [|split; [apply keeps_refl|reflexivity]].
  destruct (natlist_eqb s' s) eqn:En; cbn; [|split; [apply keeps_refl|reflexivity]].
  apply natlist_eqb_eq in En. subst s'.
  split; [apply store_keeps; rewrite E1; apply Ha|]. split; [apply store_length|].
  destruct Ha as (A1 & A2 & A3 & A4).
  split; [rewrite store_length; exact A1|]. split; [exact A2|]. split; [exact A3|].
  intros idx Hx. cbn [shp value] in Hx. rewrite Ea in Hx. apply inb_cons in Hx as (j & r & -> & Hj & Hr).
  cbn [ent value put_row]. unfold buffer. rewrite <- E1. unfold store.
  match goal with |- ent (nth ?k (set_nth ?k ?x ?l) ?d) _ = _ =>
    assert (Ex : nth k (set_nth k x l) d = x)
      by (apply nth_error_nth; apply set_nth_same; rewrite E1; lia); rewrite Ex; clear Ex end.
  cbn [ent]. rewrite E2.
  destruct (List.find (fun idx => natlist_eqb (na_idx row idx) (na_idx a (j :: r))) (all_idx s)) as [r'|] eqn:Ef.
  - apply find_some in Ef as [F1 F2]. apply in_all_idx in F1. apply natlist_eqb_eq in F2. rewrite E3 in F2.
    apply A2 in F2; [|rewrite Ea; constructor; assumption|rewrite Ea; constructor; assumption].
    injection F2 as -> ->. rewrite Nat.eqb_refl. cbn [ent].
    change (ent (value h b) (bidx (shp w) r) = ent w (bidx (shp w) r)).
    apply (proj2 Sb). rewrite (proj1 Sb). eapply bshape_inb_l; eauto.
  - destruct (Nat.eqb_spec j i) as [->|Nj].
    + exfalso. pose proof (find_none _ _ Ef r (proj2 (in_all_idx _ _) Hr)) as F. cbn in F. rewrite E3, natlist_eqb_refl in F. discriminate.
    + rewrite <- A4 by (cbn; rewrite Ea; constructor; assumption). cbn [ent value]. rewrite E1. reflexivity.
Qed.

(** the array after the first rows are filled in *)
Definition part (N : nat) (s : list nat) (acc : list (arr num)) : arr num :=
  Arr (N :: s) (fun idx => match idx with
                           | [] => Fin 0
                           | i :: r => match nth_error acc i with Some b => ent b r | None => Fin 0 end
                           end).
Lemma part_nil N s : same (full (N :: s) (Fin 0)) (part N s []).
Proof. split; [reflexivity|]. intros [|[|i] r] _; reflexivity. Qed.
Lemma part_snoc N s acc x : same (put_row (part N s acc) (length acc) x) (part N s (acc ++ [x])).
Proof.
  split; [reflexivity|]. intros [|j r] Hi; [inversion Hi|]. cbn. destruct (Nat.eqb_spec j (length acc)) as [->|Nj].
  - rewrite nth_error_app2, Nat.sub_diag by lia. reflexivity.
  - destruct (Nat.lt_ge_cases j (length acc)) as [L|L].
    + rewrite nth_error_app1 by exact L. reflexivity.
    + rewrite nth_error_app2 by lia. rewrite (proj2 (nth_error_None acc j)) by lia.
      destruct (j - length acc) as [|[|q]] eqn:E; [lia|reflexivity..].
Qed.
Lemma part_stack s l : Forall (fun b => shp b = s) l -> l <> [] -> exists v, stack l NaN = Ok v /\ same (part (length l) s l) v.
Proof.
  intros H Hne. destruct l as [|a l]; [congruence|]. unfold stack. inversion H as [|? ? Ha Hl]; subst.
  assert (E : forallb (fun b => natlist_eqb (shp a) (shp b)) l = true).
  { apply forallb_forall. intros b Hb. rewrite Forall_forall in Hl. rewrite (Hl b Hb). apply natlist_eqb_refl. }
  rewrite E. eexists. split; [reflexivity|]. split; [reflexivity|]. intros [|i r] Hi; [inversion Hi|].
  apply inb_cons in Hi as (i' & r' & [= <- <-] & Hi & _). cbn [ent].
  unfold part. cbn [ent]. destruct (nth_error (a :: l) i) eqn:En; [reflexivity|]. apply nth_error_None in En. lia.
Qed.

Lemma F2_length {A B} (R : A -> B -> Prop) l l' : Forall2 R l l' -> length l = length l'.
Proof. induction 1; cbn; congruence. Qed.
Lemma F2_impl {A B} (R R' : A -> B -> Prop) l l' : (forall a b, R a b -> R' a b) -> Forall2 R l l' -> Forall2 R' l l'.
Proof. intros H; induction 1; constructor; auto. Qed.
Lemma bind_assoc {A B C} (p : res A) (f : A -> res B) (g : B -> res C) : bind (bind p f) g = bind p (fun x => bind (f x) g).
Proof. destruct p; reflexivity. Qed.
Lemma bnd_ret {A B} (a : A) (k : A -> prog B) n h (C : Type) (p : res C) R :
  sp n h (k a) p R -> sp n h (bnd (ret a) k) p R.
Proof. exact (fun H => H). Qed.
Section fill.
Variables (h0 : heap) (os : objects) (wts : nda) (ws : list num) (n : nat).
Hypothesis L0 : length h0 <= n.
Hypothesis Lw : na_addr wts < n.
(** [h]: a heap reached during the call *)
Definition during (h : heap) : Prop := keeps (length h0) h0 h /\ n <= length h /\ ref 0 h wts (arr1 ws NaN).
Lemma during_keeps h h' : during h -> keeps n h h' -> during h'.
Proof.
  intros (K & N & R) K'. split; [eapply keeps_trans; [exact K|eapply keeps_weak; [exact L0|exact K']]|].
  split; [destruct K'; lia|]. eapply ref_keeps_lt; eauto.
Qed.
Lemma item_is h i : during h -> i < length ws -> ent (value h wts) [i] = nth i ws NaN.
Proof.
  intros (_ & _ & (_ & _ & S1 & S2)) Hi. rewrite S2; [reflexivity|]. rewrite S1. cbn. repeat constructor; exact Hi.
Qed.
Lemma wts_len h : during h -> hd 0 (na_shp wts) = length ws.
Proof. intros (_ & _ & (_ & _ & S1 & _)). cbn in S1. rewrite S1. reflexivity. Qed.

Lemma weighted_good h w d cmp m i : during h -> i < length ws -> member_in h0 (object os cmp) m ->
  good h (h_weighted_log_p os wts w d cmp i) (weighted_log_p w d (m, nth i ws NaN)).
Proof.
  intros D Hi HM. unfold h_weighted_log_p, weighted_log_p, good. cbn [fst snd].
  assert (E : forall (k : num -> prog nda), bnd (h_item wts i) k h = k (nth i ws NaN) h).
  { intros k. unfold bnd, h_item. rewrite item_is by assumption. reflexivity. }
  unfold sp. rewrite E. clear E.
  match goal with |- let '(h', x) := ?p h in _ => change (sp (length h) h p
    (log_p_func <- getattr_log_p (mb_table m) w ;; lp <- log_p_func d false ;; Ok (amap (fun a => nadd (nlog (nth i ws NaN)) a) lp))
    (fun h' r v => ref (length h) h' r v)) end.
  unfold h_getattr, getattr_log_p. specialize (HM w).
  destruct (hm_table (object os cmp) w) as [f|], (mb_table m w) as [p|]; try contradiction;
    [|split; [apply keeps_refl|reflexivity]].
  change (bnd (lift (Ok f)) (fun f => lp <~ f d false;; h_map (fun a => nadd (nlog (nth i ws NaN)) a) lp))
    with (lp <~ f d false;; h_map (fun a => nadd (nlog (nth i ws NaN)) a) lp).
  cbn [bind]. destruct D as (K & N & R).
  eapply st_good; [lia|apply HM; exact K|]. intros h1 r v N1 K1 Hr.
  apply la_good; [exact N1|eapply good_map; exact Hr].
Qed.

Lemma skipn_nth i : i < length ws -> skipn i ws = nth i ws NaN :: skipn (Datatypes.S i) ws.
Proof.
  clear. revert i. induction ws as [|x l IH]; intros i H; cbn in H; [lia|]. destruct i as [|i]; [reflexivity|].
  cbn [skipn nth]. apply IH. lia.
Qed.
Lemma rows_shape w d s l r : rows w d s l = Ok r -> Forall (fun b => shp b = s) r /\ length r = length l.
Proof.
  revert r. induction l as [|x l IH]; intros r; cbn; [intros [= <-]; split; [constructor|reflexivity]|].
  destruct (weighted_log_p w d x) as [p|]; [|discriminate]. cbn. unfold broadcast_to.
  destruct (bshape (shp p) s) as [s'|]; [|discriminate]. destruct (natlist_eqb s' s); [|discriminate]. cbn.
  destruct (rows w d s l) as [rest|]; [|discriminate]. cbn. intros [= <-]. destruct (IH rest eq_refl) as [I1 I2].
  split; [constructor; [reflexivity|exact I1]|cbn; congruence].
Qed.

Lemma fill_sp N w d s l ms : Forall2 (fun k m => member_in h0 (object os k) m) l ms -> forall i acc h a,
  during h -> i = length acc -> i + length l = N -> length ws = N ->
  ref n h a (part N s acc) ->
  sp n h (h_fill os N wts w d l i (Some a))
    (rest <- rows w d s (combine ms (skipn i ws)) ;; Ok (part N s (acc ++ rest)))
    (fun h' o v => exists r, o = Some r /\ during h' /\ ref n h' r v).
Proof.
  induction 1 as [|cmp m l ms HM HF IH]; intros i acc h a D Ei EN Ew Ha.
  - cbn [h_fill combine rows bind]. rewrite app_nil_r. apply sp_ret. exists a. auto.
  - cbn [length] in EN. cbn [h_fill]. rewrite (wts_len h D). destruct (Nat.ltb_spec i (length ws)) as [Hi|]; [|lia].
    rewrite skipn_nth by exact Hi. cbn [combine rows].
    pose proof (weighted_good h w d cmp m i D Hi HM) as W.
    assert (Nh : n <= length h) by apply D.
    rewrite bind_assoc. eapply sp_bind; [exact Nh|exact W|]. intros h1 b vb K1 Hb.
    assert (D1 : during h1) by (eapply during_keeps; [exact D|eapply keeps_weak; [exact Nh|exact K1]]).
    pose proof (ref_keeps _ _ _ _ _ K1 Ha) as Ha1. apply bnd_ret.
    assert (S : sp n h1 (h_setitem a i b) (x <- broadcast_to vb s ;; Ok (put_row (part N s acc) i x))
      (fun h' _ v' => length h' = length h1 /\ ref n h' a v')).
    { eapply setitem_sp; [exact Ha1|reflexivity|lia|exact Hb]. }
    rewrite bind_assoc. revert S. destruct (broadcast_to vb s) as [x|e]; cbn [bind]; intros S.
    + eapply (sp_bind_ok n n); [lia|exact S|]. intros h2 u K2 [L2 Ha2].
      assert (I : sp n h2 (h_fill os N wts w d l (Datatypes.S i) (Some a))
        (rest <- rows w d s (combine ms (skipn (Datatypes.S i) ws)) ;; Ok (part N s ((acc ++ [x]) ++ rest)))
        (fun h' o v => exists r, o = Some r /\ during h' /\ ref n h' r v)).
      2: { destruct (rows _ _ _ _) as [rest|e]; cbn in *; [rewrite <- app_assoc in I|]; exact I. }
      apply IH.
      * eapply during_keeps; [exact D1|exact K2].
      * rewrite app_length. cbn. lia.
      * lia.
      * exact Ew.
      * eapply ref_same; [|exact Ha2]. subst i. apply part_snoc.
    + unfold sp, bnd in *. destruct (h_setitem a i b h1) as [h2 [u|e']]; destruct S as [S1 S2]; [contradiction|]. split; [exact S1|exact S2].
Qed.

Lemma mass_wtd_sp N w d l ms h : Forall2 (fun k m => member_in h0 (object os k) m) l ms ->
  during h -> length l = N -> length ws = N ->
  sp n h (h_fill os N wts w d l 0 None)
    (match combine ms ws with
     | [] => Ok None
     | mw :: _ =>
       log_p0 <- weighted_log_p w d mw ;; r <- rows w d (shp log_p0) (combine ms ws) ;;
       v <- stack r NaN ;; Ok (Some v)
     end)
    (fun h' o v => match o, v with
                   | Some r, Some v => during h' /\ ref n h' r v
                   | None, None => True
                   | _, _ => False end).
Proof.
  intros HF D EN Ew. destruct HF as [|cmp m l ms HM HF].
  - cbn [h_fill combine]. apply sp_ret. exact I.
  - cbn [length] in EN. cbn [h_fill]. rewrite (wts_len h D). destruct (Nat.ltb_spec 0 (length ws)) as [Hi|]; [|lia].
    assert (Ews : combine (m :: ms) ws = (m, nth 0 ws NaN) :: combine ms (skipn 1 ws)) by (destruct ws; [cbn in Hi; lia|reflexivity]).
    rewrite Ews.
    pose proof (weighted_good h w d cmp m 0 D Hi HM) as W.
    assert (Nh : n <= length h) by apply D.
    cbn [rows]. revert W. destruct (weighted_log_p w d (m, nth 0 ws NaN)) as [vb|e]; cbn [bind]; intros W.
    2:{ unfold good, sp, bnd in *. destruct (h_weighted_log_p os wts w d cmp 0 h) as [h1 [b|e']]; destruct W as [K1 W]; [contradiction|].
        split; [eapply keeps_weak; [exact Nh|exact K1]|exact W]. }
    eapply sp_bind_ok; [exact Nh|exact W|]. intros h1 b K1 Hb.
    assert (D1 : during h1) by (eapply during_keeps; [exact D|eapply keeps_weak; [exact Nh|exact K1]]).
    assert (Nh1 : n <= length h1) by apply D1.
    assert (Eb : na_shp b = shp vb) by apply Hb. rewrite Eb.
    eapply sp_bind_ok; [exact Nh1|apply good_alloc|]. intros h2 a K2 Ha.
    assert (D2 : during h2) by (eapply during_keeps; [exact D1|eapply keeps_weak; [exact Nh1|exact K2]]).
    apply (ref_keeps _ _ _ _ _ K2) in Hb.
    assert (Ha' : ref n h2 a (part N (shp vb) [])) by (eapply ref_same; [apply part_nil|eapply ref_weak; [exact Nh1|exact Ha]]).
    assert (S : sp n h2 (h_setitem a 0 b) (x <- broadcast_to vb (shp vb) ;; Ok (put_row (part N (shp vb) []) 0 x))
      (fun h' _ v' => length h' = length h2 /\ ref n h' a v')).
    { eapply setitem_sp; [exact Ha'|reflexivity|lia|exact Hb]. }
    revert S. destruct (broadcast_to vb (shp vb)) as [x|e] eqn:Ex; cbn [bind]; intros S.
    2:{ unfold sp, bnd in *. destruct (h_setitem a 0 b h2) as [h3 [u|e']]; destruct S as [S1 S2]; [contradiction|]. split; [exact S1|exact S2]. }
    eapply (sp_bind_ok n n); [lia|exact S|]. intros h3 u K3 [L3 Ha3].
    assert (D3 : during h3) by (eapply during_keeps; [exact D2|exact K3]).
    assert (I : sp n h3 (h_fill os N wts w d l 1 (Some a))
        (rest <- rows w d (shp vb) (combine ms (skipn 1 ws)) ;; Ok (part N (shp vb) ([x] ++ rest)))
        (fun h' o v => exists r, o = Some r /\ during h' /\ ref n h' r v)).
    { apply fill_sp; [exact HF|exact D3|reflexivity|lia|exact Ew|]. eapply ref_same; [|exact Ha3]. apply (part_snoc N (shp vb) []). }
    pose proof (fun r => rows_shape w d (shp vb) (combine ms (skipn 1 ws)) r) as RS.
    destruct (rows w d (shp vb) (combine ms (skipn 1 ws))) as [rest|e]; cbn [bind] in *.
    + destruct (RS rest eq_refl) as [R1 R2].
      assert (Hx : shp x = shp vb).
      { revert Ex. unfold broadcast_to. destruct (bshape _ _); [|discriminate]. destruct (natlist_eqb _ _); [|discriminate]. intros [= <-]. reflexivity. }
      destruct (part_stack (shp vb) (x :: rest)) as (v & Ev & Sv); [constructor; [exact Hx|exact R1]|discriminate|].
      assert (El : length (x :: rest) = N).
      { cbn. rewrite R2, combine_length, skipn_length. apply F2_length in HF. lia. }
      rewrite El in Sv. rewrite Ev. cbn [bind]. unfold sp in *. destruct (h_fill os N wts w d l 1 (Some a) h3) as [h4 [o|e']]; destruct I as [I1 I2]; [|contradiction].
      split; [exact I1|]. destruct I2 as (r & -> & D4 & Hr). split; [exact D4|]. eapply ref_same; [exact Sv|exact Hr].
    + unfold sp in *. destruct (h_fill os N wts w d l 1 (Some a) h3) as [h4 [o|e']]; destruct I as [I1 I2]; [contradiction|]. split; [exact I1|exact I2].
Qed.
End fill.

(** [m] is the mixture [self] in [h] *)
Definition mix_in (h : heap) (os : objects) (ls : lists) (m : hmix) (self : mixture) : Prop :=
  cube_in h (hx_cube m) (mx_cube self) /\
  Forall2 (fun k mb => member_in h (object os k) mb) (hx_members ls m) (mx_members self) /\
  ref 0 h (hx_weights m) (arr1 (mx_weights self) NaN) /\
  hx_n m = length (mx_members self) /\ length (mx_weights self) = length (mx_members self).
Lemma member_keeps h h' s m : keeps (length h) h h' -> member_in h s m -> member_in h' s m.
Proof.
  intros K H key. specialize (H key). destruct (hm_table s key), (mb_table m key); try exact H.
  intros h1 d lw K1. apply H. eapply keeps_trans; [exact K|]. eapply keeps_weak; [apply K|exact K1].
Qed.
Lemma mix_keeps h h' os ls m self : keeps (length h) h h' -> mix_in h os ls m self -> mix_in h' os ls m self.
Proof.
  intros K (H1 & H2 & H3 & H4 & H5). split; [eapply cube_keeps; eassumption|].
  split; [eapply F2_impl; [|exact H2]; intros; eapply member_keeps; eassumption|].
  split; [eapply ref_keeps; eassumption|]. split; assumption.
Qed.

Section mix.
Variables (os : objects) (ls : lists) (m : hmix) (self : mixture).

Lemma mass_good w d h : mix_in h os ls m self -> good h (h_mass_wtd os ls m w d) (mix_mass_wtd self w d).
Proof.
  intros (H1 & H2 & H3 & H4 & H5). unfold h_mass_wtd, mix_mass_wtd, good.
  pose proof (mass_wtd_sp h os (hx_weights m) (mx_weights self) (length h) (le_n _) (proj2 (proj1 H3))
    (hx_n m) w d (hx_members ls m) (mx_members self) h H2) as S.
  assert (D : during h (hx_weights m) (mx_weights self) (length h) h) by (split; [apply keeps_refl|split; [lia|exact H3]]).
  apply F2_length in H2. specialize (S D ltac:(congruence) ltac:(congruence)).
  destruct (combine (mx_members self) (mx_weights self)) as [|mw l].
  - unfold sp, bnd in *. destruct (h_fill _ _ _ _ _ _ _ _ h) as [h1 [[r|]|e]]; destruct S as [S1 S2]; try contradiction.
    split; [exact S1|reflexivity].
  - cbv zeta. destruct (weighted_log_p w d mw) as [p0|e]; cbn [bind] in *.
    2:{ unfold sp, bnd in *. destruct (h_fill _ _ _ _ _ _ _ _ h) as [h1 [o|e']]; destruct S as [S1 S2]; [contradiction|]. split; assumption. }
    destruct (rows w d (shp p0) (mw :: l)) as [r|e]; cbn [bind] in *.
    2:{ unfold sp, bnd in *. destruct (h_fill _ _ _ _ _ _ _ _ h) as [h1 [o|e']]; destruct S as [S1 S2]; [contradiction|]. split; assumption. }
    destruct (stack r NaN) as [v|e]; cbn [bind] in *.
    2:{ unfold sp, bnd in *. destruct (h_fill _ _ _ _ _ _ _ _ h) as [h1 [o|e']]; destruct S as [S1 S2]; [contradiction|]. split; assumption. }
    unfold sp, bnd in *. destruct (h_fill _ _ _ _ _ _ _ _ h) as [h1 [[a|]|e']]; destruct S as [S1 S2]; try contradiction.
    split; [exact S1|]. apply S2.
Qed.

(** steps of a call begun in [hs] *)
Section steps.
Context {A B : Type} (hs h : heap).
Let n := length hs.
Hypothesis Inv : keeps n hs h.
Variables (f : nda -> prog A) (R : heap -> A -> B -> Prop).
Lemma inv_le : n <= length h. Proof. apply Inv. Qed.
Lemma inv_next h' : keeps (length h) h h' -> keeps n hs h'.
Proof. intros K. eapply keeps_trans; [exact Inv|]. eapply keeps_weak; [exact inv_le|exact K]. Qed.
Lemma i_good mm p (g : arr num -> res B) :
  good h mm p ->
  (forall h' r v, keeps n hs h' -> keeps (length h) h h' -> ref n h' r v -> sp n h' (f r) (g v) R) ->
  sp n h (bnd mm f) (bind p g) R.
Proof. intros H1 H2. eapply st_good; [exact inv_le|exact H1|]. intros h' r v N K Hr. apply H2; [apply inv_next; exact K|exact K|exact Hr]. Qed.
Lemma i_ok mm v q :
  good h mm (Ok v) ->
  (forall h' r, keeps n hs h' -> keeps (length h) h h' -> ref n h' r v -> sp n h' (f r) q R) ->
  sp n h (bnd mm f) q R.
Proof. intros H1 H2. eapply st_ok; [exact inv_le|exact H1|]. intros h' r N K Hr. apply H2; [apply inv_next; exact K|exact K|exact Hr]. Qed.
Lemma i_iop k op a b va vb (g : arr num -> res B) :
  ref n h a va -> ref k h b vb ->
  (forall h' v, keeps n hs h' -> ref n h' a v -> sp n h' (f a) (g v) R) ->
  sp n h (bnd (h_iop op a b) f) (bind (iop op va vb) g) R.
Proof.
  intros Ha Hb H. eapply sp_bind; [apply le_n|eapply sp_iop; [exact Ha|exact Hb]|]. intros h' r v K (-> & Hr & _).
  apply H; [eapply keeps_trans; [exact Inv|exact K]|exact Hr].
Qed.
(** an optional step *)
Lemma i_if (c : bool) mm r v p (g : arr num -> res B) :
  ref n h r v -> good h mm p ->
  (forall h' r v, keeps n hs h' -> ref n h' r v -> sp n h' (f r) (g v) R) ->
  sp n h (bnd (if c then ret r else mm) f) (bind (if c then Ok v else p) g) R.
Proof.
  intros Hr Hm H. destruct c; [exact (H h r v Inv Hr)|]. eapply i_good; [exact Hm|]. intros h' r' v' I' _ H'. apply H; assumption.
Qed.
End steps.

Lemma light_good w d h : mix_in h os ls m self -> good h (h_light_wtd os ls m w d) (mix_light_wtd self w d).
Proof.
  intros H. unfold h_light_wtd, mix_light_wtd, good. cbv zeta. pose proof (keeps_refl (length h) h) as I0.
  assert (G : forall x : list ix,
    sp (length h) h
      (lw <~ h_getitem x (hq_light_weights (hx_cube m)) ;;
       log_P_mw <~ h_mass_wtd os ls m (if has_char "v" w then "tvxz" else "txz") false ;;
       log_lw <~ h_map nlog lw ;;
       log_P_lw <~ h_bop nadd log_P_mw log_lw ;;
       log_normalisation <~ h_lse_all log_P_lw ;;
       log_P_lw <~ h_iop nsub log_P_lw log_normalisation ;;
       log_P_lw <~ (if has_char "t" w then ret log_P_lw else h_lse log_P_lw [1]%Z) ;;
       log_P_lw <~ (if has_char "x" w then ret log_P_lw else h_lse log_P_lw [-3; -2]%Z) ;;
       log_P_lw <~ (if has_char "z" w then ret log_P_lw else h_lse log_P_lw [-1]%Z) ;;
       if d then
         volume_element <~ h_volume (hx_cube m) w ;;
         log_vol <~ h_map nlog volume_element ;;
         h_iop nsub log_P_lw log_vol
       else ret log_P_lw)
      (lw <- getitem x (light_weights (c_ssps (mx_cube self))) ;;
       log_P_mw <- mix_mass_wtd self (if has_char "v" w then "tvxz" else "txz") false ;;
       log_P_lw <- bop nadd log_P_mw (amap nlog lw) ;;
       log_normalisation <- logsumexp_all log_P_lw ;;
       log_P_lw <- iop nsub log_P_lw log_normalisation ;;
       log_P_lw <- (if has_char "t" w then Ok log_P_lw else logsumexp log_P_lw [1]%Z) ;;
       log_P_lw <- (if has_char "x" w then Ok log_P_lw else logsumexp log_P_lw [-3; -2]%Z) ;;
       log_P_lw <- (if has_char "z" w then Ok log_P_lw else logsumexp log_P_lw [-1]%Z) ;;
       if d then
         volume_element <- construct_volume_element (mx_cube self) w ;;
         iop nsub log_P_lw (amap nlog volume_element)
       else Ok log_P_lw)
      (fun h' r v => ref (length h) h' r v)).
  2: destruct (has_char "v" w); apply G.
  intros x. eapply st_get; [apply H|]. intros lw vlw Hlw.
  eapply i_good; [exact I0|apply mass_good; exact H|]. intros h1 mw vmw I1 K1 Hmw. apply (ref_keeps _ _ _ _ _ K1) in Hlw.
  eapply i_ok; [exact I1|eapply good_map; exact Hlw|]. intros h2 ll I2 K2 Hll. apply (ref_keeps _ _ _ _ _ K2) in Hmw.
  eapply i_good; [exact I2|eapply good_bop; [exact Hmw|exact Hll]|]. intros h3 lp vlp I3 K3 Hlp.
  eapply i_good; [exact I3|eapply good_lse_all; exact Hlp|]. intros h4 nm vnm I4 K4 Hnm. apply (ref_keeps _ _ _ _ _ K4) in Hlp.
  eapply i_iop; [exact I4|exact Hlp|exact Hnm|]. intros h5 v5 I5 H5.
  eapply i_if; [exact I5|exact H5|eapply good_lse; exact H5|]. intros h6 r6 v6 I6 H6.
  eapply i_if; [exact I6|exact H6|eapply good_lse; exact H6|]. intros h7 r7 v7 I7 H7.
  eapply i_if; [exact I7|exact H7|eapply good_lse; exact H7|]. intros h8 r8 v8 I8 H8.
  destruct d; [|apply la_ret; exact H8].
  eapply i_good; [exact I8|apply volume_good; eapply cube_keeps; [exact I8|apply H]|]. intros h9 vo vvo I9 K9 Hvo.
  apply (ref_keeps _ _ _ _ _ K9) in H8.
  eapply i_ok; [exact I9|eapply good_map; exact Hvo|]. intros h10 lv I10 K10 Hlv. apply (ref_keeps _ _ _ _ _ K10) in H8.
  eapply la_iop; [exact H8|exact Hlv].
Qed.
Lemma collapse_good (c : bool) h mm p : good h mm p ->
  good h (log_p <~ mm ;; if c then h_lse log_p [0]%Z else ret log_p) (log_p <- p ;; if c then logsumexp log_p [0]%Z else Ok log_p).
Proof.
  intros H. unfold good. eapply i_good; [apply keeps_refl|exact H|]. intros h1 r v I1 K1 Hr.
  destruct c; [|apply la_ret; exact Hr]. apply la_good; [apply I1|]. eapply good_lse; exact Hr.
Qed.
Lemma mixmarg_good w c d lw h : mix_in h os ls m self -> good h (h_mix_marginal os ls m w c d lw) (mix_marginal self w c d lw).
Proof. intros H. apply collapse_good. destruct lw; [apply light_good|apply mass_good]; exact H. Qed.
Lemma mixcond_good w d lw h : mix_in h os ls m self -> good h (h_mix_conditional os ls m w d lw) (mix_conditional self w d lw).
Proof.
  intros H. unfold h_mix_conditional, mix_conditional, good.
  eapply sp_bind; [reflexivity|apply (sp_lift _ _ _ _ (fun _ _ => True)); destruct (py_assert _); auto|].
  intros h0 u u' _ [-> _]. clear u u'.
  destruct (split "_" w) as [|dist [|marginal [|? ?]]]; try apply sp_err. cbv zeta. pose proof (keeps_refl (length h) h) as I0.
  eapply i_good; [exact I0|apply mixmarg_good; exact H|]. intros h1 j vj I1 K1 Hj.
  eapply i_good; [exact I1|apply mixmarg_good; eapply mix_keeps; [exact I1|exact H]|]. intros h2 mg vm I2 K2 Hm.
  apply (ref_keeps _ _ _ _ _ K2) in Hj.
  eapply st_mov; [exact Hj|]. intros j3 v3 Hj3.
  eapply i_good; [exact I2|eapply good_bop; [exact Hj3|exact Hm]|]. intros h4 r v I4 K4 Hr.
  destruct d; [|apply la_ret; exact Hr].
  eapply i_good; [exact I4|apply volume_good; eapply cube_keeps; [exact I4|apply H]|]. intros h9 vo vvo I9 K9 Hvo.
  apply (ref_keeps _ _ _ _ _ K9) in Hr.
  eapply i_ok; [exact I9|eapply good_map; exact Hvo|]. intros h10 lv I10 K10 Hlv. apply (ref_keeps _ _ _ _ _ K10) in Hr.
  apply la_good; [apply I10|]. eapply good_bop; [exact Hr|exact Hlv].
Qed.
Lemma mix_log_good w c d lw h : mix_in h os ls m self -> good h (h_mix_get_log_p os ls m w c d lw) (mix_get_log_p self w c d lw).
Proof.
  intros H. unfold h_mix_get_log_p, mix_get_log_p. destruct (has_char "_" w).
  - apply collapse_good. apply mixcond_good; exact H.
  - apply mixmarg_good; exact H.
Qed.
Lemma mix_p_good w c d lw h : mix_in h os ls m self -> good h (h_mix_get_p os ls m w c d lw) (mix_get_p self w c d lw).
Proof.
  intros H. unfold h_mix_get_p, mix_get_p, good. eapply i_good; [apply keeps_refl|apply mix_log_good; exact H|].
  intros h1 r v I1 K1 Hr. apply la_good; [apply I1|]. eapply good_map; exact Hr.
Qed.
End mix.
