(** * MomLemmas4: covariance and correlation. *)
From Coq Require Import Reals Lra Lia List Bool Arith ZArith String Ascii.
From Verif Require Import Num NumLemmas Arr ArrLemmas PyStr Cube Base Spec SpecLemmas Repr CubeLemmas
  BaseLemmas CondLemmas DistLemmas Moments MomArr MomSpec MomLemmas MomLemmas2 MomLemmas3 Stat.
Import ListNotations.
Local Open Scope R_scope.

(** ** arrays *)
Lemma bshape_rev_snoc l1 l2 a b s d : List.length l1 = List.length l2 -> bshape_rev l1 l2 = Some s ->
  bdim a b = Some d -> bshape_rev (l1 ++ [a]) (l2 ++ [b]) = Some (s ++ [d])%list.
Proof.
  revert l2 s; induction l1 as [|x l1 IH]; intros [|y l2] s HL H HD; cbn in HL; try discriminate HL.
  - cbn in *. inversion H; subst. rewrite HD. reflexivity.
  - cbn in *. destruct (bdim x y) as [e|]; [|discriminate]. destruct (bshape_rev l1 l2) as [r|] eqn:Er; [|discriminate].
    inversion H; subst. rewrite (IH l2 r) by (auto; lia). reflexivity.
Qed.
Lemma bshape_cons s1 s2 s a b d : List.length s1 = List.length s2 -> bshape s1 s2 = Some s ->
  bdim a b = Some d -> bshape (a :: s1) (b :: s2) = Some (d :: s).
Proof.
  unfold bshape. intros HL H HD. cbn [rev].
  destruct (bshape_rev (rev s1) (rev s2)) as [r|] eqn:E; [|discriminate]. inversion H; subst.
  rewrite (bshape_rev_snoc _ _ _ _ r d) by (rewrite ?rev_length; auto). rewrite rev_app_distr. reflexivity.
Qed.
Lemma bidx_cons s r d i : List.length s = List.length r -> bidx (d :: s) (i :: r) = pick d i :: bidx s r.
Proof. intros H. unfold bidx. cbn [List.length]. rewrite H, !Nat.sub_diag. reflexivity. Qed.

Lemma double_sum_is (p d0 d1 : arr num) n m s : shp p = n :: m :: s -> shp d0 = n :: s -> shp d1 = m :: s ->
  exists q, double_sum p d0 d1 = Ok q /\ arr_is q s (fun r =>
    nsum (map (fun i => nsum (map (fun k => nmul (nmul (ent p (i :: k :: r)) (ent d0 (i :: r))) (ent d1 (k :: r)))
      (seq 0 m))) (seq 0 n))).
Proof.
  intros Hp H0 H1. unfold double_sum.
  destruct (getitem_is' [IAll; INew] d0 _ _ (n :: 1%nat :: s) (self_is d0 _ H0) eq_refl) as (e0 & E0 & He0).
  rewrite E0; cbn [bind].
  destruct (bop_is nmul p e0 _ _ _ _ (n :: m :: s) (self_is p _ Hp) He0) as (q & Eq & Hqs & Hqe).
  { repeat apply bshape_cons; cbn; auto using bdim_same, bdim_1_r, bshape_same. }
  rewrite Eq; cbn [bind].
  destruct (getitem_is' [INew; IAll] d1 _ _ (1%nat :: m :: s) (self_is d1 _ H1) eq_refl) as (e1 & E1 & He1).
  rewrite E1; cbn [bind].
  destruct (bop_is nmul q e1 _ _ _ _ (n :: m :: s) (self_is q _ Hqs) He1) as (t & Et & Hts & Hte).
  { repeat apply bshape_cons; cbn; auto using bdim_same, bdim_1_r, bshape_same. }
  rewrite Et; cbn [bind].
  destruct (asum01_is t _ _ _ Hts) as (z & Ez & Hz). exists z. split; [exact Ez|].
  eapply arr_is_ext; [exact Hz|]. intros r Hr. cbv beta. f_equal. apply map_ext_in. intros i Hi. apply in_seq in Hi.
  f_equal. apply map_ext_in. intros k Hk. apply in_seq in Hk.
  assert (HI : inb (i :: k :: r) (n :: m :: s)) by (repeat constructor; lia || assumption).
  pose proof (inb_length _ _ Hr) as L.
  rewrite Hte by assumption. rewrite (bidx_self (n :: m :: s)) by assumption. rewrite Hqe by assumption.
  rewrite (bidx_self (n :: m :: s)) by assumption.
  rewrite !bidx_cons by (cbn; lia). rewrite (bidx_self s) by assumption.
  cbn [gi_idx hd tl]. rewrite !pick_lt by lia. reflexivity.
Qed.
Lemma double_sum'_is (p dx dn : arr num) n m s : shp p = n :: m :: s -> shp dn = n :: s -> shp dx = m :: s ->
  exists q, double_sum' p dx dn = Ok q /\ arr_is q s (fun r =>
    nsum (map (fun i => nsum (map (fun k => nmul (nmul (ent p (i :: k :: r)) (ent dx (k :: r))) (ent dn (i :: r)))
      (seq 0 m))) (seq 0 n))).
Proof.
  intros Hp H0 H1. unfold double_sum'.
  destruct (getitem_is' [INew; IAll] dx _ _ (1%nat :: m :: s) (self_is dx _ H1) eq_refl) as (e1 & E1 & He1).
  rewrite E1; cbn [bind].
  destruct (bop_is nmul p e1 _ _ _ _ (n :: m :: s) (self_is p _ Hp) He1) as (q & Eq & Hqs & Hqe).
  { repeat apply bshape_cons; cbn; auto using bdim_same, bdim_1_r, bshape_same. }
  rewrite Eq; cbn [bind].
  destruct (getitem_is' [IAll; INew] dn _ _ (n :: 1%nat :: s) (self_is dn _ H0) eq_refl) as (e0 & E0 & He0).
  rewrite E0; cbn [bind].
  destruct (bop_is nmul q e0 _ _ _ _ (n :: m :: s) (self_is q _ Hqs) He0) as (t & Et & Hts & Hte).
  { repeat apply bshape_cons; cbn; auto using bdim_same, bdim_1_r, bshape_same. }
  rewrite Et; cbn [bind].
  destruct (asum01_is t _ _ _ Hts) as (z & Ez & Hz). exists z. split; [exact Ez|].
  eapply arr_is_ext; [exact Hz|]. intros r Hr. cbv beta. f_equal. apply map_ext_in. intros i Hi. apply in_seq in Hi.
  f_equal. apply map_ext_in. intros k Hk. apply in_seq in Hk.
  assert (HI : inb (i :: k :: r) (n :: m :: s)) by (repeat constructor; lia || assumption).
  pose proof (inb_length _ _ Hr) as L.
  rewrite Hte by assumption. rewrite (bidx_self (n :: m :: s)) by assumption. rewrite Hqe by assumption.
  rewrite (bidx_self (n :: m :: s)) by assumption.
  rewrite !bidx_cons by (cbn; lia). rewrite (bidx_self s) by assumption.
  cbn [gi_idx hd tl]. rewrite !pick_lt by lia. reflexivity.
Qed.
Lemma deltas_is (v mu : arr num) n s : shp v = [n] -> shp mu = s ->
  exists d, deltas v mu = Ok d /\ shp d = n :: s /\
    forall k r, (k < n)%nat -> inb r s -> ent d (k :: r) = nsub (ent v [k]) (ent mu r).
Proof.
  intros Hv Hm. unfold deltas. destruct (sub_mu_is nsub v mu n s Hv Hm) as (mu' & q & E1 & E2 & Hq & He).
  rewrite E1; cbn [bind]. rewrite E2; cbn [bind]. eexists; split; [reflexivity|].
  destruct (T_rev_ent q s n 0%nat [] Hq) as [HT _]. split; [exact HT|].
  intros k r Hk Hr. destruct (T_rev_ent q s n k r Hq) as [_ ->]. apply He; assumption.
Qed.

(** ** expectations over more variables *)
Section Ops.
Context (g : grid).
Definition ot (b : bool) (F : bin -> R) (i : bin) : R := sum_if b (nt g) (bt i) (fun n => F (cset Ct n i)).
Definition ov (b : bool) (F : bin -> R) (i : bin) : R := sum_if b (nv g) (bv i) (fun n => F (cset Cv n i)).
Definition ox (b : bool) (F : bin -> R) (i : bin) : R := sum_if b (nx g) (bx i) (fun n => F (cset Cx1 n i)).
Definition oy (b : bool) (F : bin -> R) (i : bin) : R := sum_if b (ny g) (by_ i) (fun n => F (cset Cx2 n i)).
Definition oz (b : bool) (F : bin -> R) (i : bin) : R := sum_if b (nz g) (bz i) (fun n => F (cset Cz n i)).
Lemma sum_over_ops A i F :
  sum_over g A i F = ot (has_t A) (ov (has_v A) (ox (has_x A) (oy (has_x A) (oz (has_z A) F)))) i.
Proof. reflexivity. Qed.
Lemma sum_if_comm b1 n1 i1 b2 n2 i2 (F : nat -> nat -> R) :
  sum_if b1 n1 i1 (fun a => sum_if b2 n2 i2 (fun b => F a b)) =
  sum_if b2 n2 i2 (fun b => sum_if b1 n1 i1 (fun a => F a b)).
Proof. destruct b1, b2; cbn; try reflexivity. apply Sum_swap. Qed.
Ltac cm := intros; unfold ot, ov, ox, oy, oz; cbn [cset bt bv bx by_ bz]; apply sum_if_comm.
Lemma c_vt a b F i : ov a (ot b F) i = ot b (ov a F) i. Proof. cm. Qed.
Lemma c_xt a b F i : ox a (ot b F) i = ot b (ox a F) i. Proof. cm. Qed.
Lemma c_yt a b F i : oy a (ot b F) i = ot b (oy a F) i. Proof. cm. Qed.
Lemma c_zt a b F i : oz a (ot b F) i = ot b (oz a F) i. Proof. cm. Qed.
Lemma c_xv a b F i : ox a (ov b F) i = ov b (ox a F) i. Proof. cm. Qed.
Lemma c_yv a b F i : oy a (ov b F) i = ov b (oy a F) i. Proof. cm. Qed.
Lemma c_zv a b F i : oz a (ov b F) i = ov b (oz a F) i. Proof. cm. Qed.
Lemma c_yx a b F i : oy a (ox b F) i = ox b (oy a F) i. Proof. cm. Qed.
Lemma c_zx a b F i : oz a (ox b F) i = ox b (oz a F) i. Proof. cm. Qed.
Lemma c_zy a b F i : oz a (oy b F) i = oy b (oz a F) i. Proof. cm. Qed.
Lemma e_t b F F' i : (forall j, F j = F' j) -> ot b F i = ot b F' i.
Proof. intros H. unfold ot. apply sum_if_ext_all. intros; apply H. Qed.
Lemma e_v b F F' i : (forall j, F j = F' j) -> ov b F i = ov b F' i.
Proof. intros H. unfold ov. apply sum_if_ext_all. intros; apply H. Qed.
Lemma e_x b F F' i : (forall j, F j = F' j) -> ox b F i = ox b F' i.
Proof. intros H. unfold ox. apply sum_if_ext_all. intros; apply H. Qed.
Lemma e_y b F F' i : (forall j, F j = F' j) -> oy b F i = oy b F' i.
Proof. intros H. unfold oy. apply sum_if_ext_all. intros; apply H. Qed.
Lemma e_z b F F' i : (forall j, F j = F' j) -> oz b F i = oz b F' i.
Proof. intros H. unfold oz. apply sum_if_ext_all. intros; apply H. Qed.
Ltac mg := intros H; unfold ot, ov, ox, oy, oz; 
  match goal with |- sum_if ?a _ _ _ = sum_if (?a || ?b)%bool _ _ _ => destruct a, b end;
  try discriminate H; reflexivity.
Lemma m_t a b F i : (a && b)%bool = false -> ot a (ot b F) i = ot (a || b) F i. Proof. mg. Qed.
Lemma m_v a b F i : (a && b)%bool = false -> ov a (ov b F) i = ov (a || b) F i. Proof. mg. Qed.
Lemma m_x a b F i : (a && b)%bool = false -> ox a (ox b F) i = ox (a || b) F i. Proof. mg. Qed.
Lemma m_y a b F i : (a && b)%bool = false -> oy a (oy b F) i = oy (a || b) F i. Proof. mg. Qed.
Lemma m_z a b F i : (a && b)%bool = false -> oz a (oz b F) i = oz (a || b) F i. Proof. mg. Qed.

Lemma sum_over_union A B i F : disjoint A B = true ->
  sum_over g A i (fun j => sum_over g B j F) = sum_over g (union A B) i F.
Proof.
  intros HD.
  assert (HH : (has_t A && has_t B)%bool = false /\ (has_v A && has_v B)%bool = false /\
    (has_x A && has_x B)%bool = false /\ (has_z A && has_z B)%bool = false).
  { destruct A as [[] [] [] []], B as [[] [] [] []]; try discriminate HD; repeat split. }
  destruct HH as (Ht & Hv & Hx & Hz).
  rewrite !sum_over_ops. 
  change (fun j => sum_over g B j F) with (ot (has_t B) (ov (has_v B) (ox (has_x B) (oy (has_x B) (oz (has_z B) F))))).
  cbn [union has_t has_v has_x has_z]. rewrite <- m_t by exact Ht. apply e_t; intros j1.
  transitivity (ov (has_v A) (ot (has_t B) (ox (has_x A) (oy (has_x A) (oz (has_z A) (ov (has_v B) (ox (has_x B) (oy (has_x B) (oz (has_z B) F)))))))) j1).
  { apply e_v; intros j2. etransitivity; [|apply c_xt]. apply e_x; intros j3. etransitivity; [|apply c_yt]. apply e_y; intros j4. apply c_zt. }
  etransitivity; [apply c_vt|]. apply e_t; intros j2. rewrite <- m_v by exact Hv. apply e_v; intros j3.
  transitivity (ox (has_x A) (ov (has_v B) (oy (has_x A) (oz (has_z A) (ox (has_x B) (oy (has_x B) (oz (has_z B) F)))))) j3).
  { apply e_x; intros j4. etransitivity; [|apply c_yv]. apply e_y; intros j5. apply c_zv. }
  etransitivity; [apply c_xv|]. apply e_v; intros j4. rewrite <- m_x by exact Hx. apply e_x; intros j5.
  transitivity (oy (has_x A) (ox (has_x B) (oz (has_z A) (oy (has_x B) (oz (has_z B) F)))) j5).
  { apply e_y; intros j6. apply c_zx. }
  etransitivity; [apply c_yx|]. apply e_x; intros j6. rewrite <- m_y by exact Hx. apply e_y; intros j7.
  etransitivity; [apply c_zy|]. apply e_y; intros j8. apply m_z; exact Hz.
Qed.
End Ops.

Lemma sum_over_const g A i F c : in_grid g i -> (forall j, In j (bins_over g A i) -> F j = c) ->
  forall w, sum_over g A i (fun j => F j * w j) = c * sum_over g A i w.
Proof.
  intros Hi H w. rewrite <- !sum_bins_over, <- sumR_map_scal. apply sumR_map_ext. intros j Hj. rewrite H by assumption. ring.
Qed.
Lemma sum_over_ext_in g A i F G : (forall j, In j (bins_over g A i) -> F j = G j) -> sum_over g A i F = sum_over g A i G.
Proof. intros H. rewrite <- !sum_bins_over. apply sumR_map_ext. exact H. Qed.

(** functions of the A variables only *)
Definition only (A : vset) (h : bin -> R) : Prop := forall i j, agree A i j -> h i = h j.
Lemma only_cmid g k : only (cvar k) (cmid g k).
Proof. intros i j (H1 & H2 & H3 & H4). unfold cmid. f_equal. destruct k; cbn in *; try (apply H1); try (apply H2); try (apply H3); try (apply H4); auto. Qed.

Lemma union_assoc A B C : union (union A B) C = union A (union B C).
Proof. unfold union; cbn. rewrite !orb_assoc. reflexivity. Qed.
Lemma union_comm A B : union A B = union B A.
Proof. unfold union. f_equal; apply orb_comm. Qed.
Lemma disjoint_comm A B : disjoint A B = disjoint B A.
Proof. destruct A as [[] [] [] []], B as [[] [] [] []]; reflexivity. Qed.
Lemma disjoint_union_l A B C : disjoint (union A B) C = (disjoint A C && disjoint B C)%bool.
Proof. destruct A as [[] [] [] []], B as [[] [] [] []], C as [[] [] [] []]; reflexivity. Qed.
Lemma disjoint_union_r A B C : disjoint A (union B C) = (disjoint A B && disjoint A C)%bool.
Proof. destruct A as [[] [] [] []], B as [[] [] [] []], C as [[] [] [] []]; reflexivity. Qed.

Lemma agree_sub A B i j : disjoint A B = true ->
  agree (VSet (negb (has_t B)) (negb (has_v B)) (negb (has_x B)) (negb (has_z B))) j i -> agree A j i.
Proof.
  intros HD (H1 & H2 & H3 & H4). unfold agree. cbn in *.
  destruct A as [[] [] [] []], B as [[] [] [] []]; try discriminate HD; cbn in *; auto 10.
Qed.

(** marginalising out variables on which the function does not depend *)
Lemma Ex_union g P A B C h i : in_grid g i -> disjoint A B = true -> disjoint A C = true -> disjoint B C = true ->
  only A h -> Ex g P (union A B) C h i = Ex g P A C h i.
Proof.
  intros Hi H1 H2 H3 Hh. unfold Ex. f_equal.
  rewrite <- sum_over_union by assumption. apply sum_over_ext; [assumption|]. intros j Hj.
  rewrite (sum_over_const g B j h (h j)); [|assumption|].
  - f_equal. rewrite (union_comm A B), union_assoc. apply sum_over_marg.
    rewrite disjoint_union_r, (disjoint_comm B A), H1, H3. reflexivity.
  - intros j' Hj'. apply bins_over_in in Hj' as [_ Ha]; [|assumption]. apply Hh. eapply agree_sub; [|exact Ha]. assumption.
Qed.

(** the tower rule *)
Lemma Ex_tower g P A B C h i : nonneg g P -> in_grid g i ->
  disjoint A B = true -> disjoint A C = true -> disjoint B C = true -> only A h ->
  Ex g P B C (fun j => Ex g P A (union B C) h j) i = Ex g P A C h i.
Proof.
  intros HP Hi H1 H2 H3 Hh. rewrite <- (Ex_union g P A B C) by assumption.
  unfold Ex at 1 3. f_equal. rewrite (union_comm A B). rewrite <- sum_over_union by (rewrite disjoint_comm; assumption).
  apply sum_over_ext; [assumption|]. intros j Hj. unfold Ex.
  rewrite (union_comm B A), union_assoc.
  destruct (Req_dec (marg g P (union B C) j) 0) as [Z|Z].
  - rewrite Z, Rmult_0_r. symmetry.
    assert (W : sum_over g A j (marg g P (union A (union B C))) = 0).
    { rewrite sum_over_marg; [exact Z|]. rewrite disjoint_union_r, H1, H2. reflexivity. }
    rewrite <- sum_bins_over in W. rewrite <- sum_bins_over.
    assert (V : forall j', In j' (bins_over g A j) -> marg g P (union A (union B C)) j' = 0).
    { apply (sumR_zero_terms (marg g P (union A (union B C)))); [|exact W].
      intros j' Hj'. apply bins_over_in in Hj' as [Hg' _]; [|assumption]. apply marg_nonneg; assumption. }
    transitivity (sumR (map (fun _ : bin => 0 * 0) (bins_over g A j))); [|rewrite sumR_map_scal; ring].
    apply sumR_map_ext. intros j' Hj'. rewrite V by assumption. ring.
  - field. exact Z.
Qed.
