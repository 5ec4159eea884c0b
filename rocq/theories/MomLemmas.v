(** * MomLemmas: means and moments of any object whose get_p is right. *)
From Coq Require Import Reals Lra Lia List Bool Arith ZArith String Ascii.
From Verif Require Import Num NumLemmas Arr ArrLemmas PyStr Cube Base Spec SpecLemmas Repr CubeLemmas
  BaseLemmas CondLemmas DistLemmas Moments MomArr MomSpec Stat.
Import ListNotations.
Local Open Scope R_scope.

(** get_p of the distribution of A given C has the right entries *)
Definition gives (o : obj) (g : grid) (P : joint) (lw : bool) (A C : vset) : Prop :=
  exists a, o_get_p o (dname A C) false lw = Ok a /\ shp a = (dims A g ++ dims C g)%list /\
    forall i, in_grid g i ->
      (0 < marg g P C i ->
       ent a (coords A i ++ coords C i) = Fin (marg g P (union A C) i / marg g P C i)) /\
      (marg g P C i = 0 -> ent a (coords A i ++ coords C i) = NaN).

(** a base component does, provided that a marginal is normalised *)
Lemma base_gives self g f lw A C :
  comp_on self g f -> good_grid g -> nonneg g f -> lw_ok g f lw ->
  nonempty A = true -> disjoint A C = true ->
  (nonempty C = false -> total g (prob g f lw) = 1) ->
  gives (base_obj self) g (prob g f lw) lw A C.
Proof.
  intros H Hg Hf Hl HA HD HT. unfold gives, dname. cbn [o_get_p base_obj].
  destruct (nonempty C) eqn:EC.
  - destruct (get_p_cond self g f H Hg Hf A C false lw HA EC HD Hl) as (a & E & Hs & He).
    exists a. do 2 (split; [assumption|]). intros i Hi. destruct (He i Hi) as [He1 He2]. split; [|exact He2].
    intros Hp. rewrite He1 by assumption. f_equal. field. lra.
  - specialize (HT eq_refl). assert (C = no_vars) by (destruct C as [[] [] [] []]; try discriminate; reflexivity).
    subst C. destruct (get_p_marg self g f H Hg Hf A false lw HA Hl) as (a & E & Hs & He).
    exists a. split; [exact E|]. split; [rewrite app_nil_r; exact Hs|]. intros i Hi.
    rewrite marg_none, HT. split; [|lra]. intros _. cbn. rewrite app_nil_r, He by assumption.
    replace (union A no_vars) with A by (destruct A as [[] [] [] []]; reflexivity). reflexivity.
Qed.

(** the letter of a coordinate's variable *)
Definition is_x (k : coord) : bool := match k with Cx1 | Cx2 => true | _ => false end.
Definition cother (k : coord) : coord := match k with Cx1 => Cx2 | _ => Cx1 end.

Lemma part0_dname k C : disjoint (cvar k) C = true -> part0 (dname (cvar k) C) = name (cvar k).
Proof. destruct k, C as [[] [] [] []]; intros H; try discriminate H; reflexivity. Qed.
Lemma len_name k : String.length (name (cvar k)) = 1%nat.
Proof. destruct k; reflexivity. Qed.
Lemma is_tvz_name k : is_tvz (name (cvar k)) = negb (is_x k).
Proof. destruct k; reflexivity. Qed.

Lemma wid_len (n : nat) : (n + 1 - 1)%nat = n. Proof. lia. Qed.

Lemma values_ok c g k : cube_on c g -> is_x k = false ->
  exists v, get_variable_values c (name (cvar k)) = Ok v /\ vec v (cn g k) (mid (cedge g k)).
Proof.
  intros Hc Hk. pose proof (co_ssps _ _ Hc) as Hs. unfold get_variable_values.
  destruct k; try discriminate Hk; cbn [name cvar has_t has_v has_x has_z append String.eqb Ascii.eqb Bool.eqb].
  - eexists; split; [reflexivity|]. apply (so_tc _ _ Hs).
  - pose proof (vec_is _ _ _ (co_v _ _ Hc)) as Hv.
    pose proof (tail0_is _ _ _ _ Hv ltac:(lia)) as H1. pose proof (init0_is _ _ _ _ Hv) as H2.
    rewrite wid_len in *.
    destruct (bop_same_is nadd _ _ [nv g] (proj1 H2) (proj1 H1)) as (q & E & Hq & He).
    rewrite E. cbn [bind]. eexists; split; [reflexivity|]. split; [exact Hq|]. intros i Hi. cbn.
    assert (HI : inb [i] [nv g]) by (constructor; [exact Hi|constructor]).
    rewrite He by exact HI. rewrite (proj2 H2), (proj2 H1) by exact HI. cbn [hd tl cn cedge].
    rewrite nadd_Fin, ndiv_Fin by lra. reflexivity.
  - eexists; split; [reflexivity|]. apply (so_zc _ _ Hs).
Qed.

Section Cols.
Context (g : grid) (P : joint) (Hg : good_grid g) (HP : nonneg g P).

(** bin [i] with coordinate [k] replaced *)
Definition cset (k : coord) (n : nat) (i : bin) : bin :=
  match k with
  | Ct => Bin n (bv i) (bx i) (by_ i) (bz i)
  | Cv => Bin (bt i) n (bx i) (by_ i) (bz i)
  | Cx1 => Bin (bt i) (bv i) n (by_ i) (bz i)
  | Cx2 => Bin (bt i) (bv i) (bx i) n (bz i)
  | Cz => Bin (bt i) (bv i) (bx i) (by_ i) n
  end.

Lemma cset_in k n i : in_grid g i -> (n < cn g k)%nat -> in_grid g (cset k n i).
Proof. intros (H1 & H2 & H3 & H4 & H5) Hn. destruct k; unfold in_grid; cbn in *; auto. Qed.
Lemma cset_agree k n i C : disjoint (cvar k) C = true -> agree C (cset k n i) i.
Proof.
  unfold agree. destruct k, C as [[] [] [] []]; cbn; intros H; try discriminate H;
    repeat split; intros; congruence.
Qed.
Lemma cset_cidx k n i : cidx k (cset k n i) = n.
Proof. destruct k; reflexivity. Qed.

Lemma sum_over_k k i F : is_x k = false -> sum_over g (cvar k) i F = Sum (cn g k) (fun n => F (cset k n i)).
Proof. destruct k; intros H; try discriminate; reflexivity. Qed.
Lemma sum_over_x i F k : is_x k = true -> sum_over g (cvar k) i F =
  Sum (nx g) (fun n => Sum (ny g) (fun m => F (cset Cx2 m (cset Cx1 n i)))).
Proof. destruct k; intros H; try discriminate; reflexivity. Qed.

Lemma cn_pos k : (0 < cn g k)%nat.
Proof. destruct Hg, k; assumption. Qed.

(** *** columns of p: t, v, z *)
Section Col1.
Context (k : coord) (C : vset) (p : arr num) (i : bin).
Context (Hk : is_x k = false) (HD : disjoint (cvar k) C = true) (Hi : in_grid g i).
Context (Hp : forall i, in_grid g i ->
      (0 < marg g P C i ->
       ent p (coords (cvar k) i ++ coords C i) = Fin (marg g P (union (cvar k) C) i / marg g P C i)) /\
      (marg g P C i = 0 -> ent p (coords (cvar k) i ++ coords C i) = NaN)).

Lemma col_index n : (coords (cvar k) (cset k n i) ++ coords C (cset k n i))%list = n :: coords C i.
Proof.
  rewrite (coords_agree C _ i) by (apply cset_agree; assumption). destruct k; try discriminate Hk; reflexivity.
Qed.
Lemma col_marg n : marg g P C (cset k n i) = marg g P C i.
Proof. apply marg_agree, cset_agree; assumption. Qed.

Lemma col_ent n : (n < cn g k)%nat -> 0 < marg g P C i ->
  ent p (n :: coords C i) = Fin (marg g P (union (cvar k) C) (cset k n i) / marg g P C i).
Proof.
  intros Hn Hm. destruct (Hp _ (cset_in k n i Hi Hn)) as [H1 _].
  rewrite col_index, col_marg in H1. apply H1; assumption.
Qed.
Lemma col_nan n : (n < cn g k)%nat -> marg g P C i = 0 -> ent p (n :: coords C i) = NaN.
Proof.
  intros Hn Hm. destruct (Hp _ (cset_in k n i Hi Hn)) as [_ H1].
  rewrite col_index, col_marg in H1. apply H1; assumption.
Qed.

Lemma col_sum h : 0 < marg g P C i ->
  nsum (map (fun n => nmul (Fin (h n)) (ent p (n :: coords C i))) (seq 0 (cn g k))) =
  Fin (Ex g P (cvar k) C (fun j => h (cidx k j)) i).
Proof.
  intros Hm. rewrite (nsum_map_Fin _ (fun n => h n * (marg g P (union (cvar k) C) (cset k n i) / marg g P C i))).
  - f_equal. rewrite sumR_map_seq. unfold Ex. rewrite sum_over_k by assumption. unfold Rdiv at 2.
    rewrite <- Sum_scal_r. apply Sum_ext. intros n Hn. rewrite cset_cidx. unfold Rdiv. ring.
  - intros n Hn. apply in_seq in Hn. rewrite col_ent by (assumption || lia). apply nmul_Fin.
Qed.
Lemma col_sum_nan h : marg g P C i = 0 ->
  nsum (map (fun n => nmul (h n) (ent p (n :: coords C i))) (seq 0 (cn g k))) = NaN.
Proof.
  intros Hm. apply nsum_nan. apply in_map_iff. exists 0%nat. split.
  - rewrite col_nan by (assumption || apply cn_pos). apply nmul_nan_r.
  - apply in_seq. pose proof (cn_pos k). lia.
Qed.
End Col1.

(** *** the x plane: first and second coordinate *)
Section ColX.
Context (C : vset) (p : arr num) (i : bin).
Context (HD : has_x C = false) (Hi : in_grid g i).
Context (Hp : forall i, in_grid g i ->
      (0 < marg g P C i ->
       ent p (coords (cvar Cx1) i ++ coords C i) = Fin (marg g P (union (cvar Cx1) C) i / marg g P C i)) /\
      (marg g P C i = 0 -> ent p (coords (cvar Cx1) i ++ coords C i) = NaN)).
Let xy n m := cset Cx2 m (cset Cx1 n i).

Lemma xdis k : is_x k = true -> disjoint (cvar k) C = true.
Proof. destruct k; intros H; try discriminate H; destruct C as [[] [] [] []]; cbn in *; congruence. Qed.

Lemma xy_in n m : (n < nx g)%nat -> (m < ny g)%nat -> in_grid g (xy n m).
Proof. intros Hn Hm. apply (cset_in Cx2); [apply (cset_in Cx1)|]; assumption. Qed.
Lemma xy_index n m : (coords (cvar Cx1) (xy n m) ++ coords C (xy n m))%list = n :: m :: coords C i.
Proof.
  unfold xy. rewrite (coords_agree C _ (cset Cx1 n i)) by (apply cset_agree, xdis; reflexivity).
  rewrite (coords_agree C _ i) by (apply cset_agree, xdis; reflexivity). reflexivity.
Qed.
Lemma xy_marg n m : marg g P C (xy n m) = marg g P C i.
Proof.
  unfold xy. rewrite (marg_agree g P C _ (cset Cx1 n i)) by (apply cset_agree, xdis; reflexivity).
  apply marg_agree, cset_agree, xdis; reflexivity.
Qed.
Lemma xy_ent n m : (n < nx g)%nat -> (m < ny g)%nat -> 0 < marg g P C i ->
  ent p (n :: m :: coords C i) = Fin (marg g P (union (cvar Cx1) C) (xy n m) / marg g P C i).
Proof.
  intros Hn Hm Hp0. destruct (Hp _ (xy_in n m Hn Hm)) as [H1 _]. rewrite xy_index, xy_marg in H1. auto.
Qed.
Lemma xy_nan n m : (n < nx g)%nat -> (m < ny g)%nat -> marg g P C i = 0 -> ent p (n :: m :: coords C i) = NaN.
Proof.
  intros Hn Hm Hp0. destruct (Hp _ (xy_in n m Hn Hm)) as [_ H1]. rewrite xy_index, xy_marg in H1. auto.
Qed.

Lemma x1_sum h : 0 < marg g P C i ->
  nsum (map (fun n => nmul (Fin (h n)) (nsum (map (fun m => ent p (n :: m :: coords C i)) (seq 0 (ny g))))) (seq 0 (nx g))) =
  Fin (Ex g P (cvar Cx1) C (fun j => h (cidx Cx1 j)) i).
Proof.
  intros Hm.
  rewrite (nsum_map_Fin _ (fun n => h n * Sum (ny g) (fun m => marg g P (union (cvar Cx1) C) (xy n m) / marg g P C i))).
  - f_equal. rewrite sumR_map_seq. unfold Ex. rewrite sum_over_x by reflexivity. unfold Rdiv at 2.
    rewrite <- Sum_scal_r. apply Sum_ext. intros n Hn. rewrite <- Sum_scal, <- Sum_scal_r.
    apply Sum_ext. intros m Hm'. cbn. unfold xy, Rdiv. cbn. ring.
  - intros n Hn. apply in_seq in Hn.
    rewrite (nsum_map_Fin _ (fun m => marg g P (union (cvar Cx1) C) (xy n m) / marg g P C i)).
    + rewrite sumR_map_seq. apply nmul_Fin.
    + intros m Hm'. apply in_seq in Hm'. apply xy_ent; lia || assumption.
Qed.
Lemma x2_sum h : 0 < marg g P C i ->
  nsum (map (fun m => nmul (Fin (h m)) (nsum (map (fun n => ent p (n :: m :: coords C i)) (seq 0 (nx g))))) (seq 0 (ny g))) =
  Fin (Ex g P (cvar Cx2) C (fun j => h (cidx Cx2 j)) i).
Proof.
  intros Hm.
  rewrite (nsum_map_Fin _ (fun m => h m * Sum (nx g) (fun n => marg g P (union (cvar Cx1) C) (xy n m) / marg g P C i))).
  - f_equal. rewrite sumR_map_seq. unfold Ex. rewrite sum_over_x by reflexivity. unfold Rdiv at 2.
    rewrite <- Sum_scal_r. rewrite (Sum_ext (nx g) _ (fun n => Sum (ny g) (fun m =>
      h m * (marg g P (union (cvar Cx1) C) (xy n m) / marg g P C i)))).
    + rewrite Sum_swap. apply Sum_ext. intros m Hm'. rewrite <- Sum_scal. reflexivity.
    + intros n Hn. rewrite <- Sum_scal_r. apply Sum_ext. intros m Hm'. cbn. unfold xy, Rdiv. cbn. ring.
  - intros m Hm'. apply in_seq in Hm'.
    rewrite (nsum_map_Fin _ (fun n => marg g P (union (cvar Cx1) C) (xy n m) / marg g P C i)).
    + rewrite sumR_map_seq. apply nmul_Fin.
    + intros n Hn. apply in_seq in Hn. apply xy_ent; lia || assumption.
Qed.
Lemma x1_sum_nan h : marg g P C i = 0 ->
  nsum (map (fun n => nmul (h n) (nsum (map (fun m => ent p (n :: m :: coords C i)) (seq 0 (ny g))))) (seq 0 (nx g))) = NaN.
Proof.
  intros Hm. pose proof (gg_x _ Hg). pose proof (gg_y _ Hg). apply nsum_nan. apply in_map_iff. exists 0%nat. split.
  - rewrite nsum_nan; [apply nmul_nan_r|]. apply in_map_iff. exists 0%nat. split; [apply xy_nan; assumption|apply in_seq; lia].
  - apply in_seq. lia.
Qed.
Lemma x2_sum_nan h : marg g P C i = 0 ->
  nsum (map (fun m => nmul (h m) (nsum (map (fun n => ent p (n :: m :: coords C i)) (seq 0 (nx g))))) (seq 0 (ny g))) = NaN.
Proof.
  intros Hm. pose proof (gg_x _ Hg). pose proof (gg_y _ Hg). apply nsum_nan. apply in_map_iff. exists 0%nat. split.
  - rewrite nsum_nan; [apply nmul_nan_r|]. apply in_map_iff. exists 0%nat. split; [apply xy_nan; assumption|apply in_seq; lia].
  - apply in_seq. lia.
Qed.
End ColX.
End Cols.
