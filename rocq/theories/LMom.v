(** * LMom: L-moments. *)
From Coq Require Import Reals Lra Lia List Bool Arith ZArith String Ascii.
From Verif Require Import Num NumLemmas Arr ArrLemmas PyStr Cube Base Spec SpecLemmas Repr CubeLemmas
  BaseLemmas CondLemmas DistLemmas Moments MomArr MomSpec MomLemmas MomLemmas2 MomLemmas3 MomLemmas5 Stat.
Import ListNotations.
Local Open Scope R_scope.

(** ** sizes and shapes *)
Lemma size_ok c g k : cube_on c g -> is_x k = false -> get_variable_size c (name (cvar k)) = Ok (cn g k).
Proof.
  intros Hc Hk. unfold get_variable_size. destruct (values_ok c g k Hc Hk) as (v & -> & Hs & _).
  cbn [bind]. unfold len0. rewrite Hs. reflexivity.
Qed.
Lemma size_t c g : cube_on c g -> get_variable_size c "t" = Ok (nt g).
Proof. intros H. apply (size_ok c g Ct H eq_refl). Qed.
Lemma size_v c g : cube_on c g -> get_variable_size c "v" = Ok (nv g).
Proof. intros H. apply (size_ok c g Cv H eq_refl). Qed.
Lemma size_z c g : cube_on c g -> get_variable_size c "z" = Ok (nz g).
Proof. intros H. apply (size_ok c g Cz H eq_refl). Qed.
Lemma size_x1 c g : cube_on c g -> get_variable_size c "x1" = Ok (nx g).
Proof. intros H. unfold get_variable_size. cbn. unfold len0. rewrite (vec_shp _ _ _ (co_x _ _ H)). reflexivity. Qed.
Lemma size_x2 c g : cube_on c g -> get_variable_size c "x2" = Ok (ny g).
Proof. intros H. unfold get_variable_size. cbn. unfold len0. rewrite (vec_shp _ _ _ (co_y _ _ H)). reflexivity. Qed.

Lemma shape_ok c g C : cube_on c g -> get_distribution_shape c (name C) = Ok (dims C g).
Proof.
  intros H. unfold get_distribution_shape.
  assert (Et : get_variable_size c (str1 "t") = Ok (nt g)) by (apply (size_t c g H)).
  assert (Ev : get_variable_size c (str1 "v") = Ok (nv g)) by (apply (size_v c g H)).
  assert (Ez : get_variable_size c (str1 "z") = Ok (nz g)) by (apply (size_z c g H)).
  pose proof (size_x1 c g H) as E1. pose proof (size_x2 c g H) as E2.
  destruct C as [[] [] [] []]; cbn -[get_variable_size str1];
    rewrite ?Et, ?Ev, ?E1, ?E2, ?Ez; cbn [bind]; rewrite ?Ev, ?E1, ?E2, ?Ez; cbn [bind]; rewrite ?E1, ?E2, ?Ez; cbn [bind];
    rewrite ?E2, ?Ez; cbn [bind]; rewrite ?Ez; reflexivity.
Qed.
Lemma edges_ok c g k : cube_on c g -> is_x k = false ->
  exists e, get_variable_edges c (name (cvar k)) = Ok e /\ vec e (cn g k + 1) (cedge g k).
Proof.
  intros Hc Hk. pose proof (co_ssps _ _ Hc) as Hs. destruct k; try discriminate Hk; eexists; (split; [reflexivity|]).
  - apply (so_te _ _ Hs).
  - apply (co_v _ _ Hc).
  - apply (so_ze _ _ Hs).
Qed.

(** ** the trapezoid sums *)
Definition trap (e F : nat -> R) (n j : nat) : R :=
  Sum n (fun n => (e n * legendre j (2 * F n - 1) + e (S n) * legendre j (2 * F (S n) - 1)) / 2 * (F (S n) - F n)).
Definition Ltrap (g : grid) (P : joint) (k : coord) (C : vset) (j : nat) (i : bin) : R :=
  trap (cedge g k) (cdf g P k C i) (cn g k) j.

Lemma at_cset k n i : at_ k n i = cset k n i. Proof. destruct k; reflexivity. Qed.

Lemma dname_len k C : is_x k = false -> disjoint (cvar k) C = true ->
  Nat.eqb (String.length (dname (cvar k) C)) 1 = negb (nonempty C).
Proof. destruct k, C as [[] [] [] []]; intros H1 H2; try discriminate H1; try discriminate H2; reflexivity. Qed.

(** whatever get_p returns *)
Lemma l_moment_raw o g lw (Hc : cube_on (o_cube o) g) (Hg : good_grid g) k C (Hk : is_x k = false)
    (HD : disjoint (cvar k) C = true) p j :
  o_get_p o (dname (cvar k) C) false lw = Ok p -> shp p = (dims (cvar k) g ++ dims C g)%list ->
  exists m, get_l_moment o (dname (cvar k) C) (S j) lw = Ok m /\ shp m = dims C g /\
    forall i, in_grid g i ->
      (forall r, (forall a, (a < cn g k)%nat -> ent p (a :: coords C i) = Fin (r a)) ->
         ent m (coords C i) = Fin (trap (cedge g k) (fun n => Sum n r) (cn g k) j)) /\
      (ent p (0%nat :: coords C i) = NaN -> ent m (coords C i) = NaN).
Proof.
  intros Ep Hps. unfold get_l_moment. rewrite part0_dname, len_name, dname_len by assumption. cbn [Nat.eqb py_assert bind].
  rewrite dims_k in Hps by assumption. cbn [app] in Hps.
  set (n := cn g k) in *. set (s := dims C g) in *.
  assert (X : exists conditioners, (if negb (nonempty C) then Ok ""%string else part1 (dname (cvar k) C)) = Ok conditioners /\
     exists z, (if negb (nonempty C) then Ok (arr1 [Fin 0] NaN)
       else cond_shape <- get_distribution_shape (o_cube o) conditioners ;; Ok (full (1%nat :: cond_shape) (Fin 0))) = Ok z /\
       arr_is z (1%nat :: s) (fun _ => Fin 0)).
  { destruct (nonempty C) eqn:EC; cbn [negb].
    - eexists; split; [apply part1_dname; assumption|]. rewrite (shape_ok _ g C Hc). cbn [bind].
      eexists; split; [reflexivity|]. apply full_is.
    - eexists; split; [reflexivity|]. eexists; split; [reflexivity|].
      assert (S0 : s = []) by (unfold s; destruct C as [[] [] [] []]; try discriminate EC; reflexivity). rewrite S0.
      split; [reflexivity|]. intros idx Hi. apply inb_cons in Hi as (i0 & r & -> & Hi0 & Hr). inversion Hr; subst.
      destruct i0; [reflexivity|lia]. }
  destruct X as (cs & Ecs & z & Ez & Hz). rewrite Ecs. cbn [bind]. rewrite Ep; cbn [bind]. rewrite Ez; cbn [bind].
  pose proof (cumsum0_is p _ _ _ (self_is p _ Hps)) as HF.
  destruct (concat0_is z (cumsum0 p) _ _ _ _ _ Hz HF) as (F & EF & HF'). rewrite EF; cbn [bind].
  pose proof (tail0_is F _ _ _ HF' ltac:(lia)) as HT. pose proof (init0_is F _ _ _ HF') as HI.
  replace (1 + n - 1)%nat with n in * by lia.
  destruct (bop_same_is nsub _ _ _ (proj1 HT) (proj1 HI)) as (dF & EdF & HdFs & HdFe). rewrite EdF; cbn [bind].
  destruct (edges_ok (o_cube o) g k Hc Hk) as (e & Ee & Hes & Hee). rewrite Ee; cbn [bind]. fold n in Hes, Hee.
  set (G := amap (fun a => npoly j (nsub (nmul (Fin 2) a) (Fin 1))) F).
  assert (HGs : shp G = (n + 1)%nat :: s) by (unfold G; cbn; rewrite (proj1 HF'); f_equal; lia).
  destruct (bop_vT_is nmul e G _ _ Hes HGs) as (y & Ey & Hys & Hye). rewrite Ey; cbn [bind].
  destruct (T_rev_ent y s (n + 1) 0%nat [] Hys) as [HTs _].
  pose proof (tail0_is (T y) _ _ _ (self_is _ _ HTs) ltac:(lia)) as HTy.
  pose proof (init0_is (T y) _ _ _ (self_is _ _ HTs)) as HIy.
  replace (n + 1 - 1)%nat with n in * by lia.
  destruct (bop_same_is nadd _ _ _ (proj1 HIy) (proj1 HTy)) as (sm & Es & Hss & Hse). rewrite Es; cbn [bind].
  destruct (bop_same_is nmul (halve sm) dF _ Hss HdFs) as (q & Eq & Hqs & Hqe). rewrite Eq; cbn [bind].
  destruct (asum0_is q _ _ Hqs) as (m & Em & Hms & Hme). exists m. split; [exact Em|]. split; [exact Hms|].
  intros i Hi. assert (HIc : inb (coords C i) s) by (apply coords_inb; assumption).
  assert (Fe : forall l, (l <= n)%nat -> ent F (l :: coords C i) =
     match l with O => Fin 0 | S l' => nsum (map (fun a => ent p (a :: coords C i)) (seq 0 (S l'))) end).
  { intros l Hl. rewrite (proj2 HF') by (constructor; [lia|assumption]). cbn [hd tl].
    destruct l as [|l']; [reflexivity|]. cbn [Nat.ltb Nat.leb]. rewrite Nat.sub_succ, Nat.sub_0_r. reflexivity. }
  assert (Ye : forall l, (l <= n)%nat -> ent (T y) (l :: coords C i) =
     nmul (Fin (cedge g k l)) (npoly j (nsub (nmul (Fin 2) (ent F (l :: coords C i))) (Fin 1)))).
  { intros l Hl. destruct (T_rev_ent y s (n + 1) l (coords C i) Hys) as [_ ->].
    rewrite Hye by (lia || assumption). rewrite Hee by lia. reflexivity. }
  assert (Te : forall l, (l < n)%nat -> ent q (l :: coords C i) =
     nmul (ndiv (nadd (ent (T y) (l :: coords C i)) (ent (T y) (S l :: coords C i))) (Fin 2))
          (nsub (ent F (S l :: coords C i)) (ent F (l :: coords C i)))).
  { intros l Hl. assert (HL : inb (l :: coords C i) (n :: s)) by (constructor; assumption).
    rewrite Hqe by assumption. cbn [halve amap ent]. rewrite Hse, HdFe by assumption.
    rewrite (proj2 HIy), (proj2 HTy), (proj2 HT), (proj2 HI) by assumption. cbn [hd tl]. f_equal. f_equal.
    - rewrite Fe by lia. cbn [Nat.ltb Nat.leb]. rewrite Nat.sub_succ, Nat.sub_0_r. reflexivity.
    - rewrite Fe by lia. destruct l; [reflexivity|]. cbn [Nat.ltb Nat.leb]. rewrite Nat.sub_succ, Nat.sub_0_r. reflexivity. }
  rewrite Hme by assumption. split.
  - intros r Hr. assert (Ff : forall l, (l <= n)%nat -> ent F (l :: coords C i) = Fin (Sum l r)).
    { intros l Hl. rewrite Fe by assumption. destruct l as [|l]; [reflexivity|].
      apply nsum_seq. intros a Ha. apply Hr. unfold n in *; lia. }
    apply nsum_seq. intros l Hl. rewrite Te by assumption. rewrite !Ye by lia. rewrite !Ff by lia.
    rewrite !nmul_Fin, !nsub_Fin. cbn [npoly]. rewrite !nmul_Fin, nadd_Fin, ndiv_Fin, nmul_Fin by lra. reflexivity.
  - intros Hm. apply nsum_seq_nan; [apply cn_pos; assumption|]. rewrite Te by (apply cn_pos; assumption).
    rewrite (Fe 1%nat) by (pose proof (cn_pos g Hg k); unfold n; lia).
    rewrite (nsum_nan (map _ _)).
    + change (nsub NaN (ent F (0%nat :: coords C i))) with NaN. apply nmul_nan_r.
    + left. exact Hm.
Qed.

Section Obj.
Context (o : obj) (g : grid) (P : joint) (lw : bool).
Context (Hc : cube_on (o_cube o) g) (Hg : good_grid g) (HP : nonneg g P).
Context (k : coord) (C : vset).
Context (Hk : is_x k = false) (HD : disjoint (cvar k) C = true) (HG : gives o g P lw (cvar k) C).

Lemma cdf_0 i : cdf g P k C i 0 = 0. Proof. reflexivity. Qed.
Lemma cdf_S i n : cdf g P k C i (S n) = cdf g P k C i n + marg g P (union (cvar k) C) (cset k n i) / marg g P C i.
Proof. unfold cdf. cbn [Sum]. rewrite at_cset. reflexivity. Qed.

Lemma l_moment_ok j :
  exists m, get_l_moment o (dname (cvar k) C) (S j) lw = Ok m /\ shp m = dims C g /\
    forall i, in_grid g i ->
      (0 < marg g P C i -> ent m (coords C i) = Fin (Ltrap g P k C j i)) /\
      (marg g P C i = 0 -> ent m (coords C i) = NaN).
Proof.
  destruct HG as (p & Ep & Hps & Hpe).
  destruct (l_moment_raw o g lw Hc Hg k C Hk HD p j Ep Hps) as (m & Em & Hms & Hme).
  exists m. split; [exact Em|]. split; [exact Hms|]. intros i Hi. destruct (Hme i Hi) as [M1 M2]. split; intros Hm.
  - apply (M1 (fun a => marg g P (union (cvar k) C) (at_ k a i) / marg g P C i)). intros a Ha. rewrite at_cset.
    apply (col_ent g P k C p i Hk HD Hi Hpe a); assumption.
  - apply M2. apply (col_nan g P k C p i Hk HD Hi Hpe 0%nat); [apply cn_pos; assumption|assumption].
Qed.

(** ** order one: the mean *)
Lemma Ltrap_mean i : Ltrap g P k C 0 i = Mean g P k C i.
Proof.
  unfold Ltrap, trap, Mean, Ex. rewrite sum_over_k by assumption. unfold Rdiv at 2.
  rewrite <- Sum_scal_r. apply Sum_ext. intros n Hn. rewrite cdf_S. unfold legendre. cbn [legendre2 fst].
  unfold cmid. rewrite cset_cidx. unfold mid.  unfold Rdiv. ring.
Qed.

(** ** order two *)
Lemma cdf_n i : 0 < marg g P C i -> cdf g P k C i (cn g k) = 1.
Proof.
  intros Hm. pose proof (cw_sum g P (cvar k) C i HD Hm) as W. rewrite sum_bins_over, sum_over_k in W by assumption.
  rewrite <- W. unfold cdf, cw. apply Sum_ext. intros. rewrite at_cset. 
  reflexivity.
Qed.
Lemma cdf_step i n : in_grid g i -> 0 < marg g P C i -> (n < cn g k)%nat -> cdf g P k C i n <= cdf g P k C i (S n).
Proof.
  intros Hi Hm Hn. rewrite cdf_S. 
  assert (0 <= marg g P (union (cvar k) C) (cset k n i) / marg g P C i); [|lra].
  apply Rmult_le_pos; [|left; apply Rinv_0_lt_compat; assumption]. apply marg_nonneg; [|assumption]. apply cset_in; assumption.
Qed.
Lemma cdf_nonneg i n : in_grid g i -> 0 < marg g P C i -> (n <= cn g k)%nat -> 0 <= cdf g P k C i n.
Proof.
  intros Hi Hm. induction n as [|n IH]; intros Hn; [rewrite cdf_0; lra|].
  pose proof (cdf_step i n Hi Hm ltac:(lia)). specialize (IH ltac:(lia)). lra.
Qed.
Lemma cdf_le1 i d : in_grid g i -> 0 < marg g P C i -> (d <= cn g k)%nat -> cdf g P k C i (cn g k - d) <= 1.
Proof.
  intros Hi Hm. induction d as [|d IH]; intros Hd.
  - rewrite Nat.sub_0_r, cdf_n by assumption. lra.
  - pose proof (cdf_step i (cn g k - S d) Hi Hm ltac:(lia)) as S.
    replace (Datatypes.S (cn g k - Datatypes.S d)) with (cn g k - d)%nat in S by lia. specialize (IH ltac:(lia)). lra.
Qed.

Lemma Ltrap_disp i : 0 < marg g P C i -> Ltrap g P k C 1 i = Ldisp g P k C i.
Proof.
  intros Hm. unfold Ltrap, trap, Ldisp. cbv zeta. set (F := cdf g P k C i). set (e := cedge g k).
  set (H := fun l => e l * (F l ^ 2 - F l)).
  transitivity (Sum (cn g k) (fun l => wid e l * ((F l + F (S l)) / 2 - F l * F (S l)) + (H (S l) - H l))).
  - apply Sum_ext. intros l Hl. unfold legendre, H, wid. cbn [legendre2 fst].
    field.
  - rewrite Sum_plus, Sum_telescope. unfold H.
    assert (F1 : F (cn g k) = 1) by (apply cdf_n; assumption). assert (F0 : F 0%nat = 0) by reflexivity.
    rewrite F1, F0. ring.
Qed.

Lemma Ldisp_nonneg i : in_grid g i -> 0 < marg g P C i -> 0 <= Ldisp g P k C i.
Proof.
  intros Hi Hm. unfold Ldisp. apply Sum_nonneg. intros n Hn.
  pose proof (cdf_nonneg i n Hi Hm ltac:(lia)) as F0. pose proof (cdf_step i n Hi Hm Hn) as F1.
  pose proof (cdf_le1 i (cn g k - S n) Hi Hm ltac:(lia)) as F2. replace (cn g k - (cn g k - S n))%nat with (S n) in F2 by lia.
  set (a := cdf g P k C i n) in *. set (b := cdf g P k C i (S n)) in *.
  apply Rmult_le_pos.
  - unfold wid. pose proof (gg_tE _ Hg n). pose proof (gg_vE _ Hg n). pose proof (gg_zE _ Hg n).
    destruct k; try discriminate Hk; cbn in *; intuition lra.
  - nra.
Qed.
End Obj.
