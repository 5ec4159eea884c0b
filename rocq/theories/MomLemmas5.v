(** * MomLemmas5: covariance and correlation of an object whose get_p is right. *)
From Coq Require Import Reals Lra Lia List Bool Arith ZArith String Ascii.
From Verif Require Import Num NumLemmas Arr ArrLemmas PyStr Cube Base Spec SpecLemmas Repr CubeLemmas
  BaseLemmas CondLemmas DistLemmas Moments MomArr MomSpec MomLemmas MomLemmas2 MomLemmas3 MomLemmas4 Stat.
Import ListNotations.
Local Open Scope R_scope.

Definition letter (k : coord) : ascii :=
  match k with Ct => "t" | Cv => "v" | Cx1 | Cx2 => "x" | Cz => "z" end%char.
Definition conds (C : vset) : option string := if nonempty C then Some (name C) else None.

Lemma pair_disjoint a b : before a b = true -> disjoint (cvar a) (cvar b) = true.
Proof. destruct a, b; intros H; try discriminate H; reflexivity. Qed.

Lemma pair_parts a b C : before a b = true -> disjoint (union (cvar a) (cvar b)) C = true ->
  dep_parts (dname (union (cvar a) (cvar b)) C) = Ok (name (union (cvar a) (cvar b)), conds C).
Proof. destruct a, b; intros H; try discriminate H; destruct C as [[] [] [] []]; intros H'; try discriminate H'; reflexivity. Qed.
Lemma pair_chars a b : before a b = true -> chars (name (union (cvar a) (cvar b))) = [letter a; letter b].
Proof. destruct a, b; intros H; try discriminate H; reflexivity. Qed.
Lemma one_dist_name a C : one_dist (letter a) (conds C) = dname (cvar a) C.
Proof. unfold conds, dname. destruct a, C as [[] [] [] []]; reflexivity. Qed.
Lemma pair_has_x a b : before a b = true -> has_char "x" (name (union (cvar a) (cvar b))) = (is_x a || is_x b)%bool.
Proof. destruct a, b; intros H; try discriminate H; reflexivity. Qed.
Lemma letter_x a : Ascii.eqb (letter a) "x" = is_x a.
Proof. destruct a; reflexivity. Qed.
Lemma str1_letter a : str1 (letter a) = name (cvar a).
Proof. destruct a; reflexivity. Qed.
Lemma pair_coords a b i : before a b = true ->
  coords (union (cvar a) (cvar b)) i = (coords (cvar a) i ++ coords (cvar b) i)%list.
Proof. destruct a, b; intros H; try discriminate H; reflexivity. Qed.
Lemma pair_dims a b g : before a b = true ->
  dims (union (cvar a) (cvar b)) g = (dims (cvar a) g ++ dims (cvar b) g)%list.
Proof. destruct a, b; intros H; try discriminate H; reflexivity. Qed.

Lemma nsum_seq n (F : nat -> num) (f : nat -> R) : (forall k, (k < n)%nat -> F k = Fin (f k)) ->
  nsum (map F (seq 0 n)) = Fin (Sum n f).
Proof.
  intros H. rewrite (nsum_map_Fin F f); [rewrite sumR_map_seq; reflexivity|].
  intros k Hk. apply in_seq in Hk. apply H; lia.
Qed.
Lemma nsum_seq_nan n (F : nat -> num) : (0 < n)%nat -> F 0%nat = NaN -> nsum (map F (seq 0 n)) = NaN.
Proof. intros Hn H. apply nsum_nan. apply in_map_iff. exists 0%nat. split; [exact H|apply in_seq; lia]. Qed.

Section Cov.
Context (o : obj) (g : grid) (P : joint) (lw : bool).
Context (Hc : cube_on (o_cube o) g) (Hg : good_grid g) (HP : nonneg g P).
Context (a b : coord) (C : vset).
Context (Hab : before a b = true).
Context (HD : disjoint (union (cvar a) (cvar b)) C = true).
Context (HGa : gives o g P lw (cvar a) C) (HGb : gives o g P lw (cvar b) C).
Context (HG : gives o g P lw (union (cvar a) (cvar b)) C).
Context (HMa : o_mean o (dname (cvar a) C) = None) (HMb : o_mean o (dname (cvar b) C) = None).

Lemma HDa : disjoint (cvar a) C = true.
Proof. rewrite disjoint_union_l in HD. apply andb_true_iff in HD. tauto. Qed.
Lemma HDb : disjoint (cvar b) C = true.
Proof. rewrite disjoint_union_l in HD. apply andb_true_iff in HD. tauto. Qed.

(** entries of p *)
Section Ent.
Context (p : arr num) (i : bin) (Hi : in_grid g i).
Context (Hp : forall i, in_grid g i ->
      (0 < marg g P C i ->
       ent p (coords (union (cvar a) (cvar b)) i ++ coords C i) =
         Fin (marg g P (union (union (cvar a) (cvar b)) C) i / marg g P C i)) /\
      (marg g P C i = 0 -> ent p (coords (union (cvar a) (cvar b)) i ++ coords C i) = NaN)).
Lemma ent_at j : in_grid g j -> agree C j i ->
  (0 < marg g P C i -> ent p (coords (cvar a) j ++ coords (cvar b) j ++ coords C i) =
         Fin (marg g P (union (union (cvar a) (cvar b)) C) j / marg g P C i)) /\
  (marg g P C i = 0 -> ent p (coords (cvar a) j ++ coords (cvar b) j ++ coords C i) = NaN).
Proof.
  intros Hj HA. destruct (Hp j Hj) as [H1 H2].
  rewrite pair_coords, <- app_assoc, (coords_agree C j i HA), (marg_agree g P C j i HA) in * by assumption. auto.
Qed.
End Ent.

Lemma agree_trans S i j k : agree S i j -> agree S j k -> agree S i k.
Proof.
  unfold agree. intros (A1 & A2 & A3 & A4) (B1 & B2 & B3 & B4). split; [|split; [|split]]; intros HS.
  - rewrite A1; auto.
  - rewrite A2; auto.
  - destruct (A3 HS), (B3 HS). split; congruence.
  - rewrite A4; auto.
Qed.

(** the covariance about whatever get_mean returns: Q says where its entries are
    the numbers Ra and Rb *)
Lemma covariance_gen (Ra Rb : bin -> R) (Q : bin -> Prop) (ma mb : arr num) :
  (forall i, Q i -> 0 < marg g P C i) ->
  get_mean o (dname (cvar a) C) lw = Ok ma -> shp ma = mdims a C g ->
  (forall i, in_grid g i -> Q i -> ent ma (mcoords a C i) = Fin (Ra i)) ->
  get_mean o (dname (cvar b) C) lw = Ok mb -> shp mb = mdims b C g ->
  (forall i, in_grid g i -> Q i -> ent mb (mcoords b C i) = Fin (Rb i)) ->
  exists m, get_covariance o (dname (union (cvar a) (cvar b)) C) lw = Ok m /\ shp m = mdims (xkey a b) C g /\
    forall i, in_grid g i ->
      (Q i -> ent m (mcoords (xkey a b) C i) =
         Fin (Ex g P (union (cvar a) (cvar b)) C (fun j => (cmid g a j - Ra i) * (cmid g b j - Rb i)) i)) /\
      (marg g P C i = 0 -> ent m (mcoords (xkey a b) C i) = NaN) /\
      (ent ma (mcoords a C i) = NaN -> ent m (mcoords (xkey a b) C i) = NaN).
Proof.
  clear HGa HGb HMa HMb. intros HQ Ema Hmas Hmae Emb Hmbs Hmbe. unfold get_covariance. rewrite pair_parts by assumption. cbn [bind fst snd].
  rewrite pair_chars by assumption. rewrite !one_dist_name, pair_has_x, letter_x by assumption.
  rewrite Ema. cbn [bind].
  destruct HG as (p & Ep & Hps & Hpe).
  rewrite pair_dims, <- app_assoc in Hps by assumption.
  unfold var_values. rewrite !letter_x, !str1_letter.
  destruct (is_x a) eqn:Xa; [|destruct (is_x b) eqn:Xb]; cbn [negb orb bind].
  - (* x first *)
    assert (Xb : is_x b = false) by (destruct a, b; try discriminate Xa; try discriminate Hab; reflexivity).
    rewrite Xb. cbn [negb].
    change (get_variable_values (o_cube o) "x1") with (Ok (c_x (o_cube o))).
    change (get_variable_values (o_cube o) "x2") with (Ok (c_y (o_cube o))). cbn [bind].
    rewrite Emb; cbn [bind].
    destruct (values_ok _ _ b Hc Xb) as (vb & Evb & Hvbs & Hvbe). rewrite Evb; cbn [bind].
    rewrite Ep; cbn [bind fst snd].
    assert (Hmas' : shp ma = 2%nat :: dims C g) by (destruct a; try discriminate Xa; exact Hmas).
    assert (Hmbs' : shp mb = dims C g) by (destruct b; try discriminate Xb; exact Hmbs).
    rewrite (dims_x a), (dims_k b) in Hps by assumption. cbn [app] in Hps.
    destruct (getitem_is' [IInt 0] ma _ _ (dims C g) (self_is ma _ Hmas') eq_refl) as (m1 & M1 & Hm1s & Hm1e).
    destruct (getitem_is' [IInt 1] ma _ _ (dims C g) (self_is ma _ Hmas') eq_refl) as (m2 & M2 & Hm2s & Hm2e).
    rewrite M1; cbn [bind].
    destruct (deltas_is (c_x (o_cube o)) m1 _ _ (vec_shp _ _ _ (co_x _ _ Hc)) Hm1s) as (d1 & D1 & Hd1s & Hd1e).
    rewrite D1; cbn [bind]. rewrite M2; cbn [bind].
    destruct (deltas_is (c_y (o_cube o)) m2 _ _ (vec_shp _ _ _ (co_y _ _ Hc)) Hm2s) as (d2 & D2 & Hd2s & Hd2e).
    rewrite D2; cbn [bind].
    destruct (deltas_is vb mb _ _ Hvbs Hmbs') as (db & Db & Hdbs & Hdbe). rewrite Db; cbn [bind].
    destruct (asum1_is p _ _ _ Hps) as (q1 & Q1 & Hq1s & Hq1e). rewrite Q1; cbn [bind].
    destruct (double_sum_is q1 d1 db _ _ _ Hq1s Hd1s Hdbs) as (c1 & C1 & Hc1s & Hc1e). rewrite C1; cbn [bind].
    destruct (asum0_is p _ _ Hps) as (q2 & Q2 & Hq2s & Hq2e). rewrite Q2; cbn [bind].
    destruct (double_sum_is q2 d2 db _ _ _ Hq2s Hd2s Hdbs) as (c2 & C2 & Hc2s & Hc2e). rewrite C2; cbn [bind].
    destruct (stack2_is c1 c2 NaN _ Hc1s Hc2s) as (m & Em & Hms & He0 & He1). exists m. split; [exact Em|].
    split; [destruct a, b; try discriminate Xa; try discriminate Hab; exact Hms|].
    intros i Hi. assert (HI : inb (coords C i) (dims C g)) by (apply coords_inb; assumption).
    pose proof (gg_x _ Hg) as Gx. pose proof (gg_y _ Hg) as Gy. pose proof (cn_pos g Hg b) as Gb.
    set (xyk n n' k := cset b k (cset Cx2 n' (cset Cx1 n i))).
    assert (Pe : forall n n' k, (n < nx g)%nat -> (n' < ny g)%nat -> (k < cn g b)%nat ->
      (0 < marg g P C i -> ent p (n :: n' :: k :: coords C i) =
         Fin (marg g P (union (union (cvar a) (cvar b)) C) (xyk n n' k) / marg g P C i)) /\
      (marg g P C i = 0 -> ent p (n :: n' :: k :: coords C i) = NaN)).
    { intros n n' k Hn Hn' Hk.
      assert (G1 : in_grid g (xyk n n' k)).
      { apply cset_in; [|assumption]. apply (cset_in _ Cx2); [|assumption]. apply (cset_in _ Cx1); assumption. }
      assert (HDx : forall z, is_x z = true -> disjoint (cvar z) C = true).
      { intros z Hz. pose proof HDa as Z. rewrite (x_cvar a Xa) in Z. rewrite (x_cvar z Hz). exact Z. }
      assert (G2 : agree C (xyk n n' k) i).
      { eapply agree_trans; [apply cset_agree, HDb|]. eapply agree_trans; [apply cset_agree, HDx; reflexivity|].
        apply cset_agree, HDx; reflexivity. }
      pose proof (ent_at p i Hpe _ G1 G2) as [E1 E2].
      replace (coords (cvar a) (xyk n n' k) ++ coords (cvar b) (xyk n n' k) ++ coords C i)%list
        with (n :: n' :: k :: coords C i) in E1, E2
        by (destruct a, b; try discriminate Xa; try discriminate Hab; reflexivity).
      auto. }
    assert (DB : Q i -> forall k, (k < cn g b)%nat ->
      ent db (k :: coords C i) = Fin (mid (cedge g b) k - Rb i)).
    { intros Hm k Hk. rewrite Hdbe by assumption. rewrite Hvbe by assumption.
      pose proof (Hmbe i Hi Hm) as H1.
      replace (mcoords b C i) with (coords C i) in H1 by (destruct b; try discriminate Xb; reflexivity).
      rewrite H1. apply nsub_Fin. }
    assert (DX : Q i -> forall n, (n < cn g a)%nat ->
      ent (match a with Cx1 => d1 | _ => d2 end) (n :: coords C i) = Fin (mid (cedge g a) n - Ra i)).
    { intros Hm n Hn. pose proof (Hmae i Hi Hm) as H1.
      destruct a; try discriminate Xa; cbn [mcoords] in H1; [rewrite Hd1e by assumption|rewrite Hd2e by assumption];
        [rewrite (proj2 (co_x _ _ Hc)) by assumption; rewrite Hm1e by assumption
        |rewrite (proj2 (co_y _ _ Hc)) by assumption; rewrite Hm2e by assumption];
        [change (gi_idx [IInt 0] (2%nat :: dims C g) (coords C i)) with (0%nat :: coords C i)
        |change (gi_idx [IInt 1] (2%nat :: dims C g) (coords C i)) with (1%nat :: coords C i)];
        rewrite H1; apply nsub_Fin. }
    assert (NX : ent ma (mcoords a C i) = NaN -> forall n, (n < cn g a)%nat ->
      ent (match a with Cx1 => d1 | _ => d2 end) (n :: coords C i) = NaN).
    { intros H1 n Hn.
      destruct a; try discriminate Xa; cbn [mcoords] in H1; [rewrite Hd1e by assumption|rewrite Hd2e by assumption];
        [rewrite Hm1e by assumption|rewrite Hm2e by assumption];
        [change (gi_idx [IInt 0] (2%nat :: dims C g) (coords C i)) with (0%nat :: coords C i)
        |change (gi_idx [IInt 1] (2%nat :: dims C g) (coords C i)) with (1%nat :: coords C i)];
        rewrite H1; apply nsub_nan_r. }
    set (w := marg g P (union (union (cvar a) (cvar b)) C)) in *.
    assert (SO : sum_over g (union (cvar a) (cvar b)) i (fun j =>
       (cmid g a j - Ra i) * (cmid g b j - Rb i) * w j) =
       Sum (nx g) (fun n => Sum (ny g) (fun n' => Sum (cn g b) (fun k =>
         (mid (cedge g a) (match a with Cx1 => n | _ => n' end) - Ra i) *
         (mid (cedge g b) k - Rb i) * w (xyk n n' k))))).
    { destruct a, b; try discriminate Xa; try discriminate Hab; reflexivity. }
    destruct a; try discriminate Xa; destruct b; try discriminate Hab; cbn [mcoords xkey is_x] in *;
      [rewrite He0, Hc1e by assumption|rewrite He1, Hc2e by assumption]; (split; [|split]; intros Hm).
    + pose proof (HQ i Hm) as Hp0. unfold Ex. fold w. rewrite SO. unfold Rdiv. rewrite <- Sum_scal_r.
      apply nsum_seq. intros n Hn. rewrite <- Sum_scal_r. rewrite (Sum_ext (ny g) _ (fun n' => Sum (nz g) (fun k =>
         (mid (xE g) n - Ra i) * (mid (zE g) k - Rb i) * w (xyk n n' k) * / marg g P C i)))
        by (intros; rewrite <- Sum_scal_r; reflexivity).
      rewrite Sum_swap. apply nsum_seq. intros k Hk.
      rewrite Hq1e by (repeat constructor; assumption). cbn [hd tl].
      rewrite (nsum_seq (ny g) _ (fun n' => w (xyk n n' k) / marg g P C i)).
      * rewrite DX by assumption. rewrite DB by assumption. rewrite !nmul_Fin. f_equal.
        rewrite <- !Sum_scal_r. apply Sum_ext. intros; unfold Rdiv; cbn; ring.
      * intros n' Hn'. apply Pe; assumption.
    + apply nsum_seq_nan; [assumption|]. apply nsum_seq_nan; [assumption|].
      rewrite Hq1e by (repeat constructor; assumption). cbn [hd tl].
      rewrite nsum_seq_nan; [reflexivity|assumption|]. apply Pe; assumption.
    + apply nsum_seq_nan; [assumption|]. apply nsum_seq_nan; [assumption|]. rewrite NX by assumption. rewrite nmul_nan_r. reflexivity.
    + pose proof (HQ i Hm) as Hp0. unfold Ex. fold w. rewrite SO. rewrite Sum_swap. unfold Rdiv. rewrite <- Sum_scal_r.
      apply nsum_seq. intros n' Hn'. rewrite <- Sum_scal_r. rewrite (Sum_ext (nx g) _ (fun n => Sum (nz g) (fun k =>
         (mid (yE g) n' - Ra i) * (mid (zE g) k - Rb i) * w (xyk n n' k) * / marg g P C i)))
        by (intros; rewrite <- Sum_scal_r; reflexivity).
      rewrite Sum_swap. apply nsum_seq. intros k Hk.
      rewrite Hq2e by (repeat constructor; assumption).
      rewrite (nsum_seq (nx g) _ (fun n => w (xyk n n' k) / marg g P C i)).
      * rewrite DX by assumption. rewrite DB by assumption. rewrite !nmul_Fin. f_equal.
        rewrite <- !Sum_scal_r. apply Sum_ext. intros; unfold Rdiv; cbn; ring.
      * intros n Hn. apply Pe; assumption.
    + apply nsum_seq_nan; [assumption|]. apply nsum_seq_nan; [assumption|].
      rewrite Hq2e by (repeat constructor; assumption).
      rewrite nsum_seq_nan; [reflexivity|assumption|]. apply Pe; assumption.
    + apply nsum_seq_nan; [assumption|]. apply nsum_seq_nan; [assumption|]. rewrite NX by assumption. rewrite nmul_nan_r. reflexivity.
  - (* x second *)
    destruct (values_ok _ _ a Hc Xa) as (va & Eva & Hvas & Hvae). rewrite Eva; cbn [bind].
    rewrite Emb; cbn [bind].
    change (get_variable_values (o_cube o) "x1") with (Ok (c_x (o_cube o))).
    change (get_variable_values (o_cube o) "x2") with (Ok (c_y (o_cube o))). cbn [bind].
    rewrite Ep; cbn [bind fst snd].
    assert (Hmbs' : shp mb = 2%nat :: dims C g) by (destruct b; try discriminate Xb; exact Hmbs).
    assert (Hmas' : shp ma = dims C g) by (destruct a; try discriminate Xa; exact Hmas).
    rewrite (dims_x b), (dims_k a) in Hps by assumption. cbn [app] in Hps.
    destruct (getitem_is' [IInt 0] mb _ _ (dims C g) (self_is mb _ Hmbs') eq_refl) as (m1 & M1 & Hm1s & Hm1e).
    destruct (getitem_is' [IInt 1] mb _ _ (dims C g) (self_is mb _ Hmbs') eq_refl) as (m2 & M2 & Hm2s & Hm2e).
    rewrite M1; cbn [bind].
    destruct (deltas_is (c_x (o_cube o)) m1 _ _ (vec_shp _ _ _ (co_x _ _ Hc)) Hm1s) as (d1 & D1 & Hd1s & Hd1e).
    rewrite D1; cbn [bind]. rewrite M2; cbn [bind].
    destruct (deltas_is (c_y (o_cube o)) m2 _ _ (vec_shp _ _ _ (co_y _ _ Hc)) Hm2s) as (d2 & D2 & Hd2s & Hd2e).
    rewrite D2; cbn [bind].
    destruct (deltas_is va ma _ _ Hvas Hmas') as (da & Da & Hdas & Hdae). rewrite Da; cbn [bind].
    destruct (asum2_is p _ _ _ _ Hps) as (q1 & Q1 & Hq1s & Hq1e). rewrite Q1; cbn [bind].
    destruct (double_sum'_is q1 d1 da _ _ _ Hq1s Hdas Hd1s) as (c1 & C1 & Hc1s & Hc1e). rewrite C1; cbn [bind].
    destruct (asum1_is p _ _ _ Hps) as (q2 & Q2 & Hq2s & Hq2e). rewrite Q2; cbn [bind].
    destruct (double_sum'_is q2 d2 da _ _ _ Hq2s Hdas Hd2s) as (c2 & C2 & Hc2s & Hc2e). rewrite C2; cbn [bind].
    destruct (stack2_is c1 c2 NaN _ Hc1s Hc2s) as (m & Em & Hms & He0 & He1). exists m. split; [exact Em|].
    assert (XK : xkey a b = b) by (destruct a; try discriminate Xa; reflexivity). rewrite XK.
    split; [destruct b; try discriminate Xb; exact Hms|].
    intros i Hi. assert (HI : inb (coords C i) (dims C g)) by (apply coords_inb; assumption).
    pose proof (gg_x _ Hg) as Gx. pose proof (gg_y _ Hg) as Gy. pose proof (cn_pos g Hg a) as Ga.
    set (xyk k n n' := cset a k (cset Cx2 n' (cset Cx1 n i))).
    assert (Pe : forall k n n', (k < cn g a)%nat -> (n < nx g)%nat -> (n' < ny g)%nat -> 
      (0 < marg g P C i -> ent p (k :: n :: n' :: coords C i) =
         Fin (marg g P (union (union (cvar a) (cvar b)) C) (xyk k n n') / marg g P C i)) /\
      (marg g P C i = 0 -> ent p (k :: n :: n' :: coords C i) = NaN)).
    { intros k n n' Hk Hn Hn'.
      assert (G1 : in_grid g (xyk k n n')).
      { apply cset_in; [|assumption]. apply (cset_in _ Cx2); [|assumption]. apply (cset_in _ Cx1); assumption. }
      assert (HDx : forall z, is_x z = true -> disjoint (cvar z) C = true).
      { intros z Hz. pose proof HDb as Z. rewrite (x_cvar b Xb) in Z. rewrite (x_cvar z Hz). exact Z. }
      assert (G2 : agree C (xyk k n n') i).
      { eapply agree_trans; [apply cset_agree, HDa|]. eapply agree_trans; [apply cset_agree, HDx; reflexivity|].
        apply cset_agree, HDx; reflexivity. }
      pose proof (ent_at p i Hpe _ G1 G2) as [E1 E2].
      replace (coords (cvar a) (xyk k n n') ++ coords (cvar b) (xyk k n n') ++ coords C i)%list
        with (k :: n :: n' :: coords C i) in E1, E2
        by (destruct b; try discriminate Xb; destruct a; try discriminate Hab; reflexivity).
      auto. }
    assert (DA : Q i -> forall k, (k < cn g a)%nat ->
      ent da (k :: coords C i) = Fin (mid (cedge g a) k - Ra i)).
    { intros Hm k Hk. rewrite Hdae by assumption. rewrite Hvae by assumption.
      pose proof (Hmae i Hi Hm) as H1.
      replace (mcoords a C i) with (coords C i) in H1 by (destruct a; try discriminate Xa; reflexivity).
      rewrite H1. apply nsub_Fin. }
    assert (DX : Q i -> forall n, (n < cn g b)%nat ->
      ent (match b with Cx1 => d1 | _ => d2 end) (n :: coords C i) = Fin (mid (cedge g b) n - Rb i)).
    { intros Hm n Hn. pose proof (Hmbe i Hi Hm) as H1.
      destruct b; try discriminate Xb; cbn [mcoords] in H1; [rewrite Hd1e by assumption|rewrite Hd2e by assumption];
        [rewrite (proj2 (co_x _ _ Hc)) by assumption; rewrite Hm1e by assumption
        |rewrite (proj2 (co_y _ _ Hc)) by assumption; rewrite Hm2e by assumption];
        [change (gi_idx [IInt 0] (2%nat :: dims C g) (coords C i)) with (0%nat :: coords C i)
        |change (gi_idx [IInt 1] (2%nat :: dims C g) (coords C i)) with (1%nat :: coords C i)];
        rewrite H1; apply nsub_Fin. }
    assert (NA : ent ma (mcoords a C i) = NaN -> forall k, (k < cn g a)%nat -> ent da (k :: coords C i) = NaN).
    { intros H1 k Hk. rewrite Hdae by assumption.
      replace (mcoords a C i) with (coords C i) in H1 by (destruct a; try discriminate Xa; reflexivity).
      rewrite H1. apply nsub_nan_r. }
    set (w := marg g P (union (union (cvar a) (cvar b)) C)) in *.
    assert (SO : sum_over g (union (cvar a) (cvar b)) i (fun j =>
       (cmid g a j - Ra i) * (cmid g b j - Rb i) * w j) =
       Sum (cn g a) (fun k => Sum (nx g) (fun n => Sum (ny g) (fun n' => 
         (mid (cedge g a) k - Ra i) * 
         (mid (cedge g b) (match b with Cx1 => n | _ => n' end) - Rb i) * w (xyk k n n'))))).
    { destruct b; try discriminate Xb; destruct a; try discriminate Hab; reflexivity. }
    destruct b; try discriminate Xb; cbn [mcoords is_x cn cedge] in *;
      [rewrite He0, Hc1e by assumption|rewrite He1, Hc2e by assumption]; (split; [|split]; intros Hm).
    + pose proof (HQ i Hm) as Hp0. unfold Ex. fold w. rewrite SO. unfold Rdiv. rewrite <- Sum_scal_r.
      apply nsum_seq. intros k Hk. rewrite <- Sum_scal_r. apply nsum_seq. intros n Hn.
      rewrite Hq1e by (repeat constructor; assumption). cbn [hd tl].
      rewrite (nsum_seq (ny g) _ (fun n' => w (xyk k n n') / marg g P C i)).
      * rewrite DX by assumption. rewrite DA by assumption. rewrite !nmul_Fin. f_equal.
        rewrite <- !Sum_scal_r. apply Sum_ext. intros; unfold Rdiv; cbn; ring.
      * intros n' Hn'. apply Pe; assumption.
    + apply nsum_seq_nan; [assumption|]. apply nsum_seq_nan; [assumption|].
      rewrite Hq1e by (repeat constructor; assumption). cbn [hd tl].
      rewrite nsum_seq_nan; [reflexivity|assumption|]. apply Pe; assumption.
    + apply nsum_seq_nan; [assumption|]. apply nsum_seq_nan; [assumption|]. rewrite NA by assumption. apply nmul_nan_r.
    + pose proof (HQ i Hm) as Hp0. unfold Ex. fold w. rewrite SO. unfold Rdiv. rewrite <- Sum_scal_r.
      apply nsum_seq. intros k Hk. rewrite Sum_swap, <- Sum_scal_r. apply nsum_seq. intros n' Hn'.
      rewrite Hq2e by (repeat constructor; assumption). cbn [hd tl].
      rewrite (nsum_seq (nx g) _ (fun n => w (xyk k n n') / marg g P C i)).
      * rewrite DX by assumption. rewrite DA by assumption. rewrite !nmul_Fin. f_equal.
        rewrite <- !Sum_scal_r. apply Sum_ext. intros; unfold Rdiv; cbn; ring.
      * intros n Hn. apply Pe; assumption.
    + apply nsum_seq_nan; [assumption|]. apply nsum_seq_nan; [assumption|].
      rewrite Hq2e by (repeat constructor; assumption). cbn [hd tl].
      rewrite nsum_seq_nan; [reflexivity|assumption|]. apply Pe; assumption.
    + apply nsum_seq_nan; [assumption|]. apply nsum_seq_nan; [assumption|]. rewrite NA by assumption. apply nmul_nan_r.
  - (* no x *)
    destruct (values_ok _ _ a Hc Xa) as (va & Eva & Hvas & Hvae). rewrite Eva; cbn [bind].
    rewrite Emb; cbn [bind].
    destruct (values_ok _ _ b Hc Xb) as (vb & Evb & Hvbs & Hvbe). rewrite Evb; cbn [bind].
    rewrite Ep; cbn [bind fst snd].
    assert (Hmbs' : shp mb = dims C g) by (destruct b; try discriminate Xb; exact Hmbs).
    assert (Hmas' : shp ma = dims C g) by (destruct a; try discriminate Xa; exact Hmas).
    rewrite (dims_k b), (dims_k a) in Hps by assumption. cbn [app] in Hps.
    destruct (deltas_is va ma _ _ Hvas Hmas') as (da & Da & Hdas & Hdae). rewrite Da; cbn [bind].
    destruct (deltas_is vb mb _ _ Hvbs Hmbs') as (db & Db & Hdbs & Hdbe). rewrite Db; cbn [bind].
    destruct (double_sum_is p da db _ _ _ Hps Hdas Hdbs) as (m & Em & Hms & Hme). exists m. split; [exact Em|].
    assert (XK : xkey a b = b) by (destruct a; try discriminate Xa; reflexivity). rewrite XK.
    split; [destruct b; try discriminate Xb; exact Hms|].
    intros i Hi. assert (HI : inb (coords C i) (dims C g)) by (apply coords_inb; assumption).
    replace (mcoords b C i) with (coords C i) by (destruct b; try discriminate Xb; reflexivity).
    pose proof (cn_pos g Hg a) as Ga. pose proof (cn_pos g Hg b) as Gb.
    set (kl k l := cset b l (cset a k i)).
    assert (Pe : forall k l, (k < cn g a)%nat -> (l < cn g b)%nat -> 
      (0 < marg g P C i -> ent p (k :: l :: coords C i) =
         Fin (marg g P (union (union (cvar a) (cvar b)) C) (kl k l) / marg g P C i)) /\
      (marg g P C i = 0 -> ent p (k :: l :: coords C i) = NaN)).
    { intros k l Hk Hl.
      assert (G1 : in_grid g (kl k l)) by (apply cset_in; [apply cset_in|]; assumption).
      assert (G2 : agree C (kl k l) i).
      { eapply agree_trans; [apply cset_agree, HDb|]. apply cset_agree, HDa. }
      pose proof (ent_at p i Hpe _ G1 G2) as [E1 E2].
      replace (coords (cvar a) (kl k l) ++ coords (cvar b) (kl k l) ++ coords C i)%list
        with (k :: l :: coords C i) in E1, E2
        by (destruct a, b; try discriminate Xb; try discriminate Xa; try discriminate Hab; reflexivity).
      auto. }
    assert (DA : Q i -> forall k, (k < cn g a)%nat ->
      ent da (k :: coords C i) = Fin (mid (cedge g a) k - Ra i)).
    { intros Hm k Hk. rewrite Hdae by assumption. rewrite Hvae by assumption.
      pose proof (Hmae i Hi Hm) as H1.
      replace (mcoords a C i) with (coords C i) in H1 by (destruct a; try discriminate Xa; reflexivity).
      rewrite H1. apply nsub_Fin. }
    assert (DB : Q i -> forall k, (k < cn g b)%nat ->
      ent db (k :: coords C i) = Fin (mid (cedge g b) k - Rb i)).
    { intros Hm k Hk. rewrite Hdbe by assumption. rewrite Hvbe by assumption.
      pose proof (Hmbe i Hi Hm) as H1.
      replace (mcoords b C i) with (coords C i) in H1 by (destruct b; try discriminate Xb; reflexivity).
      rewrite H1. apply nsub_Fin. }
    assert (NA : ent ma (mcoords a C i) = NaN -> forall k, (k < cn g a)%nat -> ent da (k :: coords C i) = NaN).
    { intros H1 k Hk. rewrite Hdae by assumption.
      replace (mcoords a C i) with (coords C i) in H1 by (destruct a; try discriminate Xa; reflexivity).
      rewrite H1. apply nsub_nan_r. }
    set (w := marg g P (union (union (cvar a) (cvar b)) C)) in *.
    assert (SO : sum_over g (union (cvar a) (cvar b)) i (fun j =>
       (cmid g a j - Ra i) * (cmid g b j - Rb i) * w j) =
       Sum (cn g a) (fun k => Sum (cn g b) (fun l => 
         (mid (cedge g a) k - Ra i) * (mid (cedge g b) l - Rb i) * w (kl k l)))).
    { destruct a, b; try discriminate Xb; try discriminate Xa; try discriminate Hab; reflexivity. }
    rewrite Hme by assumption. split; [|split]; intros Hm.
    + pose proof (HQ i Hm) as Hp0. unfold Ex. fold w. rewrite SO. unfold Rdiv. rewrite <- Sum_scal_r.
      apply nsum_seq. intros k Hk. rewrite <- Sum_scal_r. apply nsum_seq. intros l Hl.
      rewrite (proj1 (Pe k l Hk Hl) Hp0). rewrite DA, DB by assumption. rewrite !nmul_Fin. f_equal. unfold Rdiv. ring.
    + apply nsum_seq_nan; [assumption|]. apply nsum_seq_nan; [assumption|].
      rewrite (proj2 (Pe 0%nat 0%nat Ga Gb) Hm). reflexivity.
    + apply nsum_seq_nan; [assumption|]. apply nsum_seq_nan; [assumption|]. rewrite NA by assumption. rewrite nmul_nan_r. reflexivity.
Qed.

Lemma covariance_ok :
  exists m, get_covariance o (dname (union (cvar a) (cvar b)) C) lw = Ok m /\ shp m = mdims (xkey a b) C g /\
    forall i, in_grid g i ->
      (0 < marg g P C i -> ent m (mcoords (xkey a b) C i) = Fin (Covar g P a b C i)) /\
      (marg g P C i = 0 -> ent m (mcoords (xkey a b) C i) = NaN).
Proof.
  destruct (mean_ok o g P lw Hc Hg a C HDa HGa HMa) as (ma & Ema & Hmas & Hmae).
  destruct (mean_ok o g P lw Hc Hg b C HDb HGb HMb) as (mb & Emb & Hmbs & Hmbe).
  destruct (covariance_gen (Mean g P a C) (Mean g P b C) (fun i => 0 < marg g P C i) ma mb) as (m & Em & Hms & Hme);
    try assumption; try (intros i Hi; apply Hmae || apply Hmbe; assumption); [auto|].
  exists m. split; [exact Em|]. split; [exact Hms|]. intros i Hi. destruct (Hme i Hi) as (H1 & H2 & _).
  split; assumption.
Qed.
End Cov.
