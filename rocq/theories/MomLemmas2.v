(** * MomLemmas2: get_mean and get_noncentral_moment compute the moments. *)
From Coq Require Import Reals Lra Lia List Bool Arith ZArith String Ascii.
From Verif Require Import Num NumLemmas Arr ArrLemmas PyStr Cube Base Spec SpecLemmas Repr CubeLemmas
  BaseLemmas CondLemmas DistLemmas Moments MomArr MomSpec MomLemmas Stat.
Import ListNotations.
Local Open Scope R_scope.

Lemma dims_k k g : is_x k = false -> dims (cvar k) g = [cn g k].
Proof. destruct k; intros H; try discriminate; reflexivity. Qed.
Lemma dims_x k g : is_x k = true -> dims (cvar k) g = [nx g; ny g].
Proof. destruct k; intros H; try discriminate; reflexivity. Qed.
Lemma x_cvar k : is_x k = true -> cvar k = cvar Cx1.
Proof. destruct k; intros H; try discriminate; reflexivity. Qed.
Lemma x_disjoint k C : is_x k = true -> disjoint (cvar k) C = true -> has_x C = false.
Proof. destruct k; intros H; try discriminate H; destruct C as [[] [] [] []]; cbn; congruence. Qed.
Lemma vec_shp a n f : vec a n f -> shp a = [n]. Proof. intros [H _]; exact H. Qed.

Section Obj.
Context (o : obj) (g : grid) (P : joint) (lw : bool).
Context (Hc : cube_on (o_cube o) g) (Hg : good_grid g) (HP : nonneg g P).

Section K.
Context (k : coord) (C : vset).
Context (HD : disjoint (cvar k) C = true) (HG : gives o g P lw (cvar k) C).

Lemma mean_ok : o_mean o (dname (cvar k) C) = None ->
  exists m, get_mean o (dname (cvar k) C) lw = Ok m /\ shp m = mdims k C g /\
    forall i, in_grid g i ->
      (0 < marg g P C i -> ent m (mcoords k C i) = Fin (Mean g P k C i)) /\
      (marg g P C i = 0 -> ent m (mcoords k C i) = NaN).
Proof.
  intros HM. unfold get_mean. rewrite HM, part0_dname, len_name by assumption. cbn [py_assert Nat.eqb bind].
  unfold default_mean. rewrite part0_dname, is_tvz_name by assumption.
  destruct HG as (p & E & Hs & He). rewrite E. cbn [bind].
  destruct (is_x k) eqn:Hk; cbn [negb].
  - rewrite (x_cvar k Hk) in *. cbn [name cvar has_t has_v has_x has_z append String.eqb Ascii.eqb Bool.eqb py_assert bind].
    cbn [dims cvar has_t has_v has_x has_z opt app] in Hs.
    assert (HX : has_x C = false) by (apply (x_disjoint Cx1); [reflexivity|assumption]).
    destruct (asum1_is p _ _ _ Hs) as (p1 & E1 & Hp1s & Hp1e). rewrite E1; cbn [bind].
    destruct (asum0_is p _ _ Hs) as (p2 & E2 & Hp2s & Hp2e). rewrite E2; cbn [bind].
    destruct (bop_vT_is nmul (c_x (o_cube o)) p1 _ _ (vec_shp _ _ _ (co_x _ _ Hc)) Hp1s) as (q1 & E3 & Hq1s & Hq1e).
    rewrite E3; cbn [bind].
    destruct (asum_last_is q1 _ _ Hq1s) as (m1 & E4 & Hm1s & Hm1e). rewrite E4; cbn [bind].
    destruct (bop_vT_is nmul (c_y (o_cube o)) p2 _ _ (vec_shp _ _ _ (co_y _ _ Hc)) Hp2s) as (q2 & E5 & Hq2s & Hq2e).
    rewrite E5; cbn [bind].
    destruct (asum_last_is q2 _ _ Hq2s) as (m2 & E6 & Hm2s & Hm2e). rewrite E6; cbn [bind].
    assert (T1 : shp (T m1) = dims C g) by (cbn; rewrite Hm1s; apply rev_involutive).
    assert (T2 : shp (T m2) = dims C g) by (cbn; rewrite Hm2s; apply rev_involutive).
    destruct (stack2_is (T m1) (T m2) NaN _ T1 T2) as (m & E7 & Hms & He0 & He1). rewrite E7.
    exists m. split; [reflexivity|]. split; [destruct k; try discriminate Hk; exact Hms|].
    intros i Hi. assert (HI : inb (coords C i) (dims C g)) by (apply coords_inb; assumption).
    assert (X1 : ent m (0%nat :: coords C i) = nsum (map (fun n => nmul (Fin (mid (xE g) n))
        (nsum (map (fun m => ent p (n :: m :: coords C i)) (seq 0 (ny g))))) (seq 0 (nx g)))).
    { rewrite He0. cbn [T ent]. rewrite Hm1e by (apply inb_rev; exact HI).
      apply nsum_ext. intros n Hn. apply in_seq in Hn. rewrite Hq1e by (lia || assumption).
      rewrite (proj2 (co_x _ _ Hc)) by lia. f_equal. rewrite Hp1e by (constructor; [lia|assumption]). reflexivity. }
    assert (X2 : ent m (1%nat :: coords C i) = nsum (map (fun n => nmul (Fin (mid (yE g) n))
        (nsum (map (fun m => ent p (m :: n :: coords C i)) (seq 0 (nx g))))) (seq 0 (ny g)))).
    { rewrite He1. cbn [T ent]. rewrite Hm2e by (apply inb_rev; exact HI).
      apply nsum_ext. intros n Hn. apply in_seq in Hn. rewrite Hq2e by (lia || assumption).
      rewrite (proj2 (co_y _ _ Hc)) by lia. f_equal. rewrite Hp2e by (constructor; [lia|assumption]). reflexivity. }
    destruct k; try discriminate Hk; cbn [mcoords]; [rewrite X1|rewrite X2]; split; intros Hm.
    + apply (x1_sum g P C p i HX Hi He (mid (xE g)) Hm).
    + apply (x1_sum_nan g P Hg C p i HX Hi He (fun n => Fin (mid (xE g) n)) Hm).
    + apply (x2_sum g P C p i HX Hi He (mid (yE g)) Hm).
    + apply (x2_sum_nan g P Hg C p i HX Hi He (fun n => Fin (mid (yE g) n)) Hm).
  - destruct (values_ok _ _ k Hc Hk) as (v & Ev & Hvs & Hve). rewrite Ev; cbn [bind].
    rewrite dims_k in Hs by assumption. cbn [app] in Hs.
    assert (ET : T v = Arr [cn g k] (fun idx => ent v (rev idx))) by (unfold T; rewrite Hvs; reflexivity).
    rewrite ET.
    destruct (bop_vT_is nmul (Arr [cn g k] (fun idx => ent v (rev idx))) p _ _ eq_refl Hs) as (q & Eq & Hqs & Hqe).
    rewrite Eq; cbn [bind].
    destruct (T_rev_ent q (dims C g) (cn g k) 0%nat [] Hqs) as [HTs _].
    destruct (asum0_is (T q) _ _ HTs) as (m & Em & Hms & Hme). rewrite Em.
    exists m. split; [reflexivity|]. split; [destruct k; try discriminate Hk; exact Hms|].
    intros i Hi. assert (HI : inb (coords C i) (dims C g)) by (apply coords_inb; assumption).
    assert (X : ent m (coords C i) =
      nsum (map (fun n => nmul (Fin (mid (cedge g k) n)) (ent p (n :: coords C i))) (seq 0 (cn g k)))).
    { rewrite Hme by exact HI. apply nsum_ext. intros n Hn. apply in_seq in Hn.
      destruct (T_rev_ent q (dims C g) (cn g k) n (coords C i) Hqs) as [_ ->].
      rewrite Hqe by (lia || assumption). cbn [ent rev app]. rewrite Hve by lia. reflexivity. }
    replace (mcoords k C i) with (coords C i) by (destruct k; try discriminate Hk; reflexivity).
    rewrite X. split; intros Hm.
    + apply (col_sum g P k C p i Hk HD Hi He (mid (cedge g k)) Hm).
    + apply (col_sum_nan g P Hg k C p i Hk HD Hi He (fun n => Fin (mid (cedge g k) n)) Hm).
Qed.

Lemma powers_ok (v mu : arr num) n s j : shp v = [n] -> shp mu = s ->
  exists q, powers v mu j = Ok q /\ shp q = (rev s ++ [n])%list /\
    (forall k r, (k < n)%nat -> inb r s -> ent q (rev r ++ [k])%list = npow (nsub (ent v [k]) (ent mu r)) j).
Proof.
  intros Hv Hm. unfold powers. destruct (sub_mu_is nsub v mu n s Hv Hm) as (mu' & q & E1 & E2 & Hq & He).
  rewrite E1; cbn [bind]. rewrite E2; cbn [bind]. eexists; split; [reflexivity|]. split; [exact Hq|].
  intros a r Ha Hr. cbn. rewrite He by assumption. reflexivity.
Qed.

Lemma moment_ok j mu : o_moment o (dname (cvar k) C) = None -> shp mu = mdims k C g ->
  exists m, get_noncentral_moment o (dname (cvar k) C) j mu lw = Ok m /\ shp m = mdims k C g /\
    forall i, in_grid g i ->
      (forall c, 0 < marg g P C i -> ent mu (mcoords k C i) = Fin c ->
         ent m (mcoords k C i) = Fin (Moment g P k C j c i)) /\
      (marg g P C i = 0 -> ent m (mcoords k C i) = NaN).
Proof.
  intros HM HS. unfold get_noncentral_moment. rewrite HM, part0_dname, len_name by assumption. cbn [py_assert Nat.eqb bind].
  unfold default_moment. rewrite part0_dname, is_tvz_name by assumption.
  destruct HG as (p & E & Hs & He). rewrite E. cbn [bind].
  destruct (is_x k) eqn:Hk; cbn [negb].
  - rewrite (x_cvar k Hk) in *. cbn [name cvar has_t has_v has_x has_z append String.eqb Ascii.eqb Bool.eqb py_assert bind].
    cbn [dims cvar has_t has_v has_x has_z opt app] in Hs.
    assert (HX : has_x C = false) by (apply (x_disjoint Cx1); [reflexivity|assumption]).
    assert (HS2 : shp mu = 2%nat :: dims C g) by (destruct k; try discriminate Hk; exact HS). clear HS.
    destruct (asum1_is p _ _ _ Hs) as (p1 & E1 & Hp1s & Hp1e). rewrite E1; cbn [bind].
    destruct (asum0_is p _ _ Hs) as (p2 & E2 & Hp2s & Hp2e). rewrite E2; cbn [bind].
    rewrite HS2. cbn [Nat.eqb bind].
    destruct (getitem_is' [IInt 0] mu _ _ (dims C g) (self_is mu _ HS2) eq_refl) as (mu1 & M1 & Hmu1s & Hmu1e).
    destruct (getitem_is' [IInt 1] mu _ _ (dims C g) (self_is mu _ HS2) eq_refl) as (mu2 & M2 & Hmu2s & Hmu2e).
    rewrite M1; cbn [bind]. rewrite M2; cbn [bind].
    destruct (powers_ok (c_x (o_cube o)) mu1 _ _ j (vec_shp _ _ _ (co_x _ _ Hc)) Hmu1s) as (q1 & E3 & Hq1s & Hq1e).
    rewrite E3; cbn [bind].
    destruct (powers_ok (c_y (o_cube o)) mu2 _ _ j (vec_shp _ _ _ (co_y _ _ Hc)) Hmu2s) as (q2 & E4 & Hq2s & Hq2e).
    rewrite E4; cbn [bind].
    destruct (T_rev_ent q1 (dims C g) (nx g) 0%nat [] Hq1s) as [HT1 _].
    destruct (T_rev_ent q2 (dims C g) (ny g) 0%nat [] Hq2s) as [HT2 _].
    destruct (bop_same_is nmul (T q1) p1 _ HT1 Hp1s) as (r1 & E5 & Hr1s & Hr1e). rewrite E5; cbn [bind].
    destruct (asum0_is r1 _ _ Hr1s) as (m1 & E6 & Hm1s & Hm1e). rewrite E6; cbn [bind].
    destruct (bop_same_is nmul (T q2) p2 _ HT2 Hp2s) as (r2 & E7 & Hr2s & Hr2e). rewrite E7; cbn [bind].
    destruct (asum0_is r2 _ _ Hr2s) as (m2 & E8 & Hm2s & Hm2e). rewrite E8; cbn [bind].
    destruct (stack2_is m1 m2 NaN _ Hm1s Hm2s) as (m & E9 & Hms & He0 & He1). rewrite E9.
    exists m. split; [reflexivity|]. split; [destruct k; try discriminate Hk; exact Hms|].
    intros i Hi. assert (HI : inb (coords C i) (dims C g)) by (apply coords_inb; assumption).
    assert (X1 : ent m (0%nat :: coords C i) = nsum (map (fun n =>
        nmul (npow (nsub (Fin (mid (xE g) n)) (ent mu (0%nat :: coords C i))) j)
        (nsum (map (fun m => ent p (n :: m :: coords C i)) (seq 0 (ny g))))) (seq 0 (nx g)))).
    { rewrite He0. rewrite Hm1e by exact HI.
      apply nsum_ext. intros n Hn. apply in_seq in Hn.
      assert (inb (n :: coords C i) (nx g :: dims C g)) by (constructor; [lia|assumption]).
      rewrite Hr1e by assumption.
      destruct (T_rev_ent q1 (dims C g) (nx g) n (coords C i) Hq1s) as [_ ->].
      rewrite Hq1e by (lia || assumption). rewrite (proj2 (co_x _ _ Hc)) by lia.
      rewrite Hmu1e by assumption. rewrite Hp1e by assumption. reflexivity. }
    assert (X2 : ent m (1%nat :: coords C i) = nsum (map (fun n =>
        nmul (npow (nsub (Fin (mid (yE g) n)) (ent mu (1%nat :: coords C i))) j)
        (nsum (map (fun m => ent p (m :: n :: coords C i)) (seq 0 (nx g))))) (seq 0 (ny g)))).
    { rewrite He1. rewrite Hm2e by exact HI.
      apply nsum_ext. intros n Hn. apply in_seq in Hn.
      assert (inb (n :: coords C i) (ny g :: dims C g)) by (constructor; [lia|assumption]).
      rewrite Hr2e by assumption.
      destruct (T_rev_ent q2 (dims C g) (ny g) n (coords C i) Hq2s) as [_ ->].
      rewrite Hq2e by (lia || assumption). rewrite (proj2 (co_y _ _ Hc)) by lia.
      rewrite Hmu2e by assumption. rewrite Hp2e by assumption. reflexivity. }
    destruct k; try discriminate Hk; cbn [mcoords]; [rewrite X1|rewrite X2]; split.
    + intros c Hm Hmu. rewrite Hmu.
      etransitivity; [|apply (x1_sum g P C p i HX Hi He (fun n => (mid (xE g) n - c) ^ j) Hm)].
      apply nsum_ext. intros n _. rewrite nsub_Fin, npow_Fin. reflexivity.
    + intros Hm. apply (x1_sum_nan g P Hg C p i HX Hi He _ Hm).
    + intros c Hm Hmu. rewrite Hmu.
      etransitivity; [|apply (x2_sum g P C p i HX Hi He (fun n => (mid (yE g) n - c) ^ j) Hm)].
      apply nsum_ext. intros n _. rewrite nsub_Fin, npow_Fin. reflexivity.
    + intros Hm. apply (x2_sum_nan g P Hg C p i HX Hi He _ Hm).
  - destruct (values_ok _ _ k Hc Hk) as (v & Ev & Hvs & Hve). rewrite Ev; cbn [bind].
    rewrite dims_k in Hs by assumption. cbn [app] in Hs.
    assert (HS2 : shp mu = dims C g) by (destruct k; try discriminate Hk; exact HS). clear HS.
    destruct (powers_ok v mu _ _ j Hvs HS2) as (q & Eq & Hqs & Hqe). rewrite Eq; cbn [bind].
    assert (HpT : shp (T p) = (rev (dims C g) ++ [cn g k])%list) by (cbn; rewrite Hs; reflexivity).
    destruct (bop_same_is nmul q (T p) _ Hqs HpT) as (r & Er & Hrs & Hre). rewrite Er; cbn [bind].
    destruct (T_rev_ent r (dims C g) (cn g k) 0%nat [] Hrs) as [HTs _].
    destruct (asum0_is (T r) _ _ HTs) as (m & Em & Hms & Hme). rewrite Em.
    exists m. split; [reflexivity|]. split; [destruct k; try discriminate Hk; exact Hms|].
    intros i Hi. assert (HI : inb (coords C i) (dims C g)) by (apply coords_inb; assumption).
    assert (X : ent m (coords C i) =
      nsum (map (fun n => nmul (npow (nsub (Fin (mid (cedge g k) n)) (ent mu (coords C i))) j)
                               (ent p (n :: coords C i))) (seq 0 (cn g k)))).
    { rewrite Hme by exact HI. apply nsum_ext. intros n Hn. apply in_seq in Hn.
      destruct (T_rev_ent r (dims C g) (cn g k) n (coords C i) Hrs) as [_ ->].
      rewrite Hre by (apply inb_app; [apply inb_rev; assumption|constructor; [lia|constructor]]).
      rewrite Hqe by (lia || assumption). rewrite Hve by lia. f_equal. cbn [T ent]. rewrite rev_snoc. reflexivity. }
    replace (mcoords k C i) with (coords C i) by (destruct k; try discriminate Hk; reflexivity).
    rewrite X. split.
    + intros c Hm Hmu. rewrite Hmu.
      etransitivity; [|apply (col_sum g P k C p i Hk HD Hi He (fun n => (mid (cedge g k) n - c) ^ j) Hm)].
      apply nsum_ext. intros n _. rewrite nsub_Fin, npow_Fin. reflexivity.
    + intros Hm. apply (col_sum_nan g P Hg k C p i Hk HD Hi He _ Hm).
Qed.
End K.
End Obj.
