(** * ParMomLemmas: velocity moments of a parametric component. *)
From Coq Require Import Reals Lra Lia List Bool Arith ZArith String Ascii.
From Verif Require Import Num NumLemmas Arr ArrLemmas PyStr StrLemmas Cube Base Spec SpecLemmas Repr CubeLemmas CondLemmas DiskLemmas
  DistLemmas StringClaims Moments MomArr MomSpec MomLemmas MomLemmas2 MomLemmas5 Parametric ParSpec ParRepr ParLemmas ParDist ParClaims ParMoments
  GaussSpec GaussLemmas ParMomSpec ParMomMath ParMomArr.
Import ListNotations.
Local Open Scope R_scope.

Section Mom.
Context (L : stats_lib) (self : par) (g : grid) (m : par_model) (q : R) (lw : bool).
Context (H : par_on L self g m) (Hg : good_grid g) (Hm : good_par g m) (Hl : par_lw_ok g m lw false).
Let o := par_obj L (Fin q) self.

Definition gsum (C : vset) (i : bin) (c : R) (j : nat) : R :=
  over_rest g m lw C i (fun t x y => gval q (pm_mu m t x y - c) (pm_sig m t x y) j).

(** conditionals for which a stored array is used also where there is no mass *)
Definition stored (C : vset) : bool := (has_t C && has_x C || has_t C && negb (has_z C) && negb lw)%bool.

Definition mom_at (C : vset) (j : nat) (ctr : bin -> num) (a : arr num) : Prop :=
  shp a = dims C g /\ forall i, in_grid g i ->
    (0 < par_prob g m lw C i -> (nonempty C = false -> par_prob g m lw C i = 1) ->
      forall c, ctr i = Fin c -> ent a (coords C i) = Fin (gsum C i c j)) /\
    (nonempty C = true -> par_prob g m lw C i = 0 -> stored C = false -> ent a (coords C i) = NaN).

Lemma z_shape : shp (delta_z (c_ssps (pa_cube self))) = [nz g].
Proof. apply (proj1 (so_dz _ _ (co_ssps _ _ (po_cube _ _ _ _ H)))). Qed.

Lemma gsum_full C i c j : has_t C = true -> has_x C = true -> 0 < par_prob g m lw C i ->
  gsum C i c j = gval q (pm_mu m (bt i) (bx i) (by_ i) - c) (pm_sig m (bt i) (bx i) (by_ i)) j.
Proof.
  intros Et Ex Hp. unfold gsum, over_rest, sum_over, rest, weight. rewrite Et, Ex. cbn -[par_prob].
  replace (union (rest C) C) with C by (destruct C as [[] [] [] []]; try discriminate Et; try discriminate Ex; reflexivity).
  destruct i as [t v x y z]. cbn [bt bv bx by_ bz]. field. apply Rgt_not_eq. exact Hp.
Qed.

Lemma moment_tx j mu : shp mu = [nt g; nx g; ny g] ->
  exists a, noncentral_v_tx (Fin q) self j mu lw = Ok a /\ mom_at (VSet true false true false) j (fun i => ent mu [bt i; bx i; by_ i]) a.
Proof.
  intros Hmu. destruct (po_mu _ _ _ _ H) as (mv & Emv & Smv & Hmv). destruct (po_sig _ _ _ _ H) as (sg & Esg & Ssg & Hsg).
  unfold noncentral_v_tx. destruct (vol_ok _ g (po_cube _ _ _ _ H) Hg (VSet true false true false) eq_refl) as (dtx & Ed & Hd).
  change (name _) with "tx"%string in Ed. rewrite Ed. cbn [bind]. rewrite (proj1 Hd).
  change (dims _ (pt g)) with [nt g; 1; 1]%nat.
  destruct (bop_same_is nsub mv mu _ Smv Hmu) as (del & Edel & Sdel & Hdel).
  destruct (moment_v3 (Fin q) self mv sg _ _ _ _ _ Emv (self_is mv _ Smv) Esg (self_is sg _ Ssg) j mu del _ _ _ 1%nat 1%nat [] [] Edel
    (self_is del _ Sdel) (full_is (Fin 1) [nt g; 1; 1]%nat) ltac:(auto) ltac:(left; auto)) as (r & Er & Hr).
  exists r. split; [exact Er|]. split; [exact (proj1 Hr)|]. intros i Hi. pose proof Hi as (Ht & Hv & Hx & Hy & Hz).
  split; [|intros _ _ E; discriminate E]. intros Hp _ c Hc. cbn [coords].
  rewrite (proj2 Hr) by (cbn; inbs). cbn.
  rewrite (msum_fin q j _ _ _ _ (fun _ => pm_mu m (bt i) (bx i) (by_ i) - c) (fun _ => pm_sig m (bt i) (bx i) (by_ i)) (fun _ => 1)).
  - f_equal. rewrite sum_all_idx_nil. unfold gsum, over_rest, weight, sum_over. cbn -[par_prob]. f_equal.
    destruct i as [t v x y z]; cbn [bt bv bx by_ bz]. change (union (rest _) _) with (VSet true false true false). field. apply Rgt_not_eq. exact Hp.
  - intros sub _. rewrite Hdel by inbs. rewrite Hmv, Hsg, Hc by assumption. auto.
Qed.

Lemma moment_x j mu : shp mu = [nx g; ny g] ->
  exists a, noncentral_v_x L (Fin q) self j mu lw = Ok a /\ mom_at (VSet false false true false) j (fun i => ent mu [bx i; by_ i]) a.
Proof.
  intros Hmu. destruct (po_mu _ _ _ _ H) as (mv & Emv & Smv & Hmv). destruct (po_sig _ _ _ _ H) as (sg & Esg & Ssg & Hsg).
  unfold noncentral_v_x.
  destruct (par_p_cond L self g m H Hg Hm (VSet true false false false) (VSet false false true false) false lw
    eq_refl eq_refl eq_refl Hl ltac:(destruct lw; reflexivity)) as (P & EP & SP & HP).
  change (cname _ _) with "t_x"%string in EP. rewrite EP. cbn [bind].
  pose proof (self_is mv _ Smv) as Amv. pose proof (self_is mu _ Hmu) as Amu.
  assert (Hdel : exists del, bop nsub mv mu = Ok del /\ arr_is del [nt g; nx g; ny g] (fun idx => nsub (ent mv idx) (ent mu (tl idx)))).
  { s_bop. eexists; split; [reflexivity|]. eapply arr_is_ext; [exact Hr|]. at_idx. reflexivity. }
  destruct Hdel as (del & Edel & Hdel).
  destruct (moment_v3 (Fin q) self mv sg _ _ _ _ _ Emv Amv Esg (self_is sg _ Ssg) j mu del P _ _ _ _ [0]%Z [0]%nat Edel
    Hdel (self_is P _ SP) ltac:(auto) ltac:(right; left; auto)) as (r & Er & Hr).
  exists r. split; [exact Er|]. split; [exact (proj1 Hr)|]. intros i Hi. pose proof Hi as (Ht & Hv & Hx & Hy & Hz).
  cbn [coords opt has_t has_v has_x has_z app] in *.
  rewrite (proj2 Hr) by (cbn; inbs). cbn -[msum]. split.
  - intros Hp _ c Hc.
    rewrite (msum_fin q j _ _ _ _ (fun sub => pm_mu m (nth 0 sub 0%nat) (bx i) (by_ i) - c) (fun sub => pm_sig m (nth 0 sub 0%nat) (bx i) (by_ i))
      (fun sub => weight g m lw (VSet false false true false) i (Bin (nth 0 sub 0%nat) (bv i) (bx i) (by_ i) (bz i)))).
    + f_equal. rewrite sum_idx1. reflexivity.
    + intros sub Hsub. apply in_all_idx in Hsub. inb_inv. cbn. rewrite Hmv, Hsg, Hc, nsub_Fin by assumption. pk.
      assert (Hb : in_grid g (Bin i0 (bv i) (bx i) (by_ i) (bz i))) by (repeat split; assumption).
      destruct (HP _ Hb) as [HP1 _]. cbn in HP1. rewrite HP1 by exact Hp. unfold weight, Rdiv. rewrite Rinv_1, Rmult_1_r. auto.
  - intros _ Hp _. apply msum_nan. exists [0%nat]. split; [apply in_all_idx; constructor; [apply (gg_t _ Hg)|constructor]|]. cbn. pk.
    assert (Hb : in_grid g (Bin 0 (bv i) (bx i) (by_ i) (bz i))) by (repeat split; try assumption; apply (gg_t _ Hg)).
    destruct (HP _ Hb) as [_ HP2]. cbn in HP2. rewrite HP2 by (exact Hp || reflexivity). reflexivity.
Qed.
Lemma moment_t j mu : shp mu = [nt g] ->
  exists a, noncentral_v_t L (Fin q) self j mu lw = Ok a /\ mom_at (VSet true false false false) j (fun i => ent mu [bt i]) a.
Proof.
  intros Hmu. destruct (po_mu _ _ _ _ H) as (mv & Emv & Smv & Hmv). destruct (po_sig _ _ _ _ H) as (sg & Esg & Ssg & Hsg).
  unfold noncentral_v_t.
  destruct (par_p_cond L self g m H Hg Hm (VSet false false true false) (VSet true false false false) false lw
    eq_refl eq_refl eq_refl Hl ltac:(destruct lw; reflexivity)) as (P & EP & SP & HP).
  change (cname _ _) with "x_t"%string in EP. rewrite EP. cbn [bind]. cbn [dims opt has_t has_v has_x has_z app] in SP.
  pose proof (self_is mv _ Smv) as Amv. pose proof (self_is mu _ Hmu) as Amu. pose proof (self_is P _ SP) as AP.
  s_mov. s_get.
  assert (Hdel : exists del, bop nsub mv r0 = Ok del /\ arr_is del [nt g; nx g; ny g] (fun idx => nsub (ent mv idx) (ent mu [hd 0%nat idx]))).
  { s_bop. eexists; split; [reflexivity|]. eapply arr_is_ext; [eassumption|]. at_idx. reflexivity. }
  destruct Hdel as (del & Edel & Hdel).
  destruct (moment_v3 (Fin q) self mv sg _ _ _ _ _ Emv Amv Esg (self_is sg _ Ssg) j r0 del r _ _ _ _ [1; 2]%Z [1; 2]%nat Edel
    Hdel Hr ltac:(auto) ltac:(right; right; left; auto)) as (a & Ea & Ha).
  exists a. split; [exact Ea|]. split; [exact (proj1 Ha)|]. intros i Hi. pose proof Hi as (Ht & Hv & Hx & Hy & Hz).
  cbn [coords opt has_t has_v has_x has_z app] in *.
  rewrite (proj2 Ha) by (cbn; inbs). cbn -[msum]. split.
  - intros Hp _ c Hc.
    rewrite (msum_fin q j _ _ _ _ (fun sub => pm_mu m (bt i) (nth 0 sub 0%nat) (nth 1 sub 0%nat) - c)
      (fun sub => pm_sig m (bt i) (nth 0 sub 0%nat) (nth 1 sub 0%nat))
      (fun sub => weight g m lw (VSet true false false false) i (Bin (bt i) (bv i) (nth 0 sub 0%nat) (nth 1 sub 0%nat) (bz i)))).
    + f_equal. rewrite sum_idx2. reflexivity.
    + intros sub Hsub. apply in_all_idx in Hsub. inb_inv. cbn. rewrite Hmv, Hsg, Hc, nsub_Fin by assumption. pk.
      assert (Hb : in_grid g (Bin (bt i) (bv i) i0 i1 (bz i))) by (repeat split; assumption).
      destruct (HP _ Hb) as [HP1 _]. cbn in HP1. rewrite HP1 by exact Hp. unfold weight, Rdiv. rewrite Rinv_1, Rmult_1_r. auto.
  - intros _ Hp Hst. apply msum_nan. exists [0; 0]%nat. pose proof (gg_x _ Hg). pose proof (gg_y _ Hg).
    split; [apply in_all_idx; cbn; inbs|]. cbn. pk.
    assert (Hb : in_grid g (Bin (bt i) (bv i) 0 0 (bz i))) by (repeat split; assumption).
    destruct (HP _ Hb) as [_ HP2]. cbn in HP2. rewrite HP2; [reflexivity|exact Hp|].
    cbn in Hst |- *. exact Hst.
Qed.

Lemma moment_0 j mu : shp mu = [] ->
  exists a, noncentral_v L (Fin q) self j mu lw = Ok a /\ mom_at no_vars j (fun i => ent mu []) a.
Proof.
  intros Hmu. destruct (po_mu _ _ _ _ H) as (mv & Emv & Smv & Hmv). destruct (po_sig _ _ _ _ H) as (sg & Esg & Ssg & Hsg).
  unfold noncentral_v.
  destruct (par_p_marg L self g m H Hg Hm (VSet true false true false) false lw eq_refl Hl) as (P & EP & SP & HP).
  change (name _) with "tx"%string in EP. rewrite EP. cbn [bind]. cbn [dims opt has_t has_v has_x has_z app] in SP.
  pose proof (self_is mv _ Smv) as Amv. pose proof (self_is mu _ Hmu) as Amu. pose proof (self_is P _ SP) as AP.
  assert (Hdel : exists del, bop nsub mv mu = Ok del /\ arr_is del [nt g; nx g; ny g] (fun idx => nsub (ent mv idx) (ent mu []))).
  { s_bop. eexists; split; [reflexivity|]. eapply arr_is_ext; [eassumption|]. at_idx. reflexivity. }
  destruct Hdel as (del & Edel & Hdel).
  destruct (moment_v3 (Fin q) self mv sg _ _ _ _ _ Emv Amv Esg (self_is sg _ Ssg) j mu del P _ _ _ _ [0; 1; 2]%Z [0; 1; 2]%nat Edel
    Hdel AP ltac:(auto) ltac:(right; right; right; auto)) as (a & Ea & Ha).
  exists a. split; [exact Ea|]. split; [exact (proj1 Ha)|]. intros i Hi. pose proof Hi as (Ht & Hv & Hx & Hy & Hz).
  cbn [coords opt has_t has_v has_x has_z app no_vars] in *.
  rewrite (proj2 Ha) by (cbn; inbs). cbn -[msum]. split; [|discriminate].
  intros Hp H1 c Hc. specialize (H1 eq_refl).
  rewrite (msum_fin q j _ _ _ _ (fun sub => pm_mu m (nth 0 sub 0%nat) (nth 1 sub 0%nat) (nth 2 sub 0%nat) - c)
      (fun sub => pm_sig m (nth 0 sub 0%nat) (nth 1 sub 0%nat) (nth 2 sub 0%nat))
      (fun sub => weight g m lw no_vars i (Bin (nth 0 sub 0%nat) (bv i) (nth 1 sub 0%nat) (nth 2 sub 0%nat) (bz i)))).
  - f_equal. rewrite sum_idx3. reflexivity.
  - intros sub Hsub. apply in_all_idx in Hsub. inb_inv. cbn. rewrite Hmv, Hsg, Hc, nsub_Fin by assumption. pk.
    assert (Hb : in_grid g (Bin i0 (bv i) i1 i2 (bz i))) by (repeat split; assumption).
    specialize (HP _ Hb). cbn in HP. rewrite HP. unfold weight, pent. rewrite H1. auto.
Qed.

Lemma moment_txz j mu : shp mu = [nt g; nx g; ny g; nz g] ->
  exists a, noncentral_v_txz (Fin q) self j mu lw = Ok a /\ mom_at V_txz j (fun i => ent mu [bt i; bx i; by_ i; 0%nat]) a.
Proof.
  intros Hmu. unfold noncentral_v_txz. pose proof (self_is mu _ Hmu) as Amu.
  assert (Hmu0 : exists mu0, getitem [IAll; IAll; IAll; IInt 0] mu = Ok mu0 /\
    arr_is mu0 [nt g; nx g; ny g] (fun idx => ent mu (idx ++ [0%nat])%list)).
  { destruct (getitem_is' [IAll; IAll; IAll; IInt 0] mu _ _ [nt g; nx g; ny g] Amu) as (r & E & Hr).
    - pose proof (gg_z _ Hg) as Z. cbn. destruct (nz g); [lia|reflexivity].
    - exists r; split; [exact E|]. eapply arr_is_ext; [exact Hr|]. at_idx. cbn. reflexivity. }
  destruct Hmu0 as (mu0 & E0 & Hmu0). rewrite E0. cbn [bind].
  destruct (moment_tx j mu0 (proj1 Hmu0)) as (a & Ea & Sa & Ha). rewrite Ea. cbn [bind].
  destruct (add_z_is self _ _ _ _ z_shape a _ (self_is a _ Sa)) as (b & Eb & Hb).
  exists b. split; [exact Eb|]. split; [exact (proj1 Hb)|]. intros i Hi. pose proof Hi as (Ht & Hv & Hx & Hy & Hz).
  split; [|intros _ _ E; discriminate E]. intros Hp _ c Hc. cbn [coords V_txz opt has_t has_v has_x has_z app] in *.
  rewrite (proj2 Hb) by inbs. cbn [firstn].
  assert (Hp' : 0 < par_prob g m lw (VSet true false true false) i).
  { destruct (par_prob_ge0 g m Hg Hm lw (VSet true false true false) i Hl Hi) as [?|E]; [assumption|].
    pose proof (par_prob_zero g m Hg Hm lw (VSet false false false true) (VSet true false true false) i Hl Hi (eq_sym E)) as Z.
    change (union _ _) with V_txz in Z. lra. }
  destruct (Ha i Hi) as [Ha1 _]. rewrite (Ha1 Hp' ltac:(discriminate) c).
  - f_equal. rewrite !gsum_full by (assumption || reflexivity). reflexivity.
  - rewrite (proj2 Hmu0) by inbs. exact Hc.
Qed.

Ltac start4 mu :=
  let Hmu := fresh "Hmu" in intros Hmu; destruct (po_mu _ _ _ _ H) as (mv & Emv & Smv & Hmv); destruct (po_sig _ _ _ _ H) as (sg & Esg & Ssg & Hsg);
  pose proof (self_is mv _ Smv) as Amv; pose proof (self_is mu _ Hmu) as Amu;
  destruct (mean_v_txz_is self mv _ _ _ _ Emv Amv _ z_shape) as (E4 & EE4 & HE4).

Lemma moment_tz j mu : shp mu = [nt g; nz g] ->
  exists a, noncentral_v_tz L (Fin q) self j mu lw = Ok a /\ mom_at (VSet true false false true) j (fun i => ent mu [bt i; bz i]) a.
Proof.
  start4 mu. unfold noncentral_v_tz.
  destruct (par_p_cond L self g m H Hg Hm (VSet false false true false) (VSet true false false true) false lw
    eq_refl eq_refl eq_refl Hl ltac:(destruct lw; reflexivity)) as (P & EP & SP & HP).
  change (cname _ _) with "x_tz"%string in EP. rewrite EP. cbn [bind]. cbn [dims opt has_t has_v has_x has_z app] in SP.
  pose proof (self_is P _ SP) as AP.
  s_mov. s_get.
  assert (Hdel : exists del, bop nsub E4 r0 = Ok del /\ arr_is del [nt g; nx g; ny g; nz g]
     (fun idx => nsub (ent mv (firstn 3 idx)) (ent mu [hd 0%nat idx; nth 3 idx 0%nat]))).
  { s_bop. eexists; split; [reflexivity|]. eapply arr_is_ext; [eassumption|]. at_idx. reflexivity. }
  destruct Hdel as (del & Edel & Hdel).
  destruct (moment_v4 (Fin q) self mv sg _ _ _ _ _ Emv Amv Esg (self_is sg _ Ssg) _ z_shape j E4 r0 del r _ _ [1; 2]%Z [1; 2]%nat EE4 Edel
    Hdel Hr ltac:(right; right; left; auto)) as (a & Ea & Ha).
  exists a. split; [exact Ea|]. split; [exact (proj1 Ha)|]. intros i Hi. pose proof Hi as (Ht & Hv & Hx & Hy & Hz).
  cbn [coords opt has_t has_v has_x has_z app] in *.
  rewrite (proj2 Ha) by (cbn; inbs). cbn -[msum]. split.
  - intros Hp _ c Hc.
    rewrite (msum_fin q j _ _ _ _ (fun sub => pm_mu m (bt i) (nth 0 sub 0%nat) (nth 1 sub 0%nat) - c)
      (fun sub => pm_sig m (bt i) (nth 0 sub 0%nat) (nth 1 sub 0%nat))
      (fun sub => weight g m lw (VSet true false false true) i (Bin (bt i) (bv i) (nth 0 sub 0%nat) (nth 1 sub 0%nat) (bz i)))).
    + f_equal. rewrite sum_idx2. reflexivity.
    + intros sub Hsub. apply in_all_idx in Hsub. inb_inv. cbn. rewrite Hmv, Hsg, Hc, nsub_Fin by assumption. pk.
      assert (Hb : in_grid g (Bin (bt i) (bv i) i0 i1 (bz i))) by (repeat split; assumption).
      destruct (HP _ Hb) as [HP1 _]. cbn in HP1. rewrite HP1 by exact Hp. unfold weight, Rdiv. rewrite Rinv_1, Rmult_1_r. auto.
  - intros _ Hp Hst. apply msum_nan. exists [0; 0]%nat. pose proof (gg_x _ Hg). pose proof (gg_y _ Hg).
    split; [apply in_all_idx; cbn; inbs|]. cbn. pk.
    assert (Hb : in_grid g (Bin (bt i) (bv i) 0 0 (bz i))) by (repeat split; assumption).
    destruct (HP _ Hb) as [_ HP2]. cbn in HP2. rewrite HP2; [reflexivity|exact Hp|reflexivity].
Qed.

Lemma moment_xz j mu : shp mu = [nx g; ny g; nz g] ->
  exists a, noncentral_v_xz L (Fin q) self j mu lw = Ok a /\ mom_at (VSet false false true true) j (fun i => ent mu [bx i; by_ i; bz i]) a.
Proof.
  start4 mu. unfold noncentral_v_xz.
  destruct (par_p_cond L self g m H Hg Hm (VSet true false false false) (VSet false false true true) false lw
    eq_refl eq_refl eq_refl Hl ltac:(destruct lw; reflexivity)) as (P & EP & SP & HP).
  change (cname _ _) with "t_xz"%string in EP. rewrite EP. cbn [bind]. cbn [dims opt has_t has_v has_x has_z app] in SP.
  pose proof (self_is P _ SP) as AP.
  s_get.
  assert (Hdel : exists del, bop nsub E4 r = Ok del /\ arr_is del [nt g; nx g; ny g; nz g]
     (fun idx => nsub (ent mv (firstn 3 idx)) (ent mu (tl idx)))).
  { s_bop. eexists; split; [reflexivity|]. eapply arr_is_ext; [eassumption|]. at_idx. reflexivity. }
  destruct Hdel as (del & Edel & Hdel).
  destruct (moment_v4 (Fin q) self mv sg _ _ _ _ _ Emv Amv Esg (self_is sg _ Ssg) _ z_shape j E4 r del P _ _ [0]%Z [0]%nat EE4 Edel
    Hdel AP ltac:(right; left; auto)) as (a & Ea & Ha).
  exists a. split; [exact Ea|]. split; [exact (proj1 Ha)|]. intros i Hi. pose proof Hi as (Ht & Hv & Hx & Hy & Hz).
  cbn [coords opt has_t has_v has_x has_z app] in *.
  rewrite (proj2 Ha) by (cbn; inbs). cbn -[msum]. split.
  - intros Hp _ c Hc.
    rewrite (msum_fin q j _ _ _ _ (fun sub => pm_mu m (nth 0 sub 0%nat) (bx i) (by_ i) - c) (fun sub => pm_sig m (nth 0 sub 0%nat) (bx i) (by_ i))
      (fun sub => weight g m lw (VSet false false true true) i (Bin (nth 0 sub 0%nat) (bv i) (bx i) (by_ i) (bz i)))).
    + f_equal. rewrite sum_idx1. reflexivity.
    + intros sub Hsub. apply in_all_idx in Hsub. inb_inv. cbn. rewrite Hmv, Hsg, Hc, nsub_Fin by assumption. pk.
      assert (Hb : in_grid g (Bin i0 (bv i) (bx i) (by_ i) (bz i))) by (repeat split; assumption).
      destruct (HP _ Hb) as [HP1 _]. cbn in HP1. rewrite HP1 by exact Hp. unfold weight, Rdiv. rewrite Rinv_1, Rmult_1_r. auto.
  - intros _ Hp _. apply msum_nan. exists [0%nat]. split; [apply in_all_idx; constructor; [apply (gg_t _ Hg)|constructor]|]. cbn. pk.
    assert (Hb : in_grid g (Bin 0 (bv i) (bx i) (by_ i) (bz i))) by (repeat split; try assumption; apply (gg_t _ Hg)).
    destruct (HP _ Hb) as [_ HP2]. cbn in HP2. rewrite HP2 by (exact Hp || reflexivity). reflexivity.
Qed.

Lemma moment_z j mu : shp mu = [nz g] ->
  exists a, noncentral_v_z L (Fin q) self j mu lw = Ok a /\ mom_at (VSet false false false true) j (fun i => ent mu [bz i]) a.
Proof.
  start4 mu. unfold noncentral_v_z.
  destruct (par_p_cond L self g m H Hg Hm (VSet true false true false) (VSet false false false true) false lw
    eq_refl eq_refl eq_refl Hl ltac:(destruct lw; reflexivity)) as (P & EP & SP & HP).
  change (cname _ _) with "tx_z"%string in EP. rewrite EP. cbn [bind]. cbn [dims opt has_t has_v has_x has_z app] in SP.
  pose proof (self_is P _ SP) as AP.
  s_get.
  assert (Hdel : exists del, bop nsub E4 r = Ok del /\ arr_is del [nt g; nx g; ny g; nz g]
     (fun idx => nsub (ent mv (firstn 3 idx)) (ent mu [nth 3 idx 0%nat]))).
  { s_bop. eexists; split; [reflexivity|]. eapply arr_is_ext; [eassumption|]. at_idx. reflexivity. }
  destruct Hdel as (del & Edel & Hdel).
  destruct (moment_v4 (Fin q) self mv sg _ _ _ _ _ Emv Amv Esg (self_is sg _ Ssg) _ z_shape j E4 r del P _ _ [0; 1; 2]%Z [0; 1; 2]%nat EE4 Edel
    Hdel AP ltac:(right; right; right; auto)) as (a & Ea & Ha).
  exists a. split; [exact Ea|]. split; [exact (proj1 Ha)|]. intros i Hi. pose proof Hi as (Ht & Hv & Hx & Hy & Hz).
  cbn [coords opt has_t has_v has_x has_z app] in *.
  rewrite (proj2 Ha) by (cbn; inbs). cbn -[msum]. split.
  - intros Hp _ c Hc.
    rewrite (msum_fin q j _ _ _ _ (fun sub => pm_mu m (nth 0 sub 0%nat) (nth 1 sub 0%nat) (nth 2 sub 0%nat) - c)
      (fun sub => pm_sig m (nth 0 sub 0%nat) (nth 1 sub 0%nat) (nth 2 sub 0%nat))
      (fun sub => weight g m lw (VSet false false false true) i (Bin (nth 0 sub 0%nat) (bv i) (nth 1 sub 0%nat) (nth 2 sub 0%nat) (bz i)))).
    + f_equal. rewrite sum_idx3. reflexivity.
    + intros sub Hsub. apply in_all_idx in Hsub. inb_inv. cbn. rewrite Hmv, Hsg, Hc, nsub_Fin by assumption. pk.
      assert (Hb : in_grid g (Bin i0 (bv i) i1 i2 (bz i))) by (repeat split; assumption).
      destruct (HP _ Hb) as [HP1 _]. cbn in HP1. rewrite HP1 by exact Hp. unfold weight, Rdiv. rewrite Rinv_1, Rmult_1_r. auto.
  - intros _ Hp _. pose proof (gg_x _ Hg). pose proof (gg_y _ Hg). pose proof (gg_t _ Hg).
    apply msum_nan. exists [0; 0; 0]%nat. split; [apply in_all_idx; cbn; inbs|]. cbn. pk.
    assert (Hb : in_grid g (Bin 0 (bv i) 0 0 (bz i))) by (repeat split; assumption).
    destruct (HP _ Hb) as [_ HP2]. cbn in HP2. rewrite HP2 by (exact Hp || reflexivity). reflexivity.
Qed.
End Mom.
