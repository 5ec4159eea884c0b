(** * ParMomMeans: mean velocities of a parametric component. *)
From Coq Require Import Reals Lra Lia List Bool Arith ZArith String Ascii.
From Verif Require Import Num NumLemmas Arr ArrLemmas PyStr StrLemmas Cube Base Spec SpecLemmas Repr CubeLemmas CondLemmas DiskLemmas
  DistLemmas StringClaims Moments MomArr MomSpec MomLemmas MomLemmas2 MomLemmas5 Parametric ParSpec ParRepr ParLemmas ParDist ParClaims ParMoments
  GaussSpec GaussLemmas ParMomSpec ParMomMath ParMomArr ParMomLemmas.
Import ListNotations.
Local Open Scope R_scope.

Section Mean.
Context (L : stats_lib) (self : par) (g : grid) (m : par_model) (lw : bool).
Context (H : par_on L self g m) (Hg : good_grid g) (Hm : good_par g m) (Hl : par_lw_ok g m lw false).

Definition mean_at (C : vset) (a : arr num) : Prop :=
  shp a = dims C g /\ forall i, in_grid g i ->
    (0 < par_prob g m lw C i -> (nonempty C = false -> par_prob g m lw C i = 1) ->
      ent a (coords C i) = Fin (mixture_mean g m lw C i)) /\
    (nonempty C = true -> par_prob g m lw C i = 0 -> stored lw C = false -> ent a (coords C i) = NaN).

Lemma mean_full C i : has_t C = true -> has_x C = true -> 0 < par_prob g m lw C i ->
  mixture_mean g m lw C i = pm_mu m (bt i) (bx i) (by_ i).
Proof.
  intros Et Ex Hp. unfold mixture_mean, over_rest, sum_over, rest, weight. rewrite Et, Ex. cbn -[par_prob].
  replace (union (rest C) C) with C by (destruct C as [[] [] [] []]; try discriminate Et; try discriminate Ex; reflexivity).
  destruct i as [t v x y z]. cbn [bt bv bx by_ bz]. field. apply Rgt_not_eq. exact Hp.
Qed.

Ltac start := destruct (po_mu _ _ _ _ H) as (mv & Emv & Smv & Hmv); pose proof (self_is mv _ Smv) as Amv;
  unfold mean_v_tx; try rewrite Emv; cbn [attr bind].
Ltac start4 := destruct (po_mu _ _ _ _ H) as (mv & Emv & Smv & Hmv); pose proof (self_is mv _ Smv) as Amv;
  destruct (mean_v_txz_is self mv _ _ _ _ Emv Amv _ (z_shape L self g m H)) as (E4 & EE4 & HE4); try rewrite EE4; cbn [bind].
Ltac fin Ha := split; [exact (proj1 Ha)|]; intros i Hi; pose proof Hi as (Ht & Hv & Hx & Hy & Hz);
  cbn [coords opt has_t has_v has_x has_z app no_vars V_txz] in *.

Lemma mean_tx : exists a, mean_v_tx self = Ok a /\ mean_at (VSet true false true false) a.
Proof.
  start. exists mv. split; [reflexivity|]. fin Amv.
  split; [|intros _ _ E; discriminate E]. intros Hp _. rewrite mean_full by (assumption || reflexivity). apply Hmv; assumption.
Qed.
Lemma mean_txz : exists a, mean_v_txz self = Ok a /\ mean_at V_txz a.
Proof.
  start4. exists E4. split; [reflexivity|]. fin HE4.
  split; [|intros _ _ E; discriminate E]. intros Hp _. rewrite mean_full by (assumption || reflexivity).
  rewrite (proj2 HE4) by inbs. apply Hmv; assumption.
Qed.

Ltac prod1 HP b := 
  let Hb := fresh "Hb" in assert (Hb : in_grid g b) by (repeat split; assumption);
  destruct (HP _ Hb) as [HP1 HP2]; cbn in HP1, HP2.

Lemma mean_x : exists a, mean_v_x L self lw = Ok a /\ mean_at (VSet false false true false) a.
Proof.
  unfold mean_v_x. start.
  destruct (par_p_cond L self g m H Hg Hm (VSet true false false false) (VSet false false true false) false lw
    eq_refl eq_refl eq_refl Hl ltac:(destruct lw; reflexivity)) as (P & EP & SP & HP).
  change (cname _ _) with "t_x"%string in EP. rewrite EP. cbn [bind]. cbn [dims opt has_t has_v has_x has_z app] in SP.
  pose proof (self_is P _ SP) as AP. s_bop. s_sum. eexists; split; [reflexivity|]. fin Hr0.
  rewrite (proj2 Hr0) by inbs. cbn. rewrite map_all_idx1. split.
  - intros Hp _. apply nsum_seq. intros t Htt. cbn. pk. rewrite Hmv by assumption. prod1 HP (Bin t (bv i) (bx i) (by_ i) (bz i)).
    rewrite HP1 by exact Hp. rewrite nmul_Fin. f_equal. unfold weight, Rdiv. rewrite Rinv_1, Rmult_1_r. apply Rmult_comm.
  - intros _ Hp _. apply nsum_seq_nan; [apply (gg_t _ Hg)|]. cbn. pose proof (gg_t _ Hg). pk.
    prod1 HP (Bin 0 (bv i) (bx i) (by_ i) (bz i)). rewrite HP2 by (exact Hp || reflexivity). apply nmul_nan_r.
Qed.
Lemma mean_xz : exists a, mean_v_xz L self lw = Ok a /\ mean_at (VSet false false true true) a.
Proof.
  unfold mean_v_xz. start4.
  destruct (par_p_cond L self g m H Hg Hm (VSet true false false false) (VSet false false true true) false lw
    eq_refl eq_refl eq_refl Hl ltac:(destruct lw; reflexivity)) as (P & EP & SP & HP).
  change (cname _ _) with "t_xz"%string in EP. rewrite EP. cbn [bind]. cbn [dims opt has_t has_v has_x has_z app] in SP.
  pose proof (self_is P _ SP) as AP. s_bop. s_sum. eexists; split; [reflexivity|]. fin Hr0.
  rewrite (proj2 Hr0) by inbs. cbn. rewrite map_all_idx1. split.
  - intros Hp _. apply nsum_seq. intros t Htt. cbn. pk. rewrite Hmv by assumption. prod1 HP (Bin t (bv i) (bx i) (by_ i) (bz i)).
    rewrite HP1 by exact Hp. rewrite nmul_Fin. f_equal. unfold weight, Rdiv. rewrite Rinv_1, Rmult_1_r. apply Rmult_comm.
  - intros _ Hp _. apply nsum_seq_nan; [apply (gg_t _ Hg)|]. cbn. pose proof (gg_t _ Hg). pk.
    prod1 HP (Bin 0 (bv i) (bx i) (by_ i) (bz i)). rewrite HP2 by (exact Hp || reflexivity). apply nmul_nan_r.
Qed.

Lemma mean_t : exists a, mean_v_t L self lw = Ok a /\ mean_at (VSet true false false false) a.
Proof.
  unfold mean_v_t. start.
  destruct (par_p_cond L self g m H Hg Hm (VSet false false true false) (VSet true false false false) false lw
    eq_refl eq_refl eq_refl Hl ltac:(destruct lw; reflexivity)) as (P & EP & SP & HP).
  change (cname _ _) with "x_t"%string in EP. rewrite EP. cbn [bind]. cbn [dims opt has_t has_v has_x has_z app] in SP.
  pose proof (self_is P _ SP) as AP. s_mov. s_bop. s_sum. eexists; split; [reflexivity|]. fin Hr1.
  rewrite (proj2 Hr1) by inbs. cbn. rewrite nsum_all_idx2. split.
  - intros Hp _. apply nsum_seq. intros x Hxx. apply nsum_seq. intros y Hyy. cbn. pk. rewrite Hmv by assumption.
    prod1 HP (Bin (bt i) (bv i) x y (bz i)).
    rewrite HP1 by exact Hp. rewrite nmul_Fin. f_equal. unfold weight, Rdiv. rewrite Rinv_1, Rmult_1_r. apply Rmult_comm.
  - intros _ Hp Hst. pose proof (gg_x _ Hg). pose proof (gg_y _ Hg). apply nsum_seq_nan; [assumption|]. apply nsum_seq_nan; [assumption|].
    cbn. pk. prod1 HP (Bin (bt i) (bv i) 0 0 (bz i)). rewrite HP2; [apply nmul_nan_r|exact Hp|exact Hst].
Qed.
Lemma mean_tz : exists a, mean_v_tz L self lw = Ok a /\ mean_at (VSet true false false true) a.
Proof.
  unfold mean_v_tz. start4.
  destruct (par_p_cond L self g m H Hg Hm (VSet false false true false) (VSet true false false true) false lw
    eq_refl eq_refl eq_refl Hl ltac:(destruct lw; reflexivity)) as (P & EP & SP & HP).
  change (cname _ _) with "x_tz"%string in EP. rewrite EP. cbn [bind]. cbn [dims opt has_t has_v has_x has_z app] in SP.
  pose proof (self_is P _ SP) as AP. s_mov. s_bop. s_sum. eexists; split; [reflexivity|]. fin Hr1.
  rewrite (proj2 Hr1) by inbs. cbn. rewrite nsum_all_idx2. split.
  - intros Hp _. apply nsum_seq. intros x Hxx. apply nsum_seq. intros y Hyy. cbn. pk. rewrite Hmv by assumption.
    prod1 HP (Bin (bt i) (bv i) x y (bz i)).
    rewrite HP1 by exact Hp. rewrite nmul_Fin. f_equal. unfold weight, Rdiv. rewrite Rinv_1, Rmult_1_r. apply Rmult_comm.
  - intros _ Hp Hst. pose proof (gg_x _ Hg). pose proof (gg_y _ Hg). apply nsum_seq_nan; [assumption|]. apply nsum_seq_nan; [assumption|].
    cbn. pk. prod1 HP (Bin (bt i) (bv i) 0 0 (bz i)). rewrite HP2; [apply nmul_nan_r|exact Hp|reflexivity].
Qed.

Lemma nsum_idx3 (F : list nat -> num) (f : nat -> nat -> nat -> R) a b c :
  (forall i j k, (i < a)%nat -> (j < b)%nat -> (k < c)%nat -> F [i; j; k] = Fin (f i j k)) ->
  nsum (map F (all_idx [a; b; c])) = Fin (Sum a (fun i => Sum b (fun j => Sum c (fun k => f i j k)))).
Proof.
  intros HF. rewrite (nsum_map_Fin F (fun s => f (nth 0 s 0%nat) (nth 1 s 0%nat) (nth 2 s 0%nat))); [rewrite sum_idx3; reflexivity|].
  intros s Hs. apply in_all_idx in Hs. inb_inv. cbn. apply HF; assumption.
Qed.
Lemma mean_0 : exists a, mean_v L self lw = Ok a /\ mean_at no_vars a.
Proof.
  unfold mean_v. start.
  destruct (par_p_marg L self g m H Hg Hm (VSet true false true false) false lw eq_refl Hl) as (P & EP & SP & HP).
  change (name _) with "tx"%string in EP. rewrite EP. cbn [bind]. cbn [dims opt has_t has_v has_x has_z app] in SP.
  pose proof (self_is P _ SP) as AP. s_bop. eexists; split; [reflexivity|]. split; [reflexivity|].
  intros i Hi. pose proof Hi as (Ht & Hv & Hx & Hy & Hz). split; [|discriminate]. intros Hp H1. specialize (H1 eq_refl).
  cbn [coords no_vars opt has_t has_v has_x has_z app]. unfold asum_all. rewrite (proj1 Hr). unfold scal. cbn [ent].
  apply nsum_idx3. intros t x y Htt Hxx Hyy. rewrite (proj2 Hr) by inbs. cbn. pk. rewrite Hmv by assumption.
  assert (Hb : in_grid g (Bin t (bv i) x y (bz i))) by (repeat split; assumption). specialize (HP _ Hb). cbn in HP. rewrite HP.
  rewrite nmul_Fin. f_equal. unfold weight, pent. rewrite H1. apply Rmult_comm.
Qed.
Lemma mean_z : exists a, mean_v_z L self lw = Ok a /\ mean_at (VSet false false false true) a.
Proof.
  unfold mean_v_z. start4.
  destruct (par_p_cond L self g m H Hg Hm (VSet true false true false) (VSet false false false true) false lw
    eq_refl eq_refl eq_refl Hl ltac:(destruct lw; reflexivity)) as (P & EP & SP & HP).
  change (cname _ _) with "tx_z"%string in EP. rewrite EP. cbn [bind]. cbn [dims opt has_t has_v has_x has_z app] in SP.
  pose proof (self_is P _ SP) as AP. s_bop. s_sum. eexists; split; [reflexivity|]. fin Hr0.
  rewrite (proj2 Hr0) by inbs. split.
  - intros Hp _. apply nsum_idx3. intros t x y Htt Hxx Hyy. cbn. pk. rewrite Hmv by assumption.
    prod1 HP (Bin t (bv i) x y (bz i)).
    rewrite HP1 by exact Hp. rewrite nmul_Fin. f_equal. unfold weight, Rdiv. rewrite Rinv_1, Rmult_1_r. apply Rmult_comm.
  - intros _ Hp Hst. pose proof (gg_t _ Hg). pose proof (gg_x _ Hg). pose proof (gg_y _ Hg).
    apply nsum_nan, in_map_iff. exists [0; 0; 0]%nat. split; [|apply in_all_idx; inbs].
    cbn. pk. prod1 HP (Bin 0 (bv i) 0 0 (bz i)). rewrite HP2; [apply nmul_nan_r|exact Hp|reflexivity].
Qed.
End Mean.
