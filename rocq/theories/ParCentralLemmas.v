(** * ParCentralLemmas: the methods get_central_moment_v… called directly. *)
From Coq Require Import Reals Lra Lia List Bool Arith ZArith String Ascii.
From Verif Require Import Num NumLemmas Arr ArrLemmas PyStr StrLemmas Cube Base Spec SpecLemmas Repr CubeLemmas CondLemmas DiskLemmas
  DistLemmas StringClaims Moments MomArr MomSpec MomLemmas MomLemmas2 MomLemmas5 Parametric ParSpec ParRepr ParLemmas ParDist ParClaims ParMoments
  GaussSpec GaussLemmas ParMomSpec ParMomMath ParMomArr ParMomLemmas ParMomMeans ParMomClaims ParCentral ParCentralSpec.
Import ListNotations.
Local Open Scope R_scope.

Section Calls.
Context (L : stats_lib) (self : par) (g : grid) (m : par_model) (lw : bool).
Context (H : par_on L self g m) (Hg : good_grid g) (Hm : good_par g m) (Hl : par_lw_ok g m lw false).

Lemma not_accepted q C j mu : has_v C = false -> ~ accepted C mu -> call_central L q self (dname V_v C) j mu lw = Err TypeError.
Proof.
  intros Hv Ha. destruct C as [[] [] [] []]; try discriminate Hv; destruct mu as [c|]; try reflexivity;
  exfalso; apply Ha; split; intros E; try discriminate E; try reflexivity; try congruence; exfalso; apply E; reflexivity.
Qed.

(** the method is the mean followed by the noncentral moment *)
Lemma call_is q C j mu : has_v C = false -> accepted C mu -> (has_t C && has_x C)%bool = false ->
  call_central L q self (dname V_v C) j mu lw =
  bind (get_mean (par_obj L q self) (dname V_v C) lw) (fun E => get_noncentral_moment (par_obj L q self) (dname V_v C) j E lw).
Proof.
  intros Hv Ha Htx. destruct C as [[] [] [] []]; try discriminate Hv; try discriminate Htx; destruct mu as [c|];
  try reflexivity; exfalso; destruct Ha as [A B];
  (apply (A eq_refl); reflexivity) || (discriminate B; discriminate).
Qed.
Lemma get_central_is q C j mu : has_v C = false -> get_mean (par_obj L q self) (dname V_v C) lw = Ok mu ->
  get_central_moment (par_obj L q self) (dname V_v C) j lw = get_noncentral_moment (par_obj L q self) (dname V_v C) j mu lw.
Proof.
  intros Hv Emu. unfold get_central_moment.
  assert (P0 : part0 (dname V_v C) = "v"%string) by (destruct C as [[] [] [] []]; try discriminate Hv; reflexivity).
  rewrite P0. cbn [String.length Nat.eqb py_assert bind is_tvz String.eqb Ascii.eqb Bool.eqb orb]. rewrite Emu. cbn [bind].
  destruct (nonempty C) eqn:EC.
  - assert (PC : has_char "_" (dname V_v C) = true) by (destruct C as [[] [] [] []]; try discriminate Hv; try discriminate EC; reflexivity).
    assert (P1 : part1 (dname V_v C) = Ok (name C)) by (destruct C as [[] [] [] []]; try discriminate Hv; try discriminate EC; reflexivity).
    rewrite PC, P1. cbn [bind o_cube par_obj].
    destruct (vol_ok _ g (po_cube _ _ _ _ H) Hg C EC) as (d & Ed & _). rewrite Ed. reflexivity.
  - assert (PC : has_char "_" (dname V_v C) = false) by (destruct C as [[] [] [] []]; try discriminate EC; reflexivity).
    rewrite PC. reflexivity.
Qed.
(** summed over ages or positions: exactly what get_central_moment gives *)
Lemma call_same q C j mu : has_v C = false -> accepted C mu -> (has_t C && has_x C)%bool = false ->
  call_central L q self (dname V_v C) j mu lw = get_central_moment (par_obj L q self) (dname V_v C) j lw.
Proof.
  intros Hv Ha Htx. rewrite call_is by assumption. destruct (get_mean_at L self g m lw H Hg Hm Hl q C Hv) as (E & EE & _).
  rewrite (get_central_is q C j E Hv EE), EE. reflexivity.
Qed.

Lemma cmom_gmom s j : cmom 1 s j = gmom 0 s j.
Proof.
  rewrite <- bsum_gmom. unfold bsum. cbn [Sum]. rewrite (Sum_ext j _ (fun _ => 0)).
  - rewrite Nat.sub_diag. replace (binom j j) with 1%nat.
    + cbn [INR pow]. replace (Sum j (fun _ => 0)) with 0; [ring|]. clear. induction j as [|j IH]; cbn [Sum]; [reflexivity|rewrite <- IH; ring].
    + clear. induction j as [|j IH]; [reflexivity|]. cbn [binom]. rewrite <- IH, binom_big by lia. reflexivity.
  - intros k Hk. rewrite pow_i by lia. ring.
Qed.

(** given t and x *)
Lemma call_tx_claim q C j : has_v C = false -> has_t C = true -> has_x C = true -> q = Fin 1 \/ (0 < j)%nat ->
  exists a, call_central L q self (dname V_v C) j None lw = Ok a /\ shp a = dims C g /\
    forall i, in_grid g i -> exists M, ent a (coords C i) = Fin M /\
      let mu := pm_mu m (bt i) (bx i) (by_ i) in gauss_moment mu (pm_sig m (bt i) (bx i) (by_ i)) mu j M.
Proof.
  intros Hv Ht Hx Hq.
  destruct (po_mu _ _ _ _ H) as (mv & Emv & Smv & Hmv). destruct (po_sig _ _ _ _ H) as (sg & Esg & Ssg & Hsg).
  assert (G : forall i, in_grid g i -> exists M, cmn q (ent sg [bt i; bx i; by_ i]) j = Fin M /\
    let mu := pm_mu m (bt i) (bx i) (by_ i) in gauss_moment mu (pm_sig m (bt i) (bx i) (by_ i)) mu j M).
  { intros i (It & Iv & Ix & Iy & Iz). rewrite Hsg by assumption. exists (gmom 0 (pm_sig m (bt i) (bx i) (by_ i)) j). split.
    - rewrite <- cmom_gmom, <- cmn_fin. destruct Hq as [->|Hj]; [reflexivity|]. unfold cmn. destruct j as [|j]; [lia|reflexivity].
    - cbv zeta. replace 0 with (pm_mu m (bt i) (bx i) (by_ i) - pm_mu m (bt i) (bx i) (by_ i)) at 1 by ring.
      apply gmom_ok. apply (gp_sig _ _ Hm); assumption. }
  destruct C as [[] [] [] []]; try discriminate Hv; try discriminate Ht; try discriminate Hx.
  - destruct (central_v_txz_is q self sg _ _ _ _ Esg (self_is sg _ Ssg) _ (z_shape L self g m H) j) as (a & Ea & Sa & Ha).
    exists a. split; [exact Ea|]. split; [exact Sa|]. intros i Hi. destruct (G i Hi) as (M & EM & HM). exists M. split; [|exact HM].
    rewrite <- EM. destruct Hi as (It & Iv & Ix & Iy & Iz). cbn [coords opt app has_t has_v has_x has_z].
    rewrite Ha by inbs. reflexivity.
  - destruct (central_v_tx_is q self sg _ _ _ _ Esg (self_is sg _ Ssg) j) as (a & Ea & Sa & Ha).
    exists a. split; [exact Ea|]. split; [exact Sa|]. intros i Hi. destruct (G i Hi) as (M & EM & HM). exists M. split; [|exact HM].
    rewrite <- EM. destruct Hi as (It & Iv & Ix & Iy & Iz). cbn [coords opt app has_t has_v has_x has_z].
    rewrite Ha by inbs. reflexivity.
Qed.
(** the moment of order 0 where factorial2(-1) is 0 *)
Lemma call_order0 C : has_v C = false -> has_t C = true -> has_x C = true ->
  exists a, call_central L (Fin 0) self (dname V_v C) 0 None lw = Ok a /\
    forall i, in_grid g i -> ent a (coords C i) = Fin 0 /\
      let mu := pm_mu m (bt i) (bx i) (by_ i) in gauss_moment mu (pm_sig m (bt i) (bx i) (by_ i)) mu 0 1.
Proof.
  intros Hv Ht Hx. destruct (po_sig _ _ _ _ H) as (sg & Esg & Ssg & Hsg).
  assert (G : forall i, in_grid g i -> cmn (Fin 0) (ent sg [bt i; bx i; by_ i]) 0 = Fin 0).
  { intros i (It & Iv & Ix & Iy & Iz). rewrite Hsg by assumption. apply cmn_fin. }
  assert (G2 : forall i, in_grid g i ->
    let mu := pm_mu m (bt i) (bx i) (by_ i) in gauss_moment mu (pm_sig m (bt i) (bx i) (by_ i)) mu 0 1).
  { intros i (It & Iv & Ix & Iy & Iz) mu. apply (gmom_ok mu _ mu (gp_sig _ _ Hm _ _ _ It Ix Iy) 0). }
  destruct C as [[] [] [] []]; try discriminate Hv; try discriminate Ht; try discriminate Hx.
  - destruct (central_v_txz_is (Fin 0) self sg _ _ _ _ Esg (self_is sg _ Ssg) _ (z_shape L self g m H) 0%nat) as (a & Ea & Sa & Ha).
    exists a. split; [exact Ea|]. intros i Hi. split; [|apply G2; exact Hi].
    rewrite <- (G i Hi). destruct Hi as (It & Iv & Ix & Iy & Iz). cbn [coords opt app has_t has_v has_x has_z].
    rewrite Ha by inbs. reflexivity.
  - destruct (central_v_tx_is (Fin 0) self sg _ _ _ _ Esg (self_is sg _ Ssg) 0%nat) as (a & Ea & Sa & Ha).
    exists a. split; [exact Ea|]. intros i Hi. split; [|apply G2; exact Hi].
    rewrite <- (G i Hi). destruct Hi as (It & Iv & Ix & Iy & Iz). cbn [coords opt app has_t has_v has_x has_z].
    rewrite Ha by inbs. reflexivity.
Qed.
(** all of them *)
Lemma call_claim C j mu : has_v C = false -> accepted C mu ->
  exists a, call_central L (Fin 1) self (dname V_v C) j mu lw = Ok a /\ shp a = dims C g /\
    forall i, in_grid g i -> 0 < par_prob g m lw C i -> (nonempty C = false -> lw = false -> par_prob g m false no_vars i = 1) ->
      exists M, ent a (coords C i) = Fin M /\ mixture_moment g m lw C i (mixture_mean g m lw C i) j M.
Proof.
  intros Hv Ha. destruct (has_t C && has_x C)%bool eqn:Htx.
  - apply andb_prop in Htx as [Ht Hx].
    assert (mu = None) as ->. { destruct mu as [c|]; [|reflexivity]. destruct C as [[] [] [] []]; try discriminate Ht; try discriminate Hx;
      try discriminate Hv; destruct Ha as [_ B]; discriminate B; discriminate. }
    destruct (call_tx_claim (Fin 1) C j Hv Ht Hx (or_introl eq_refl)) as (a & Ea & Sa & He).
    exists a. split; [exact Ea|]. split; [exact Sa|]. intros i Hi Hp _. destruct (He i Hi) as (M & EM & HM). exists M. split; [exact EM|].
    rewrite (mean_full g m lw C i Ht Hx Hp).
    replace M with (gsum g m 1 lw C i (pm_mu m (bt i) (bx i) (by_ i)) j); [apply (gsum_mixture g m lw Hm)|].
    rewrite (gsum_full g m 1 lw C i _ j Ht Hx Hp), gval_1.
    eapply gauss_moment_unique; [|exact HM]. apply gmom_ok. destruct Hi as (It & Iv & Ix & Iy & Iz). apply (gp_sig _ _ Hm); assumption.
  - rewrite (call_same (Fin 1) C j mu Hv Ha Htx). apply (par_central_claim L self g m lw H Hg Hm Hl C j Hv).
Qed.
End Calls.
