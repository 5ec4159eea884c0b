(** * Props_Pert: claim C107, components with nearby densities.

    [apart g S i r r'] is the sum of |r - r'| over the bins of S; [reads] and
    [reads_given] (PertSpec.v) say that these numbers are those in an array. *)
From Coq Require Import Reals Lra Lia List Bool Arith ZArith String Ascii.
From Verif Require Import Num NumLemmas Arr PyStr Cube Base Spec SpecLemmas Repr Build DistLemmas Moments MomSpec MomLemmas3 MomClaims
  Mixture MixSpec MixExample Datacube DatacubeSpec DatacubeMain DatacubeClaims DatacubeExample PertSpec Pert PertClaims PertExample.
Import ListNotations.
Local Open Scope R_scope.

(** ** distributions of fewer variables are nearer, in each bin and in total *)
Theorem C107_marginals : forall self self' g f f' lw, comp_on self g f -> comp_on self' g f' -> good_grid g -> nonneg g f -> nonneg g f' ->
  lw_ok g f lw -> lw_ok g f' lw -> forall A C, nonempty C = true -> disjoint A C = true ->
  exists p p' q q' r r' s s', get_p self (name (union A C)) false lw = Ok p /\ get_p self' (name (union A C)) false lw = Ok p' /\
    get_p self (name C) false lw = Ok q /\ get_p self' (name C) false lw = Ok q' /\
    reads g p (union A C) r /\ reads g p' (union A C) r' /\ reads g q C s /\ reads g q' C s' /\
    forall i, in_grid g i -> Rabs (s i - s' i) <= apart g A i r r' /\ apart g C i s s' <= apart g (union A C) i r r'.
Proof. exact marg_claim. Qed.
Print Assumptions C107_marginals.
Example C107_marginals_case : exists p p' r r', get_p exc "tx" false true = Ok p /\ get_p exc1 "tx" false true = Ok p' /\
  reads exg p (VSet true false true false) r /\ reads exg p' (VSet true false true false) r' /\
  exists q q', get_p exc "x" false true = Ok q /\ get_p exc1 "x" false true = Ok q' /\
  exists u u', ent q [1; 0]%nat = Fin u /\ ent q' [1; 0]%nat = Fin u' /\
    Rabs (u - u') <= Rabs (r (Bin 0 0 1 0 0) - r' (Bin 0 0 1 0 0)) + Rabs (r (Bin 1 0 1 0 0) - r' (Bin 1 0 1 0 0)).
Proof.
  destruct (C107_marginals exc exc1 exg exf exf1 true exc_on exc1_on exg_good exf_nonneg exf1_nonneg (ex_lw_ok _) (exf1_lw _)
    (VSet true false false false) (VSet false false true false) eq_refl eq_refl)
    as (p & p' & q & q' & r & r' & s & s' & Ep & Ep' & Eq & Eq' & Vp & Vp' & Vq & Vq' & V).
  exists p, p', r, r'. do 4 (split; [assumption|]). exists q, q'. do 2 (split; [assumption|]).
  assert (Hi : in_grid exg (Bin 0 0 1 0 0)) by (unfold in_grid; cbn; lia).
  exists (s (Bin 0 0 1 0 0)), (s' (Bin 0 0 1 0 0)). split; [exact (Vq _ Hi)|]. split; [exact (Vq' _ Hi)|].
  eapply Rle_trans; [exact (proj1 (V _ Hi))|]. unfold apart, sum_over. cbn. lra.
Qed.

(** ** conditionals: twice the distance of the column, over its total *)
Theorem C107_conditionals : forall self self' g f f' lw, comp_on self g f -> comp_on self' g f' -> good_grid g -> nonneg g f -> nonneg g f' ->
  lw_ok g f lw -> lw_ok g f' lw -> forall A C, nonempty A = true -> nonempty C = true -> disjoint A C = true ->
  exists p p' q q' r r' , get_p self (name (union A C)) false lw = Ok p /\ get_p self' (name (union A C)) false lw = Ok p' /\
    get_p self (cname A C) false lw = Ok q /\ get_p self' (cname A C) false lw = Ok q' /\
    reads g p (union A C) r /\ reads g p' (union A C) r' /\
    forall i, in_grid g i -> 0 < marg g (prob g f lw) C i -> 0 < marg g (prob g f' lw) C i ->
      exists s s', reads_given g q A C i s /\ reads_given g q' A C i s' /\
        apart g A i s s' <= 2 * apart g A i r r' / marg g (prob g f lw) C i.
Proof. exact cond_claim. Qed.
Print Assumptions C107_conditionals.
Example C107_conditionals_case : exists q q' s s', get_p exc "v_t" false false = Ok q /\ get_p exc1 "v_t" false false = Ok q' /\
  reads_given exg q (VSet false true false false) (VSet true false false false) (Bin 0 0 0 0 0) s /\
  reads_given exg q' (VSet false true false false) (VSet true false false false) (Bin 0 0 0 0 0) s' /\
  s (Bin 0 0 0 0 0) = 1 / 3 /\ s' (Bin 0 0 0 0 0) = 1 / 2.
Proof.
  destruct (C107_conditionals exc exc1 exg exf exf1 false exc_on exc1_on exg_good exf_nonneg exf1_nonneg (ex_lw_ok _) (exf1_lw _)
    (VSet false true false false) (VSet true false false false) eq_refl eq_refl eq_refl)
    as (p & p' & q & q' & r & r' & Ep & Ep' & Eq & Eq' & Vp & Vp' & V).
  assert (Hi : in_grid exg (Bin 0 0 0 0 0)) by (unfold in_grid; cbn; lia).
  destruct (V _ Hi) as (s & s' & Vs & Vs' & _); [ex_num|unfold exf1; ex_num|].
  assert (Hb : In (Bin 0 0 0 0 0) (bins_over exg (VSet false true false false) (Bin 0 0 0 0 0))) by (left; reflexivity).
  exists q, q', s, s'. do 4 (split; [assumption|]).
  pose proof (Vs _ Hb) as B. pose proof (Vs' _ Hb) as B'. unfold reads_given in *.
  destruct (get_p_cond exc exg exf exc_on exg_good exf_nonneg (VSet false true false false) (VSet true false false false) false false eq_refl eq_refl eq_refl (ex_lw_ok _))
    as (a & Ea & _ & Ha). destruct (get_p_cond exc1 exg exf1 exc1_on exg_good exf1_nonneg (VSet false true false false) (VSet true false false false) false false eq_refl eq_refl eq_refl (exf1_lw _))
    as (a' & Ea' & _ & Ha'). change (cname (VSet false true false false) (VSet true false false false)) with "v_t"%string in *.
  rewrite Eq in Ea. injection Ea as <-. rewrite Eq' in Ea'. injection Ea' as <-.
  destruct (Ha _ Hi) as (A1 & _). destruct (Ha' _ Hi) as (A1' & _).
  rewrite A1 in B by ex_num. rewrite A1' in B' by (unfold exf1; ex_num). injection B as <-. injection B' as <-.
  split; [ex_num; field|unfold exf1; ex_num; field].
Qed.

(** ** light weighting: twice the largest light of a template over the mean light *)
Theorem C107_light : forall self self' g f f', comp_on self g f -> comp_on self' g f' -> good_grid g -> nonneg g f -> nonneg g f' ->
  0 < total g (lit g (mass g f)) -> 0 < total g (lit g (mass g f')) ->
  forall M, (forall t z, (t < nt g)%nat -> (z < nz g)%nat -> Lw g t z <= M) ->
  exists p p' q q' r r' s s', get_p self "tvxz" false false = Ok p /\ get_p self' "tvxz" false false = Ok p' /\
    get_p self "tvxz" false true = Ok q /\ get_p self' "tvxz" false true = Ok q' /\
    reads g p all_vars r /\ reads g p' all_vars r' /\ reads g q all_vars s /\ reads g q' all_vars s' /\
    forall i, in_grid g i -> apart g all_vars i s s' <= 2 * M / total g (lit g (mass g f)) * apart g all_vars i r r'.
Proof. exact light_claim. Qed.
Print Assumptions C107_light.
Example C107_light_case : (forall t z, (t < nt exg)%nat -> (z < nz exg)%nat -> Lw exg t z <= 4) /\
  0 < total exg (lit exg (mass exg exf)) /\ 0 < total exg (lit exg (mass exg exf1)).
Proof.
  split; [|split; [exact ex_light|exact (exf1_lw true eq_refl)]].
  intros t z Ht Hz. cbn in *. assert (INR t <= 1) by (apply (le_INR t 1); lia). assert (INR z <= 1) by (apply (le_INR z 1); lia). lra.
Qed.

(** ** means move by at most half the span of bin centres times the distance of the
    distributions, variances by half its square times this *)
Theorem C107_moments : forall self self' g f f' lw, comp_on self g f -> comp_on self' g f' -> good_grid g -> nonneg g f -> nonneg g f' ->
  lw_ok g f lw -> lw_ok g f' lw -> forall k C, disjoint (cvar k) C = true ->
  (nonempty C = false -> total g (prob g f lw) = 1) -> (nonempty C = false -> total g (prob g f' lw) = 1) ->
  exists q q' m m' v v', get_p self (dname (cvar k) C) false lw = Ok q /\ get_p self' (dname (cvar k) C) false lw = Ok q' /\
    get_mean (base_obj self) (dname (cvar k) C) lw = Ok m /\ get_mean (base_obj self') (dname (cvar k) C) lw = Ok m' /\
    get_variance (base_obj self) (dname (cvar k) C) lw = Ok v /\ get_variance (base_obj self') (dname (cvar k) C) lw = Ok v' /\
    forall i, in_grid g i -> 0 < marg g (prob g f lw) C i -> 0 < marg g (prob g f' lw) C i ->
      exists s s' M M' V V', reads_given g q (cvar k) C i s /\ reads_given g q' (cvar k) C i s' /\
        ent m (mcoords k C i) = Fin M /\ ent m' (mcoords k C i) = Fin M' /\
        ent v (mcoords k C i) = Fin V /\ ent v' (mcoords k C i) = Fin V' /\
        Rabs (M - M') <= span g k / 2 * apart g (cvar k) i s s' /\
        Rabs (V - V') <= span g k ^ 2 / 2 * apart g (cvar k) i s s'.
Proof. exact stats_claim. Qed.
Print Assumptions C107_moments.
(** the bound for means is reached: all mass in the first, or all in the last bin *)
Example C107_moments_case : exists q q' m m' s s',
  get_p (comp_of exg exlo) "v_x" false false = Ok q /\ get_p (comp_of exg exhi) "v_x" false false = Ok q' /\
  reads_given exg q (cvar Cv) (VSet false false true false) (Bin 0 0 1 0 0) s /\
  reads_given exg q' (cvar Cv) (VSet false false true false) (Bin 0 0 1 0 0) s' /\
  get_mean (base_obj (comp_of exg exlo)) "v_x" false = Ok m /\ get_mean (base_obj (comp_of exg exhi)) "v_x" false = Ok m' /\
  ent m [1; 0]%nat = Fin (- (1 / 2)) /\ ent m' [1; 0]%nat = Fin (1 / 2) /\
  span exg Cv / 2 * apart exg (cvar Cv) (Bin 0 0 1 0 0) s s' = 1.
Proof.
  assert (Hi : in_grid exg (Bin 0 0 1 0 0)) by (unfold in_grid; cbn; lia).
  destruct (velocity_mean exg exlo (VSet false false true false) exlo_on exg_good exlo_nonneg eq_refl eq_refl) as (m & Em & Vm).
  destruct (velocity_mean exg exhi (VSet false false true false) exhi_on exg_good exhi_nonneg eq_refl eq_refl) as (m' & Em' & Vm').
  destruct (velocity_column exg exlo (VSet false false true false) exlo_on exg_good exlo_nonneg eq_refl eq_refl) as (q & Eq & Vq).
  destruct (velocity_column exg exhi (VSet false false true false) exhi_on exg_good exhi_nonneg eq_refl eq_refl) as (q' & Eq' & Vq').
  assert (P : 0 < marg exg (prob exg exlo false) (VSet false false true false) (Bin 0 0 1 0 0)) by (unfold exlo; ex_num).
  assert (P' : 0 < marg exg (prob exg exhi false) (VSet false false true false) (Bin 0 0 1 0 0)) by (unfold exhi; ex_num).
  exists q, q', m, m'. do 2 eexists. split; [exact Eq|]. split; [exact Eq'|]. split; [exact (Vq _ Hi P)|]. split; [exact (Vq' _ Hi P')|].
  split; [exact Em|]. split; [exact Em'|].
  split; [etransitivity; [exact (Vm _ Hi P)|]; f_equal; unfold Mean, Ex, sum_over, cmid, exlo; ex_num; field|].
  split; [etransitivity; [exact (Vm' _ Hi P')|]; f_equal; unfold Mean, Ex, sum_over, cmid, exhi; ex_num; field|].
  match goal with |- _ * apart _ _ _ ?s ?s' = _ =>
    assert (S0 : s (Bin 0 0 1 0 0) = 1) by (unfold column, cw, exlo; ex_num; field);
    assert (S1 : s (Bin 0 1 1 0 0) = 0) by (unfold column, cw, exlo; ex_num; field);
    assert (S0' : s' (Bin 0 0 1 0 0) = 0) by (unfold column, cw, exhi; ex_num; field);
    assert (S1' : s' (Bin 0 1 1 0 0) = 1) by (unfold column, cw, exhi; ex_num; field);
    generalize dependent s; generalize dependent s' end.
  intros s' S0' S1' s S0 S1. unfold span, apart, sum_over, mid. cbn. rewrite S0, S1, S0', S1'.
  replace (1 - 0) with 1 by ring. replace (0 - 1) with (- (1)) by ring. rewrite Rabs_Ropp, Rabs_R1. field.
Qed.

(** ** mixtures: weighted distances of the members plus changes of the weights *)
Theorem C107_mixtures : forall self self' g comps comps' l l', mix_on self g comps l -> mix_on self' g comps' l' -> good_grid g ->
  List.length l' = List.length l -> forall S, nonempty S = true ->
  exists p p' r r', mix_get_p self (name S) true false false = Ok p /\ mix_get_p self' (name S) true false false = Ok p' /\
    reads g p S r /\ reads g p' S r' /\
    (forall k c c', nth_error comps k = Some c -> nth_error comps' k = Some c' -> exists q q', get_p c (name S) false false = Ok q /\
       get_p c' (name S) false false = Ok q' /\ reads g q S (marg g (mass g (pf l k)) S) /\ reads g q' S (marg g (mass g (pf l' k)) S)) /\
    forall i, in_grid g i -> apart g S i r r' <=
      Sum (List.length l) (fun k => pw l k * apart g S i (marg g (mass g (pf l k)) S) (marg g (mass g (pf l' k)) S) +
                                    Rabs (pw l k - pw l' k) * total g (mass g (pf l' k))).
Proof. exact mix_claim. Qed.
Print Assumptions C107_mixtures.
(** the same members with weights (1/4, 3/4) and (1/2, 1/2) *)
Example C107_mixtures_case : exists p p' r r', mix_get_p exm "t" true false false = Ok p /\ mix_get_p exm2 "t" true false false = Ok p' /\
  reads exg p (VSet true false false false) r /\ reads exg p' (VSet true false false false) r' /\
  apart exg (VSet true false false false) exi r r' <= 1 / 4 * total exg (mass exg exf) + 1 / 4 * total exg (mass exg exf1).
Proof.
  destruct (C107_mixtures exm exm2 exg _ _ expts expts2 exm_on exm2_on exg_good eq_refl (VSet true false false false) eq_refl)
    as (p & p' & r & r' & Ep & Ep' & Vp & Vp' & _ & V).
  exists p, p', r, r'. do 4 (split; [assumption|]). eapply Rle_trans; [exact (V exi exi_in)|].
  assert (Z : forall r0, apart exg (VSet true false false false) exi r0 r0 = 0).
  { intros r0. unfold apart, sum_over. cbn. rewrite !Rminus_diag_eq, !Rabs_R0 by reflexivity. lra. }
  cbn [List.length expts Sum pf pw expts2 nth fst snd]. rewrite !Z.
  replace (1 / 4 - 1 / 2) with (- (1 / 4)) by lra. replace (3 / 4 - 1 / 2) with (1 / 4) by lra.
  rewrite Rabs_Ropp, Rabs_pos_eq by lra. lra.
Qed.

(** ** datacubes, with as many velocity bins as pixels and interpolation that keeps
    the values at its knots: distance of the bins of the pixel times the largest
    entry of a template *)
Theorem C107_datacube : forall W self self' g f f' n dv S v0 batch batch' M,
  evaluable self g f n dv S v0 -> evaluable self' g f' n dv S v0 ->
  is_batch batch -> is_batch batch' -> (0 < n)%nat -> nv g = n -> identity_on_knots W (n / 2 + 1) ->
  (forall t z w, (t < nt g)%nat -> (z < nz g)%nat -> (w < n)%nat -> Rabs (S t z w) <= M) ->
  exists y y', evaluate_ybar W self batch = Ok y /\ evaluate_ybar W self' batch' = Ok y' /\
    forall w i j, (w < n)%nat -> (i < nx g)%nat -> (j < ny g)%nat -> exists u u', ent y [w; i; j] = Fin u /\ ent y' [w; i; j] = Fin u' /\
      Rabs (u - u') <= M * Sum (nt g) (fun t => Sum (nz g) (fun z => Sum (nv g) (fun v => Rabs (bin_prob g f dv t i j z v - bin_prob g f' dv t i j z v)))).
Proof. exact cube_apart. Qed.
Print Assumptions C107_datacube.
Example C107_datacube_case : exists y y',
  evaluate_ybar idW (comp_for (exv 1 6 1) (exP 2) 6 1 exunit) "column" = Ok y /\
  evaluate_ybar idW (comp_for (exv 1 6 1) (exP 4) 6 1 exunit) "none" = Ok y' /\
  exists u u', ent y [1; 1; 0]%nat = Fin u /\ ent y' [1; 1; 0]%nat = Fin u' /\
    Rabs (u - u') <= 1 * Sum 1 (fun t => Sum 1 (fun z => Sum 6 (fun v =>
      Rabs (bin_prob (exv 1 6 1) (exP 2) 1 t 1 0 z v - bin_prob (exv 1 6 1) (exP 4) 1 t 1 0 z v)))).
Proof.
  destruct (C107_datacube idW _ _ (exv 1 6 1) (exP 2) (exP 4) 6 1 exunit 3 "column" "none" 1
    ltac:(apply exv_evaluable; try lia; apply exP_nonneg) ltac:(apply exv_evaluable; try lia; apply exP_nonneg))
    as (y & y' & Ey & Ey' & V); try (cbn; lia); [right; left; reflexivity|left; reflexivity|apply idW_identity| |].
  - intros t z w _ _ _. unfold exunit. destruct (Nat.eqb w 0); rewrite ?Rabs_R1, ?Rabs_R0; lra.
  - exists y, y'. split; [exact Ey|]. split; [exact Ey'|]. apply (V 1%nat 1%nat 0%nat); cbn; lia.
Qed.
