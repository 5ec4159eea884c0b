(** * Props_Parametric: claims C49 and C50 about the distributions of
    parametric components. *)
From Coq Require Import Reals Lra Lia List Bool Arith ZArith String Ascii.
From Verif Require Import Num NumLemmas Arr PyStr Cube Base Parametric GrowingDisk Stream Spec Repr ParSpec ParRepr
  ParSetSpec Build ParSetLemmas ParLemmas ParDist ParBuild ParClaims ParExample.
Import ListNotations.
Local Open Scope R_scope.

(** C49: marginals and conditionals are those of the factorised joint. *)
Theorem C49_marginals : forall L self g m, par_on L self g m -> good_grid g -> good_par g m ->
  forall S (density lw : bool), nonempty S = true -> par_lw_ok g m lw (has_v S) ->
  exists a, par_get_p L self (name S) density lw = Ok a /\ shp a = dims S g /\
    forall i, in_grid g i ->
      ent a (coords S i) = Fin (par_prob g m lw S i / (if density then vol g S i else 1)).
Proof. exact par_p_marg. Qed.
Print Assumptions C49_marginals.
Theorem C49_conditionals : forall L self g m, par_on L self g m -> good_grid g -> good_par g m ->
  forall A C (density lw : bool), nonempty A = true -> nonempty C = true -> disjoint A C = true ->
  par_lw_ok g m lw (has_v (union A C)) -> (lw = true -> cname A C <> "v_tx"%string) ->
  exists a, par_get_p L self (cname A C) density lw = Ok a /\ shp a = (dims A g ++ dims C g)%list /\
    forall i, in_grid g i ->
      (0 < par_prob g m lw C i -> ent a (coords A i ++ coords C i) =
        Fin (par_prob g m lw (union A C) i / par_prob g m lw C i / (if density then vol g A i else 1))) /\
      (par_prob g m lw C i = 0 -> lw = true \/ ~ In (cname A C) ["x_t"; "z_tx"; "v_tx"]%string ->
        ent a (coords A i ++ coords C i) = NaN).
Proof. exact par_cond_claim. Qed.
Print Assumptions C49_conditionals.
(** the stored factors are returned where the condition has no mass as well *)
Theorem C49_stored_factors : forall L self g m, par_on L self g m -> good_grid g -> good_par g m ->
  forall density : bool,
  (exists a, par_get_p L self "x_t" density false = Ok a /\ shp a = [nx g; ny g; nt g] /\
    forall t x y, (t < nt g)%nat -> (x < nx g)%nat -> (y < ny g)%nat ->
    ent a [x; y; t] = Fin (pm_x m t x y * (if density then 1 else wid (xE g) x * wid (yE g) y))) /\
  (exists a, par_get_p L self "z_tx" density false = Ok a /\ shp a = [nz g; nt g; nx g; ny g] /\
    forall t x y z, (t < nt g)%nat -> (x < nx g)%nat -> (y < ny g)%nat -> (z < nz g)%nat ->
    ent a [z; t; x; y] = Fin (pm_z m t x y z * (if density then 1 else wid (zE g) z))) /\
  (exists a, par_get_p L self "v_tx" density false = Ok a /\ shp a = [nv g; nt g; nx g; ny g] /\
    forall t v x y, (t < nt g)%nat -> (v < nv g)%nat -> (x < nx g)%nat -> (y < ny g)%nat ->
    ent a [v; t; x; y] = Fin (vbin g m t v x y / (if density then wid (vE g) v else 1))).
Proof.
  exact (fun L self g m H Hg Hm density => conj (x_t_query L self g m H Hg Hm density)
    (conj (z_tx_query L self g m H Hg Hm density) (v_tx_query L self g m H Hg Hm density))).
Qed.
Print Assumptions C49_stored_factors.
(** light-weighted p(v|t,x) is normalised over the velocities of the cube *)
Theorem C49_light_weighted_v_tx : forall L self g m, par_on L self g m -> good_grid g -> good_par g m ->
  forall density : bool, par_lw_ok g m true true ->
  exists a, par_get_p L self "v_tx" density true = Ok a /\ shp a = [nv g; nt g; nx g; ny g] /\
    forall i, in_grid g i -> let P v := par_prob g m true (VSet true true true false) (set_v v i) in
      (0 < Sum (nv g) P -> ent a [bv i; bt i; bx i; by_ i] =
         Fin (P (bv i) / Sum (nv g) P / (if density then wid (vE g) (bv i) else 1))) /\
      (Sum (nv g) P = 0 -> ent a [bv i; bt i; bx i; by_ i] = NaN).
Proof. exact par_v_tx_claim. Qed.
Print Assumptions C49_light_weighted_v_tx.
(** every GrowingDisk and every Stream with valid arguments meets the hypotheses *)
Theorem C49_growing_disk : forall L c g X0 Y0 x0 y0 rot f,
  cube_on c g -> good_grid g -> cube_xy c g X0 Y0 -> sfh_ok L f -> good_norm (norm_cdf L) ->
  forall d, disk_ok d ->
  (exists x y, (x < nx g)%nat /\ (y < ny g)%nat /\ cos rot * (X0 x y - x0) <> sin rot * (Y0 x y - y0)) ->
  exists self m, build_disk L c (x0, y0) rot f d = Ok self /\ par_on L self g m /\ good_par g m /\
    (positive_light g -> forall b, par_lw_ok g m true b).
Proof. exact disk_represents. Qed.
Print Assumptions C49_growing_disk.
Theorem C49_stream : forall L c g X0 Y0 x0 y0 rot f,
  cube_on c g -> good_grid g -> cube_xy c g X0 Y0 -> sfh_ok L f -> good_norm (norm_cdf L) ->
  forall d, stream_ok d ->
  exists self m, build_stream L c (x0, y0) rot f d = Ok self /\ par_on L self g m /\ good_par g m /\
    (positive_light g -> forall b, par_lw_ok g m true b).
Proof. exact stream_represents. Qed.
Print Assumptions C49_stream.

Example C49_example : exists self m, build_disk exL excube (1, 1 / 2) 0 exsfh exdisk = Ok self /\
  par_on exL self exg m /\ good_grid exg /\ good_par exg m /\ par_lw_ok exg m true true /\
  exists a b, par_get_p exL self "tz" false true = Ok a /\ par_get_p exL self "v_z" false true = Ok b /\
    ent a [1; 1]%nat = Fin (par_prob exg m true (VSet true false false true) exi / 1).
Proof.
  destruct (C49_growing_disk exL excube exg exX exY 1 (1 / 2) 0 exsfh excube_on exg_good excube_xy exsfh_ok exL_norm exdisk exdisk_ok ex_off_axis)
    as (self & m & E & Hon & Hm & Hl).
  exists self, m. split; [exact E|]. split; [exact Hon|]. split; [exact exg_good|]. split; [exact Hm|].
  split; [exact (Hl exg_light true)|].
  destruct (C49_marginals exL self exg m Hon exg_good Hm (VSet true false false true) false true eq_refl (Hl exg_light false)) as (a & Ea & _ & Va).
  destruct (C49_conditionals exL self exg m Hon exg_good Hm (VSet false true false false) (VSet false false false true) false true
    eq_refl eq_refl eq_refl (Hl exg_light true) ltac:(discriminate)) as (b & Eb & _).
  exists a, b. split; [exact Ea|]. split; [exact Eb|]. exact (Va exi exi_in).
Qed.
Example C49_stream_example : exists self m, build_stream exL excube (1, 1 / 2) 0 exsfh exstream = Ok self /\
  par_on exL self exg m /\ good_par exg m /\ exists a, par_get_p exL self "v_tx" true true = Ok a /\ shp a = [2; 2; 2; 1]%nat.
Proof.
  destruct (C49_stream exL excube exg exX exY 1 (1 / 2) 0 exsfh excube_on exg_good excube_xy exsfh_ok exL_norm exstream exstream_ok)
    as (self & m & E & Hon & Hm & Hl).
  exists self, m. split; [exact E|]. split; [exact Hon|]. split; [exact Hm|].
  destruct (C49_light_weighted_v_tx exL self exg m Hon exg_good Hm true (Hl exg_light true)) as (a & Ea & Hs & _).
  exists a. split; [exact Ea|exact Hs].
Qed.

(** C50: distributions with v summed over v fall short of those without v by
    the mass at velocities outside the cube. *)
Theorem C50_lost_mass : forall L self g m, par_on L self g m -> good_grid g -> good_par g m ->
  forall S, nonempty S = true -> has_v S = false ->
  exists a b, par_get_p L self (name S) false false = Ok a /\ par_get_p L self (name (with_v true S)) false false = Ok b /\
    forall i, in_grid g i -> exists p q, ent a (coords S i) = Fin p /\
      (forall v, (v < nv g)%nat -> ent b (coords (with_v true S) (set_v v i)) = Fin (q v)) /\
      p - Sum (nv g) q = marg (flat g) (fun t _ x y z => txz_mass g m t x y z *
        (pm_F m ((vE g 0 - pm_mu m t x y) / pm_sig m t x y) + (1 - pm_F m ((vE g (nv g) - pm_mu m t x y) / pm_sig m t x y)))) S i.
Proof. exact lost_claim. Qed.
Print Assumptions C50_lost_mass.
(** p(t,v) summed over v is less than p(t) at every age with stars *)
Theorem C50_summation_refuted : forall L self g m, par_on L self g m -> good_grid g -> good_par g m ->
  forall t, good_norm (pm_F m) -> (t < nt g)%nat -> 0 < pm_t m t ->
  exists a b, par_get_p L self "t" false false = Ok a /\ par_get_p L self "tv" false false = Ok b /\
    exists p q, ent a [t] = Fin p /\ (forall v, (v < nv g)%nat -> ent b [t; v] = Fin (q v)) /\ Sum (nv g) q < p.
Proof. exact lost_strict. Qed.
Print Assumptions C50_summation_refuted.
Theorem C50_v_tx_normalisation : forall L self g m, par_on L self g m -> good_grid g -> good_par g m ->
  par_lw_ok g m true true ->
  exists a b, par_get_p L self "v_tx" false false = Ok a /\ par_get_p L self "v_tx" false true = Ok b /\
    forall t x y, (t < nt g)%nat -> (x < nx g)%nat -> (y < ny g)%nat ->
      (exists q, (forall v, (v < nv g)%nat -> ent a [v; t; x; y] = Fin (q v)) /\
         Sum (nv g) q = pm_F m ((vE g (nv g) - pm_mu m t x y) / pm_sig m t x y) - pm_F m ((vE g 0 - pm_mu m t x y) / pm_sig m t x y)) /\
      (0 < Sum (nv g) (fun v => par_prob g m true (VSet true true true false) (Bin t v x y 0)) ->
       exists q, (forall v, (v < nv g)%nat -> ent b [v; t; x; y] = Fin (q v)) /\ Sum (nv g) q = 1).
Proof. exact v_tx_sums. Qed.
Print Assumptions C50_v_tx_normalisation.

Example C50_example : exists self m t, build_stream exL excube (1, 1 / 2) 0 exsfh exstream = Ok self /\
  par_on exL self exg m /\ good_par exg m /\ (t < nt exg)%nat /\
  exists a b, par_get_p exL self "t" false false = Ok a /\ par_get_p exL self "tv" false false = Ok b /\
    exists p q0 q1, ent a [t] = Fin p /\ ent b [t; 0%nat] = Fin q0 /\ ent b [t; 1%nat] = Fin q1 /\ q0 + q1 < p.
Proof.
  destruct (stream_built exL excube exg exX exY (1, 1 / 2) 0 exsfh excube_on exg_good excube_xy exsfh_ok exL_norm exstream exstream_ok)
    as (self & E & _ & _ & _ & Hon & Hm).
  destruct (some_age exL exg exsfh exg_good exsfh_ok) as (t & Ht & Hp).
  eexists self, _, t. split; [exact E|]. split; [exact Hon|]. split; [exact Hm|]. split; [exact Ht|].
  destruct (C50_summation_refuted exL self exg _ Hon exg_good Hm t exL_norm Ht Hp) as (a & b & Ea & Eb & p & q & Va & Vb & HS).
  exists a, b. split; [exact Ea|]. split; [exact Eb|]. exists p, (q 0%nat), (q 1%nat).
  split; [exact Va|]. split; [apply Vb; cbn; lia|]. split; [apply Vb; cbn; lia|]. cbn [exg nv Sum] in HS. lra.
Qed.
