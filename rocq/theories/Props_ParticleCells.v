(** * Claim C86: distributions, means and dispersions of binned particles in
    terms of the particles. *)
From Coq Require Import Reals Lra Lia String Ascii List Bool Arith ZArith.
From Verif Require Import Num NumLemmas Arr Cube Base Spec Repr Build Moments MomSpec MomRefuted Particle ParticleSpec ParticleClaims ParticleExample
  ParticleMix ParticleCells ParticleCellsExample.
Import ListNotations.
Local Open Scope R_scope.
Local Open Scope string_scope.

(** marginals are fractions of the weight on the grid; weights are masses, or
    luminosities when light-weighted *)
Theorem C86_marginals : forall c g pw note comp, cube_on c g -> good_grid g ->
  (forall q, In q pw -> 0 <= snd q) -> 0 < weight (in_bounds g) pw ->
  from_particle c (map fst pw) (Some (map Fin (map snd pw))) = Ok (note, comp) ->
  forall lw, 0 < weight (in_bounds g) (weighed g lw pw) ->
  forall S density, nonempty S = true ->
  exists p, get_p comp (name S) density lw = Ok p /\ shp p = dims S g /\
    forall i, in_grid g i -> ent p (coords S i) =
      Fin (weight (in_cell g S i) (weighed g lw pw) / weight (in_bounds g) (weighed g lw pw) / (if density then vol g S i else 1)).
Proof. exact cells_marg_claim. Qed.
Print Assumptions C86_marginals.
(** conditionals are fractions of the weight in the cell of the conditioner, nan
    if it has none *)
Theorem C86_conditionals : forall c g pw note comp, cube_on c g -> good_grid g ->
  (forall q, In q pw -> 0 <= snd q) -> 0 < weight (in_bounds g) pw ->
  from_particle c (map fst pw) (Some (map Fin (map snd pw))) = Ok (note, comp) ->
  forall lw, 0 < weight (in_bounds g) (weighed g lw pw) ->
  forall A C density, nonempty A = true -> nonempty C = true -> disjoint A C = true ->
  exists p, get_p comp (cname A C) density lw = Ok p /\ shp p = (dims A g ++ dims C g)%list /\
    forall i, in_grid g i ->
      (0 < weight (in_cell g C i) (weighed g lw pw) -> ent p (coords A i ++ coords C i) =
         Fin (weight (in_cell g (union A C) i) (weighed g lw pw) / weight (in_cell g C i) (weighed g lw pw) / (if density then vol g A i else 1))) /\
      (weight (in_cell g C i) (weighed g lw pw) = 0 -> ent p (coords A i ++ coords C i) = NaN).
Proof. exact cells_cond_claim. Qed.
Print Assumptions C86_conditionals.
(** binning moves means and dispersions by at most half the widest bin *)
Theorem C86_binning_error : forall c g pw note comp, cube_on c g -> good_grid g ->
  (forall q, In q pw -> 0 <= snd q) -> 0 < weight (in_bounds g) pw ->
  from_particle c (map fst pw) (Some (map Fin (map snd pw))) = Ok (note, comp) ->
  forall lw, 0 < weight (in_bounds g) (weighed g lw pw) ->
  forall k C h, disjoint (cvar k) C = true -> (forall n, (n < cn g k)%nat -> wid (cedge g k) n <= 2 * h) ->
  exists m s, get_mean (base_obj comp) (dname (cvar k) C) lw = Ok m /\ get_dispersion (base_obj comp) (dname (cvar k) C) lw = Ok s /\
    shp m = mdims k C g /\ shp s = mdims k C g /\
    forall i, in_grid g i -> 0 < weight (in_cell g C i) (weighed g lw pw) ->
      exists a b, ent m (mcoords k C i) = Fin a /\ ent s (mcoords k C i) = Fin b /\
        Rabs (a - pmean g C i (pcoord k) (weighed g lw pw)) <= h /\
        Rabs (b - sqrt (pvar g C i (pcoord k) (weighed g lw pw))) <= h.
Proof. exact cells_moment_claim. Qed.
Print Assumptions C86_binning_error.
(** a light-weighted query is the mass-weighted query of a component made with
    luminosities for masses *)
Theorem C86_light_marginals : forall c g pw note note' comp comp', cube_on c g -> good_grid g ->
  (forall q, In q pw -> 0 <= snd q) -> 0 < weight (in_bounds g) pw -> 0 < weight (in_bounds g) (relit g pw) ->
  from_particle c (map fst pw) (Some (map Fin (map snd pw))) = Ok (note, comp) ->
  from_particle c (map fst (relit g pw)) (Some (map Fin (map snd (relit g pw)))) = Ok (note', comp') ->
  forall S density, nonempty S = true ->
  exists a b, get_p comp (name S) density true = Ok a /\ get_p comp' (name S) density false = Ok b /\
    shp a = dims S g /\ shp b = dims S g /\
    forall i, in_grid g i -> ent a (coords S i) = ent b (coords S i) /\ ent a (coords S i) <> NaN.
Proof. exact relit_marg_claim. Qed.
Print Assumptions C86_light_marginals.
Theorem C86_light_conditionals : forall c g pw note note' comp comp', cube_on c g -> good_grid g ->
  (forall q, In q pw -> 0 <= snd q) -> 0 < weight (in_bounds g) pw -> 0 < weight (in_bounds g) (relit g pw) ->
  from_particle c (map fst pw) (Some (map Fin (map snd pw))) = Ok (note, comp) ->
  from_particle c (map fst (relit g pw)) (Some (map Fin (map snd (relit g pw)))) = Ok (note', comp') ->
  forall A C density, nonempty A = true -> nonempty C = true -> disjoint A C = true ->
  exists a b, get_p comp (cname A C) density true = Ok a /\ get_p comp' (cname A C) density false = Ok b /\
    shp a = (dims A g ++ dims C g)%list /\ shp b = (dims A g ++ dims C g)%list /\
    forall i, in_grid g i -> ent a (coords A i ++ coords C i) = ent b (coords A i ++ coords C i).
Proof. exact relit_cond_claim. Qed.
Print Assumptions C86_light_conditionals.
Theorem C86_light_moments : forall c g pw note note' comp comp', cube_on c g -> good_grid g ->
  (forall q, In q pw -> 0 <= snd q) -> 0 < weight (in_bounds g) pw -> 0 < weight (in_bounds g) (relit g pw) ->
  from_particle c (map fst pw) (Some (map Fin (map snd pw))) = Ok (note, comp) ->
  from_particle c (map fst (relit g pw)) (Some (map Fin (map snd (relit g pw)))) = Ok (note', comp') ->
  forall k C j, disjoint (cvar k) C = true ->
  exists m m' q q', get_mean (base_obj comp) (dname (cvar k) C) true = Ok m /\ get_mean (base_obj comp') (dname (cvar k) C) false = Ok m' /\
    get_central_moment (base_obj comp) (dname (cvar k) C) j true = Ok q /\
    get_central_moment (base_obj comp') (dname (cvar k) C) j false = Ok q' /\
    shp m = mdims k C g /\ shp m' = mdims k C g /\ shp q = mdims k C g /\ shp q' = mdims k C g /\
    forall i, in_grid g i -> ent m (mcoords k C i) = ent m' (mcoords k C i) /\ ent q (mcoords k C i) = ent q' (mcoords k C i).
Proof. exact relit_moment_claim. Qed.
Print Assumptions C86_light_moments.

(** the particles of ParticleExample: masses 1 and 3 on the grid, luminosities 4 and 3 *)
Example C86_case : exists note comp, from_particle excube (map fst expw) (Some (map Fin (map snd expw))) = Ok (note, comp) /\
  (exists p, get_p comp "t" false false = Ok p /\ ent p [1%nat] = Fin (1 / 4)) /\
  (exists p, get_p comp "t" false true = Ok p /\ ent p [1%nat] = Fin (4 / 7)) /\
  (exists p, get_p comp "v_t" false false = Ok p /\ ent p [0; 1]%nat = Fin 1) /\
  (exists p, get_p comp "v_xz" true false = Ok p /\ ent p [0; 0; 0; 0]%nat = NaN) /\
  (exists m a, get_mean (base_obj comp) "t" false = Ok m /\ ent m [] = Fin a /\ Rabs (a - 5 / 8) <= 1) /\
  (exists note' comp' a b, from_particle excube (map fst (relit exg expw)) (Some (map Fin (map snd (relit exg expw)))) = Ok (note', comp') /\
     get_p comp "z" false true = Ok a /\ get_p comp' "z" false false = Ok b /\ ent a [1%nat] = ent b [1%nat]).
Proof.
  assert (W : 0 < weight (in_bounds exg) expw) by (rewrite exp_total; lra).
  assert (W' : 0 < weight (in_bounds exg) (relit exg expw)) by (rewrite ex_relit_total; lra).
  destruct (density_claim excube exg excube_on exg_good expw W) as (comp & E & _). exists (note_of exg (map fst expw)), comp.
  split; [exact E|].
  assert (I1 : in_grid exg (Bin 1 0 0 0 0)) by (unfold in_grid; cbn; lia).
  assert (I0 : in_grid exg (Bin 0 0 0 0 0)) by (unfold in_grid; cbn; lia).
  assert (I2 : in_grid exg (Bin 0 0 0 0 1)) by (unfold in_grid; cbn; lia).
  repeat split.
  - destruct (C86_marginals _ _ _ _ _ excube_on exg_good exp_pos W E false W cell_t false eq_refl) as (p & Ep & _ & Hv).
    exists p. split; [exact Ep|]. etransitivity; [exact (Hv _ I1)|]. cbn [weighed]. rewrite (proj1 ex_cell_t), exp_total. f_equal. field.
  - destruct (C86_marginals _ _ _ _ _ excube_on exg_good exp_pos W E true W' cell_t false eq_refl) as (p & Ep & _ & Hv).
    exists p. split; [exact Ep|]. etransitivity; [exact (Hv _ I1)|]. cbn [weighed]. rewrite (proj2 ex_cell_t), ex_relit_total. f_equal. field.
  - destruct (C86_conditionals _ _ _ _ _ excube_on exg_good exp_pos W E false W cell_v cell_t false eq_refl eq_refl eq_refl) as (p & Ep & _ & Hv).
    exists p. split; [exact Ep|]. destruct (Hv _ I1) as [H _]. etransitivity; [apply H; cbn [weighed]; rewrite (proj1 ex_cell_t); lra|].
    cbn [weighed]. rewrite (proj1 ex_cell_t), ex_cell_vt. f_equal. field.
  - destruct (C86_conditionals _ _ _ _ _ excube_on exg_good exp_pos W E false W cell_v cell_xz true eq_refl eq_refl eq_refl) as (p & Ep & _ & Hv).
    exists p. split; [exact Ep|]. destruct (Hv _ I0) as [_ H]. apply H. exact ex_cell_xz.
  - destruct (C86_binning_error _ _ _ _ _ excube_on exg_good exp_pos W E false W Ct no_vars 1 eq_refl) as (m & s & Em & _ & _ & _ & Hv).
    { intros n Hn. cbn in Hn |- *. unfold wid; cbn [tE exg]. destruct n as [|[|n]]; [| |lia]; cbn; lra. }
    destruct (Hv _ I0) as (a & b & Ea & _ & Ha & _). { rewrite (exp_total : weight (in_cell exg no_vars _) (weighed exg false expw) = 4). lra. }
    exists m, a. split; [exact Em|]. split; [exact Ea|].
    replace (pmean exg no_vars (Bin 0 0 0 0 0) (pcoord Ct) (weighed exg false expw)) with (5 / 8) in Ha; [exact Ha|].
    cbn [weighed]. unfold pmean. change (in_cell exg no_vars (Bin 0 0 0 0 0)) with (in_bounds exg). rewrite exp_total.
    unfold expw. cbn [map fst snd]. rewrite pa_bounds, pb_bounds, pout_bounds. unfold sumR, pcoord, pa, pb; cbn. lra.
  - destruct (density_claim excube exg excube_on exg_good (relit exg expw) W') as (comp' & E' & _).
    destruct (C86_light_marginals _ _ _ _ _ _ _ excube_on exg_good exp_pos W W' E E' (VSet false false false true) false eq_refl) as (a & b & Ea & Eb & _ & _ & Hv).
    do 4 eexists. split; [exact E'|]. split; [exact Ea|]. split; [exact Eb|]. exact (proj1 (Hv _ I2)).
Qed.
