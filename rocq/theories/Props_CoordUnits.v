(** * Claim C91: coordinates in other units and from other origins.

    [rescaled u g]: the grid g with every edge of coordinate k written as
    uo u k + us u k times its value; [per_unit u f], [par_in_units u m],
    [kinds_in_units u l]: densities per new unit volume, velocities and
    dispersions in the new units; [per_volume u S density a]: a over the unit
    volume of S for densities, a itself for probabilities (CoordUnitsSpec.v). *)
From Coq Require Import Reals Lra Lia List Bool Arith ZArith String Ascii.
From Verif Require Import Num NumLemmas Arr ArrLemmas PyStr Cube Base Parametric Spec SpecLemmas Repr ParSpec ParRepr MomSpec MomLemmas Moments
  ParMoments GaussSpec ParMomSpec ParMomOther ParMomExample Build ParExample Mixture MixParSpec MixParLemmas MixParClaims MixParExample
  Fft DatacubeSpec Datacube DatacubeClaims ParYbarSpec ParEval ParEvalLemmas Sharing SharingLemmas DatacubeExample CoordUnitsSpec CoordUnits CoordUnitsPar.
Import ListNotations.
Local Open Scope R_scope.
Local Open Scope string_scope.

(** ** base components *)
Theorem C91_marginals : forall u, positive_units u -> forall c c' g f, comp_on c g f -> comp_on c' (rescaled u g) (per_unit u f) -> good_grid g -> nonneg g f ->
  forall S (density lw : bool), nonempty S = true -> lw_ok g f lw ->
  exists a b, get_p c (name S) density lw = Ok a /\ get_p c' (name S) density lw = Ok b /\ shp a = dims S g /\ shp b = dims S g /\
    forall i, in_grid g i -> ent b (coords S i) = per_volume u S density (ent a (coords S i)).
Proof. exact units_marg. Qed.
Print Assumptions C91_marginals.
Theorem C91_conditionals : forall u, positive_units u -> forall c c' g f, comp_on c g f -> comp_on c' (rescaled u g) (per_unit u f) -> good_grid g -> nonneg g f ->
  forall A C (density lw : bool), nonempty A = true -> nonempty C = true -> disjoint A C = true -> lw_ok g f lw ->
  exists a b, get_p c (cname A C) density lw = Ok a /\ get_p c' (cname A C) density lw = Ok b /\
    shp a = (dims A g ++ dims C g)%list /\ shp b = (dims A g ++ dims C g)%list /\
    forall i, in_grid g i -> ent b (coords A i ++ coords C i) = per_volume u A density (ent a (coords A i ++ coords C i)).
Proof. exact units_cond. Qed.
Print Assumptions C91_conditionals.
Theorem C91_means : forall u, positive_units u -> forall c c' g f, comp_on c g f -> comp_on c' (rescaled u g) (per_unit u f) -> good_grid g -> nonneg g f ->
  forall C lw, lw_ok g f lw -> (nonempty C = false -> lw = false -> total g (mass g f) = 1) -> forall q, disjoint (cvar q) C = true ->
  exists a b, get_mean (base_obj c) (dname (cvar q) C) lw = Ok a /\ get_mean (base_obj c') (dname (cvar q) C) lw = Ok b /\
    shp a = mdims q C g /\ shp b = mdims q C g /\ forall i, in_grid g i -> ent b (mcoords q C i) = num_in_units u q (ent a (mcoords q C i)).
Proof. exact units_mean. Qed.
Print Assumptions C91_means.
Theorem C91_central_moments : forall u, positive_units u -> forall c c' g f, comp_on c g f -> comp_on c' (rescaled u g) (per_unit u f) -> good_grid g -> nonneg g f ->
  forall C lw, lw_ok g f lw -> (nonempty C = false -> lw = false -> total g (mass g f) = 1) -> forall q, disjoint (cvar q) C = true -> forall j,
  exists a b, get_central_moment (base_obj c) (dname (cvar q) C) j lw = Ok a /\ get_central_moment (base_obj c') (dname (cvar q) C) j lw = Ok b /\
    shp a = mdims q C g /\ shp b = mdims q C g /\ forall i, in_grid g i -> ent b (mcoords q C i) = nmul (Fin (us u q ^ j)) (ent a (mcoords q C i)).
Proof. exact units_central. Qed.
Print Assumptions C91_central_moments.
Theorem C91_dispersions : forall u, positive_units u -> forall c c' g f, comp_on c g f -> comp_on c' (rescaled u g) (per_unit u f) -> good_grid g -> nonneg g f ->
  forall C lw, lw_ok g f lw -> (nonempty C = false -> lw = false -> total g (mass g f) = 1) -> forall q, disjoint (cvar q) C = true ->
  exists a b, get_dispersion (base_obj c) (dname (cvar q) C) lw = Ok a /\ get_dispersion (base_obj c') (dname (cvar q) C) lw = Ok b /\
    shp a = mdims q C g /\ shp b = mdims q C g /\ forall i, in_grid g i -> ent b (mcoords q C i) = nmul (Fin (us u q)) (ent a (mcoords q C i)).
Proof. exact units_dispersion. Qed.
Print Assumptions C91_dispersions.
(** skewness, kurtosis and excess kurtosis have no units *)
Theorem C91_shapes : forall u, positive_units u -> forall c c' g f, comp_on c g f -> comp_on c' (rescaled u g) (per_unit u f) -> good_grid g -> nonneg g f ->
  forall C lw, lw_ok g f lw -> (nonempty C = false -> lw = false -> total g (mass g f) = 1) -> forall q, disjoint (cvar q) C = true -> forall f2m1,
  exists sk sk' ku ku' ek ek', get_skewness (base_obj c) (dname (cvar q) C) lw = Ok sk /\ get_skewness (base_obj c') (dname (cvar q) C) lw = Ok sk' /\
    get_kurtosis (base_obj c) (dname (cvar q) C) lw = Ok ku /\ get_kurtosis (base_obj c') (dname (cvar q) C) lw = Ok ku' /\
    get_excess_kurtosis f2m1 (base_obj c) (dname (cvar q) C) lw = Ok ek /\ get_excess_kurtosis f2m1 (base_obj c') (dname (cvar q) C) lw = Ok ek' /\
    forall i, in_grid g i -> 0 < marg g (prob g f lw) C i ->
      ent sk' (mcoords q C i) = ent sk (mcoords q C i) /\ ent ku' (mcoords q C i) = ent ku (mcoords q C i) /\ ent ek' (mcoords q C i) = ent ek (mcoords q C i).
Proof. exact units_shape. Qed.
Print Assumptions C91_shapes.
(** (the third L-moment as coded depends on the origin, C20) *)
Theorem C91_l_means : forall u, positive_units u -> forall c c' g f, comp_on c g f -> comp_on c' (rescaled u g) (per_unit u f) -> good_grid g -> nonneg g f ->
  forall C lw, lw_ok g f lw -> (nonempty C = false -> lw = false -> total g (mass g f) = 1) -> forall q, disjoint (cvar q) C = true -> is_x q = false ->
  exists a b, get_l_mean (base_obj c) (dname (cvar q) C) lw = Ok a /\ get_l_mean (base_obj c') (dname (cvar q) C) lw = Ok b /\
    shp a = dims C g /\ shp b = dims C g /\ forall i, in_grid g i -> ent b (coords C i) = num_in_units u q (ent a (coords C i)).
Proof. exact units_l_mean. Qed.
Print Assumptions C91_l_means.
Theorem C91_l_dispersions : forall u, positive_units u -> forall c c' g f, comp_on c g f -> comp_on c' (rescaled u g) (per_unit u f) -> good_grid g -> nonneg g f ->
  forall C lw, lw_ok g f lw -> (nonempty C = false -> lw = false -> total g (mass g f) = 1) -> forall q, disjoint (cvar q) C = true -> is_x q = false ->
  exists a b, get_l_dispersion (base_obj c) (dname (cvar q) C) lw = Ok a /\ get_l_dispersion (base_obj c') (dname (cvar q) C) lw = Ok b /\
    shp a = dims C g /\ shp b = dims C g /\ forall i, in_grid g i -> ent b (coords C i) = nmul (Fin (us u q)) (ent a (coords C i)).
Proof. exact units_l_disp. Qed.
Print Assumptions C91_l_dispersions.
Theorem C91_covariances : forall u, positive_units u -> forall c c' g f, comp_on c g f -> comp_on c' (rescaled u g) (per_unit u f) -> good_grid g -> nonneg g f ->
  forall C lw, lw_ok g f lw -> (nonempty C = false -> lw = false -> total g (mass g f) = 1) ->
  forall x y, before x y = true -> disjoint (union (cvar x) (cvar y)) C = true ->
  exists a b, get_covariance (base_obj c) (dname (union (cvar x) (cvar y)) C) lw = Ok a /\ get_covariance (base_obj c') (dname (union (cvar x) (cvar y)) C) lw = Ok b /\
    shp a = mdims (xkey x y) C g /\ shp b = mdims (xkey x y) C g /\
    forall i, in_grid g i -> ent b (mcoords (xkey x y) C i) = nmul (Fin (us u x * us u y)) (ent a (mcoords (xkey x y) C i)).
Proof. exact units_cov. Qed.
Print Assumptions C91_covariances.
Theorem C91_correlations : forall u, positive_units u -> forall c c' g f, comp_on c g f -> comp_on c' (rescaled u g) (per_unit u f) -> good_grid g -> nonneg g f ->
  forall C lw, lw_ok g f lw -> (nonempty C = false -> lw = false -> total g (mass g f) = 1) ->
  forall x y, before x y = true -> disjoint (union (cvar x) (cvar y)) C = true ->
  exists a b, get_correlation (base_obj c) (dname (union (cvar x) (cvar y)) C) lw = Ok a /\ get_correlation (base_obj c') (dname (union (cvar x) (cvar y)) C) lw = Ok b /\
    shp a = mdims (xkey x y) C g /\ shp b = mdims (xkey x y) C g /\
    forall i, in_grid g i -> ent b (mcoords (xkey x y) C i) = ent a (mcoords (xkey x y) C i).
Proof. exact units_corr. Qed.
Print Assumptions C91_correlations.
(** ages in Myr, velocities in m/s from 5, positions in units of 1/2 from -1 and
    4, metallicities in units of 1/10 from 3 *)
Definition exu : units := Units
  (fun k => match k with Ct => 1000 | Cv => 1000 | Cx1 => 2 | Cx2 => 2 | Cz => 10 end)
  (fun k => match k with Ct => 0 | Cv => 5 | Cx1 => -1 | Cx2 => 4 | Cz => 3 end).
Lemma exu_pos : positive_units exu. Proof. intros []; cbn; lra. Qed.
Lemma rescaled_x u g : uniform (nx g) (xE g) -> uniform (nx (rescaled u g)) (xE (rescaled u g)).
Proof. intros H i Hi. specialize (H i Hi). unfold wid in *. cbn. unfold in_units. nra. Qed.
Lemma rescaled_y u g : uniform (ny g) (yE g) -> uniform (ny (rescaled u g)) (yE (rescaled u g)).
Proof. intros H i Hi. specialize (H i Hi). unfold wid in *. cbn. unfold in_units. nra. Qed.
Definition excu : component := comp_of (rescaled exu exg) (per_unit exu exf).
Lemma excu_on : comp_on excu (rescaled exu exg) (per_unit exu exf).
Proof. apply comp_of_on; [apply rescaled_x, exg_uniform_x|apply rescaled_y, exg_uniform_y]. Qed.
Example C91_case : (exists a b, get_p exc "t_x" true true = Ok a /\ get_p excu "t_x" true true = Ok b /\
    ent b [1; 0; 0]%nat = ndiv (ent a [1; 0; 0]%nat) (Fin 1000)) /\
  (exists a b, get_mean (base_obj exc) "v_t" true = Ok a /\ get_mean (base_obj excu) "v_t" true = Ok b /\
    ent b [0]%nat = nadd (Fin 5) (nmul (Fin 1000) (ent a [0]%nat))) /\
  (exists a b, get_covariance (base_obj exc) "tv_x" false = Ok a /\ get_covariance (base_obj excu) "tv_x" false = Ok b /\
    ent b [0; 0]%nat = nmul (Fin 1000000) (ent a [0; 0]%nat)).
Proof.
  split; [|split].
  - destruct (C91_conditionals exu exu_pos exc excu exg exf exc_on excu_on exg_good exf_nonneg (VSet true false false false) (VSet false false true false)
      true true eq_refl eq_refl eq_refl (ex_lw_ok true)) as (a & b & Ea & Eb & _ & _ & He).
    exists a, b. do 2 (split; [assumption|]). etransitivity; [apply (He (Bin 1 0 0 0 0)); repeat split; cbn; lia|].
    unfold per_volume, unit_vol, ifw. cbn -[ndiv]. do 2 f_equal. lra.
  - destruct (C91_means exu exu_pos exc excu exg exf exc_on excu_on exg_good exf_nonneg (VSet true false false false) true (ex_lw_ok true)
      ltac:(discriminate) Cv eq_refl) as (a & b & Ea & Eb & _ & _ & He).
    exists a, b. do 2 (split; [assumption|]). apply (He (Bin 0 0 0 0 0)); repeat split; cbn; lia.
  - destruct (C91_covariances exu exu_pos exc excu exg exf exc_on excu_on exg_good exf_nonneg (VSet false false true false) false (ex_lw_ok false)
      ltac:(discriminate) Ct Cv eq_refl eq_refl) as (a & b & Ea & Eb & _ & _ & He).
    exists a, b. do 2 (split; [assumption|]). etransitivity; [apply (He (Bin 0 0 0 0 0)); repeat split; cbn; lia|].
    cbn -[nmul]. do 2 f_equal. lra.
Qed.

(** ** parametric components *)
Theorem C91_parametric_marginals : forall u, positive_units u -> forall L s s' g m, par_on L s g m -> par_on L s' (rescaled u g) (par_in_units u m) ->
  good_grid g -> good_par g m -> forall S (density lw : bool), nonempty S = true -> par_lw_ok g m lw (has_v S) ->
  exists a b, par_get_p L s (name S) density lw = Ok a /\ par_get_p L s' (name S) density lw = Ok b /\ shp a = dims S g /\ shp b = dims S g /\
    forall i, in_grid g i -> ent b (coords S i) = per_volume u S density (ent a (coords S i)).
Proof. exact units_par_marg. Qed.
Print Assumptions C91_parametric_marginals.
(** (light-weighted v_tx raises, C54) *)
Theorem C91_parametric_conditionals : forall u, positive_units u -> forall L s s' g m, par_on L s g m -> par_on L s' (rescaled u g) (par_in_units u m) ->
  good_grid g -> good_par g m -> forall A C (density lw : bool), nonempty A = true -> nonempty C = true -> disjoint A C = true ->
  par_lw_ok g m lw (has_v (union A C)) -> par_lw_ok g m lw (has_v C) -> (lw = true -> cname A C <> "v_tx") ->
  exists a b, par_get_p L s (cname A C) density lw = Ok a /\ par_get_p L s' (cname A C) density lw = Ok b /\
    shp a = (dims A g ++ dims C g)%list /\ shp b = (dims A g ++ dims C g)%list /\
    forall i, in_grid g i -> 0 < par_prob g m lw C i \/ lw = true ->
      ent b (coords A i ++ coords C i) = per_volume u A density (ent a (coords A i ++ coords C i)).
Proof. exact units_par_cond. Qed.
Print Assumptions C91_parametric_conditionals.
Theorem C91_parametric_means : forall u, positive_units u -> forall L s s' g m, par_on L s g m -> par_on L s' (rescaled u g) (par_in_units u m) ->
  good_grid g -> good_par g m -> forall lw C, has_v C = false -> par_lw_ok g m lw false ->
  exists a b, get_mean (par_obj L (Fin 1) s) (dname V_v C) lw = Ok a /\ get_mean (par_obj L (Fin 1) s') (dname V_v C) lw = Ok b /\
    shp a = dims C g /\ shp b = dims C g /\
    forall i, in_grid g i -> 0 < par_prob g m lw C i -> (nonempty C = false -> lw = false -> par_prob g m false no_vars i = 1) ->
      ent b (coords C i) = num_in_units u Cv (ent a (coords C i)).
Proof. exact units_par_mean. Qed.
Print Assumptions C91_parametric_means.
Theorem C91_parametric_central_moments : forall u, positive_units u -> forall L s s' g m, par_on L s g m -> par_on L s' (rescaled u g) (par_in_units u m) ->
  good_grid g -> good_par g m -> forall lw C, has_v C = false -> par_lw_ok g m lw false -> forall j,
  exists a b, get_central_moment (par_obj L (Fin 1) s) (dname V_v C) j lw = Ok a /\ get_central_moment (par_obj L (Fin 1) s') (dname V_v C) j lw = Ok b /\
    shp a = dims C g /\ shp b = dims C g /\
    forall i, in_grid g i -> 0 < par_prob g m lw C i -> (nonempty C = false -> lw = false -> par_prob g m false no_vars i = 1) ->
      ent b (coords C i) = nmul (Fin (us u Cv ^ j)) (ent a (coords C i)).
Proof. exact units_par_central. Qed.
Print Assumptions C91_parametric_central_moments.
Definition exmpu : par := par_of (rescaled exu exg) (par_in_units exu exmod).
Lemma exmpu_on : par_on exL exmpu (rescaled exu exg) (par_in_units exu exmod).
Proof. apply par_of_on; [apply rescaled_x, exg_uniform_x|apply rescaled_y, exg_uniform_y|reflexivity]. Qed.
Example C91_parametric_case : (exists a b, par_get_p exL exmp "t_x" true true = Ok a /\ par_get_p exL exmpu "t_x" true true = Ok b /\
    ent b [1; 1; 0]%nat = ndiv (ent a [1; 1; 0]%nat) (Fin 1000)) /\
  (exists a b, get_mean (par_obj exL (Fin 1) exmp) "v" false = Ok a /\ get_mean (par_obj exL (Fin 1) exmpu) "v" false = Ok b /\
    ent b [] = nadd (Fin 5) (nmul (Fin 1000) (ent a []))) /\
  (exists a b, get_central_moment (par_obj exL (Fin 1) exmp) "v" 3 false = Ok a /\ get_central_moment (par_obj exL (Fin 1) exmpu) "v" 3 false = Ok b /\
    ent b [] = nmul (Fin (1000 ^ 3)) (ent a [])).
Proof.
  assert (N : forall i, 0 < par_prob exg exmod false no_vars i) by (intros i; rewrite exmod_norm; lra).
  split; [|split].
  - destruct (C91_parametric_conditionals exu exu_pos exL exmp exmpu exg exmod exmp_on exmpu_on exg_good exmod_good
      (VSet true false false false) (VSet false false true false) true true eq_refl eq_refl eq_refl (exmod_lw true) (exmod_lw true) ltac:(discriminate))
      as (a & b & Ea & Eb & _ & _ & He).
    exists a, b. do 2 (split; [assumption|]). etransitivity; [apply (He (Bin 1 0 1 0 0)); [repeat split; cbn; lia|right; reflexivity]|].
    unfold per_volume, unit_vol, ifw. cbn -[ndiv]. do 2 f_equal. lra.
  - destruct (C91_parametric_means exu exu_pos exL exmp exmpu exg exmod exmp_on exmpu_on exg_good exmod_good false no_vars eq_refl (exmod_lw false))
      as (a & b & Ea & Eb & _ & _ & He).
    exists a, b. do 2 (split; [assumption|]). apply (He (Bin 0 0 0 0 0)); [repeat split; cbn; lia|apply N|intros _ _; apply exmod_norm].
  - destruct (C91_parametric_central_moments exu exu_pos exL exmp exmpu exg exmod exmp_on exmpu_on exg_good exmod_good false no_vars eq_refl (exmod_lw false) 3)
      as (a & b & Ea & Eb & _ & _ & He).
    exists a, b. do 2 (split; [assumption|]). apply (He (Bin 0 0 0 0 0)); [repeat split; cbn; lia|apply N|intros _ _; apply exmod_norm].
Qed.

(** ** mixtures of base and parametric components *)
Theorem C91_mixture_marginals : forall u, positive_units u -> forall s s' g l, mixed_on s g l -> mixed_on s' (rescaled u g) (kinds_in_units u l) -> good_grid g ->
  forall S (density lw : bool), nonempty S = true -> lit_ok g (kmix g l (has_v S)) lw ->
  exists a b, mix_get_p s (name S) true density lw = Ok a /\ mix_get_p s' (name S) true density lw = Ok b /\ shp a = dims S g /\ shp b = dims S g /\
    forall i, in_grid g i -> ent b (coords S i) = per_volume u S density (ent a (coords S i)).
Proof. exact units_mix_marg. Qed.
Print Assumptions C91_mixture_marginals.
Theorem C91_mixture_conditionals : forall u, positive_units u -> forall s s' g l, mixed_on s g l -> mixed_on s' (rescaled u g) (kinds_in_units u l) -> good_grid g ->
  forall A C (density lw : bool), nonempty A = true -> nonempty C = true -> disjoint A C = true ->
  lit_ok g (kmix g l (has_v (union A C))) lw -> lit_ok g (kmix g l (has_v C)) lw ->
  exists a b, mix_get_p s (cname A C) true density lw = Ok a /\ mix_get_p s' (cname A C) true density lw = Ok b /\
    shp a = (dims A g ++ dims C g)%list /\ shp b = (dims A g ++ dims C g)%list /\
    forall i, in_grid g i -> ent b (coords A i ++ coords C i) = per_volume u A density (ent a (coords A i ++ coords C i)).
Proof. exact units_mix_cond. Qed.
Print Assumptions C91_mixture_conditionals.
Theorem C91_mixture_means : forall u, positive_units u -> forall s s' g l, mixed_on s g l -> mixed_on s' (rescaled u g) (kinds_in_units u l) -> good_grid g ->
  forall lw C, (forall q, (q < List.length l)%nat -> lit_ok g (kmass g (kk l q) (has_v C)) lw) ->
  (lw = true -> has_v C = false) -> (nonempty C = false -> lw = false -> k_normal g l) ->
  forall q, disjoint (cvar q) C = true -> q <> Cv ->
  (forall p m, (p < List.length l)%nat -> kk l p = KPar m -> no_holes g m lw (cvar q) C) ->
  exists a b, mix_mean s (dname (cvar q) C) lw = Ok a /\ mix_mean s' (dname (cvar q) C) lw = Ok b /\
    shp a = mdims q C g /\ shp b = mdims q C g /\ forall i, in_grid g i -> ent b (mcoords q C i) = num_in_units u q (ent a (mcoords q C i)).
Proof. exact units_mix_mean. Qed.
Print Assumptions C91_mixture_means.
Theorem C91_mixture_central_moments : forall u, positive_units u -> forall s s' g l, mixed_on s g l -> mixed_on s' (rescaled u g) (kinds_in_units u l) -> good_grid g ->
  forall lw C, (forall q, (q < List.length l)%nat -> lit_ok g (kmass g (kk l q) (has_v C)) lw) ->
  (lw = true -> has_v C = false) -> (nonempty C = false -> lw = false -> k_normal g l) ->
  forall q, disjoint (cvar q) C = true -> q <> Cv ->
  (forall p m, (p < List.length l)%nat -> kk l p = KPar m -> no_holes g m lw (cvar q) C) -> forall j,
  exists a b, mix_central_moment s (dname (cvar q) C) j lw = Ok a /\ mix_central_moment s' (dname (cvar q) C) j lw = Ok b /\
    shp a = mdims q C g /\ shp b = mdims q C g /\ forall i, in_grid g i -> ent b (mcoords q C i) = nmul (Fin (us u q ^ j)) (ent a (mcoords q C i)).
Proof. exact units_mix_central. Qed.
Print Assumptions C91_mixture_central_moments.
(** (where all members are present: elsewhere the entries are NaN, C72) *)
Theorem C91_mixture_velocity_means : forall u, positive_units u -> forall s s' g l, mixed_on s g l -> mixed_on s' (rescaled u g) (kinds_in_units u l) -> good_grid g ->
  forall lw C, (forall q, (q < List.length l)%nat -> lit_ok g (kmass g (kk l q) (has_v C)) lw) ->
  (lw = true -> has_v C = false) -> (nonempty C = false -> lw = false -> k_normal g l) -> has_v C = false ->
  exists a b, mix_mean s (dname V_v C) lw = Ok a /\ mix_mean s' (dname V_v C) lw = Ok b /\ shp a = dims C g /\ shp b = dims C g /\
    forall i, in_grid g i -> all_there g l lw C i -> ent b (coords C i) = num_in_units u Cv (ent a (coords C i)).
Proof. exact units_mix_v_mean. Qed.
Print Assumptions C91_mixture_velocity_means.
Theorem C91_mixture_velocity_moments : forall u, positive_units u -> forall s s' g l, mixed_on s g l -> mixed_on s' (rescaled u g) (kinds_in_units u l) -> good_grid g ->
  forall lw C, (forall q, (q < List.length l)%nat -> lit_ok g (kmass g (kk l q) (has_v C)) lw) ->
  (lw = true -> has_v C = false) -> (nonempty C = false -> lw = false -> k_normal g l) -> has_v C = false -> forall j,
  exists a b, mix_central_moment s (dname V_v C) j lw = Ok a /\ mix_central_moment s' (dname V_v C) j lw = Ok b /\ shp a = dims C g /\ shp b = dims C g /\
    forall i, in_grid g i -> all_there g l lw C i ->
    (forall q, (q < List.length l)%nat -> all_there g l lw C (centre_at (kk l q) C i)) ->
      ent b (coords C i) = nmul (Fin (us u Cv ^ j)) (ent a (coords C i)).
Proof. exact units_mix_v_central. Qed.
Print Assumptions C91_mixture_velocity_moments.
Definition exm2u : mixture := Mixture (Build.cube_of (rescaled exu exg)) [comp_member excu; par_member exL (Fin 1) exmpu] [Fin (1 / 4); Fin (3 / 4)].
Lemma exm2u_on : mixed_on exm2u (rescaled exu exg) (kinds_in_units exu exl2).
Proof.
  constructor; try reflexivity; [apply Build.cube_of_on; [apply rescaled_x, exg_uniform_x|apply rescaled_y, exg_uniform_y]|discriminate| |].
  - intros [|[|q]] Hq; [cbn; lra|cbn; lra|cbn in Hq; lia].
  - intros [|[|q]] mb E; cbn in E; [| |destruct q; discriminate E]; injection E as <-.
    + exists excu. split; [reflexivity|]. split; [apply excu_on|exact (nonneg_units exu exu_pos exg exf exf_nonneg)].
    + exists exL, exmpu. split; [reflexivity|]. split; [apply exmpu_on|exact (good_par_units exu exu_pos exg exmod exmod_good)].
Qed.
Lemma light_there g P C i : 0 < total g (lit g P) -> 0 < marg g (lit g P) C i -> 0 < marg g (weighted g true P) C i.
Proof.
  intros HT H. replace (marg g (weighted g true P) C i) with (/ total g (lit g P) * marg g (lit g P) C i).
  - apply Rmult_lt_0_compat; [apply Rinv_0_lt_compat|]; assumption.
  - rewrite <- marg_scal. unfold marg, weighted, light. do 5 (apply over_ext_all; intros). unfold Rdiv. apply Rmult_comm.
Qed.
Example C91_mixture_case : exists a b, mix_central_moment exm2 "v_t" 3 true = Ok a /\ mix_central_moment exm2u "v_t" 3 true = Ok b /\
    ent b [0]%nat = nmul (Fin (1000 ^ 3)) (ent a [0]%nat).
Proof.
  destruct (C91_mixture_velocity_moments exu exu_pos exm2 exm2u exg exl2 exm2_on exm2u_on exg_good true (VSet true false false false)
    (fun q Hq => exl2_lit true q Hq) ltac:(reflexivity) ltac:(discriminate) eq_refl 3%nat) as (a & b & Ea & Eb & _ & _ & He).
  exists a, b. do 2 (split; [assumption|]). apply (He (Bin 0 0 0 0 0)); [repeat split; cbn; lia| |intros p Hp; cbn in Hp; destruct p as [|[|p]]; [| |lia]; cbn [exl2 kk nth fst centre_at]];
      intros q Hq; (apply light_there; [exact (exl2_lit true q Hq eq_refl)|]); cbn in Hq; (destruct q as [|[|q]]; [| |lia]); kev; unfold mass, wid; cbn; lra.
Qed.

(** ** datacubes: ages, positions and metallicities in other units, velocities
    as they are; any two batches *)
Theorem C91_datacube : forall u, positive_units u -> forall W c c' g f n dv S v0 batch batch', same_velocities u -> evaluable c g f n dv S v0 ->
  comp_on c' (rescaled u g) (per_unit u f) -> templates (c_ssps (comp_cube c')) (rescaled u g) n dv S -> is_batch batch -> is_batch batch' ->
  exists y y', evaluate_ybar W c batch = Ok y /\ evaluate_ybar W c' batch' = Ok y' /\ shp y = [n; nx g; ny g] /\ shp y' = shp y /\
    forall idx, inb idx (shp y) -> ent y' idx = ent y idx.
Proof. exact units_ybar. Qed.
Print Assumptions C91_datacube.
Theorem C91_parametric_datacube : forall u, positive_units u -> forall L s s' g m n dv S batch batch', same_velocities u ->
  par_on L s g m -> par_on L s' (rescaled u g) (par_in_units u m) -> good_grid g -> good_par g m ->
  templates (c_ssps (pa_cube s)) g n dv S -> templates (c_ssps (pa_cube s')) (rescaled u g) n dv S -> dv <> 0 -> is_batch batch -> is_batch batch' ->
  exists y y', par_evaluate_ybar L s batch = Ok y /\ par_evaluate_ybar L s' batch' = Ok y' /\ shp y = [n; nx g; ny g] /\ shp y' = shp y /\
    forall idx, inb idx (shp y) -> ent y' idx = ent y idx.
Proof. exact units_par_ybar. Qed.
Print Assumptions C91_parametric_datacube.
Definition exw : units := Units (fun k => match k with Ct => 1000 | Cv => 1 | Cx1 => 2 | Cx2 => 2 | Cz => 10 end)
  (fun k => match k with Ct => 0 | Cv => 0 | Cx1 => -1 | Cx2 => 4 | Cz => 3 end).
Lemma exw_pos : positive_units exw. Proof. intros []; cbn; lra. Qed.
Lemma exw_v : same_velocities exw. Proof. split; reflexivity. Qed.
Definition seen_by (g : grid) (m : par_model) (S : spectra) : par :=
  Par (see (Build.cube_of g) (ssps_for g 2 1 S)) (scal NaN) (scal NaN) (ZGrid (scal NaN) (scal NaN)) None
    (pa_log_p_t (par_of g m)) (pa_log_p_x_t (par_of g m)) None (pa_log_p_z_tx (par_of g m)) (pa_mu_v (par_of g m)) (pa_sig_v (par_of g m)) None.
Lemma seen_by_on g m S : uniform (nx g) (xE g) -> uniform (ny g) (yE g) -> pm_F m = norm_cdf exL -> par_on exL (seen_by g m S) g m.
Proof.
  intros Hx Hy HF. constructor; [|exact HF|..]; [|eexists; split; try reflexivity; split; reflexivity ..].
  destruct (Build.cube_of_on g Hx Hy) as [D1 D2 D3 D4 D5 D6 D7 D8 D9 D10 D11]. constructor; try assumption.
  destruct D1 as [E1 E2 E3 E4 E5 E6 E7 E8 E9]. constructor; assumption.
Qed.
Example C91_datacube_case :
  (exists y y', evaluate_ybar idW (comp_for (exv 2 6 2) exD 8 1 exS) "none" = Ok y /\
    evaluate_ybar idW (comp_for (rescaled exw (exv 2 6 2)) (per_unit exw exD) 8 1 exS) "spaxel" = Ok y' /\
    shp y = [8; 2; 1]%nat /\ ent y' [1; 1; 0]%nat = ent y [1; 1; 0]%nat) /\
  (exists y y', par_evaluate_ybar exL (seen_by exg exmod exS) "none" = Ok y /\
    par_evaluate_ybar exL (seen_by (rescaled exw exg) (par_in_units exw exmod) exS) "column" = Ok y' /\ ent y' [1; 1; 0]%nat = ent y [1; 1; 0]%nat).
Proof.
  split.
  - assert (E : evaluable (comp_for (exv 2 6 2) exD 8 1 exS) (exv 2 6 2) exD 8 1 exS 3) by (apply exv_evaluable; try lia; apply exD_nonneg).
    destruct (C91_datacube exw exw_pos idW _ (comp_for (rescaled exw (exv 2 6 2)) (per_unit exw exD) 8 1 exS) _ _ _ _ _ _ "none" "spaxel" exw_v E)
      as (y & y' & Ey & Ey' & Hs & Hs' & He);
      [apply comp_for_on; [apply rescaled_x, exv_x|apply rescaled_y, exv_y]|apply templates_for; cbn; lia|unfold is_batch; auto|unfold is_batch; auto|].
    exists y, y'. do 3 (split; [assumption|]). apply He. rewrite Hs. repeat (constructor; [cbn; lia|]). constructor.
  - destruct (C91_parametric_datacube exw exw_pos exL (seen_by exg exmod exS) (seen_by (rescaled exw exg) (par_in_units exw exmod) exS) exg exmod 2 1 exS "none" "column" exw_v)
      as (y & y' & Ey & Ey' & Hs & Hs' & He).
    + apply seen_by_on; [apply exg_uniform_x|apply exg_uniform_y|reflexivity].
    + apply seen_by_on; [apply rescaled_x, exg_uniform_x|apply rescaled_y, exg_uniform_y|reflexivity].
    + exact exg_good.
    + exact exmod_good.
    + apply templates_for; cbn; lia.
    + apply templates_for; cbn; lia.
    + lra.
    + unfold is_batch; auto.
    + unfold is_batch; auto.
    + exists y, y'. do 2 (split; [assumption|]). apply He. rewrite Hs. repeat (constructor; [cbn; lia|]). constructor.
Qed.
