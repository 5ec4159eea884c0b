(** * Props_Store: claim C104, components made from the densities which other
    components return. *)
From Coq Require Import Reals Lra Lia List Bool Arith ZArith String Ascii.
From Verif Require Import Num NumLemmas Arr Cube Base Spec SpecLemmas Repr DistLemmas Build Moments MomSpec MomRefuted MomLemmas SameSpec
  FourierSpec Datacube DatacubeSpec DatacubeClaims DatacubeExample Mixture MixSpec MixStat MixExample
  Parametric ParSpec ParRepr ParMoments ParExample ParMomExample Particle ParticleSpec  StoreSpec TwoSame StoreClaims StoreOther.
Import ListNotations.
Local Open Scope R_scope.
Local Open Scope string_scope.

Definition vst : vset := VSet true false false false.

(** ** base components: the component made of the density returned with
    weighting lw exists; with weighting lw' it has the distributions of the
    first one with weighting [lw || lw'] *)
Theorem C104_made : forall c g f, comp_on c g f -> good_grid g -> nonneg g f -> forall lw, lw_ok g f lw ->
  exists s, stored (comp_cube c) (get_log_p c "tvxz" true lw) s /\ comp_cube s = comp_cube c /\ comp_on s g (density_of g (prob g f lw)).
Proof. exact base_stored. Qed.
Print Assumptions C104_made.
Theorem C104_mass_weighted : forall c g f, comp_on c g f -> good_grid g -> nonneg g f -> forall s,
  stored (comp_cube c) (get_log_p c "tvxz" true false) s -> comp_cube s = comp_cube c /\ comp_on s g f.
Proof. exact base_again. Qed.
Print Assumptions C104_mass_weighted.
Theorem C104_marginals : forall c g f, comp_on c g f -> good_grid g -> nonneg g f ->
  forall lw lw' : bool, lw = false \/ lw' = false -> lw_ok g f (lw || lw') -> forall s, stored (comp_cube c) (get_log_p c "tvxz" true lw) s ->
  forall S (density : bool), nonempty S = true ->
  alike g (get_p c (name S) density (lw || lw')) (get_p s (name S) density lw') (coords S) (coords S) (fun _ => True).
Proof. exact base_same_marg. Qed.
Print Assumptions C104_marginals.
Theorem C104_conditionals : forall c g f, comp_on c g f -> good_grid g -> nonneg g f ->
  forall lw lw' : bool, lw = false \/ lw' = false -> lw_ok g f (lw || lw') -> forall s, stored (comp_cube c) (get_log_p c "tvxz" true lw) s ->
  forall A C (density : bool), nonempty A = true -> nonempty C = true -> disjoint A C = true ->
  let at_i := fun i => (coords A i ++ coords C i)%list in
  alike g (get_p c (cname A C) density (lw || lw')) (get_p s (cname A C) density lw') at_i at_i (fun _ => True).
Proof. exact base_same_cond. Qed.
Print Assumptions C104_conditionals.
Theorem C104_statistics : forall c g f, comp_on c g f -> good_grid g -> nonneg g f ->
  forall lw lw' : bool, lw = false \/ lw' = false -> lw_ok g f (lw || lw') -> forall s, stored (comp_cube c) (get_log_p c "tvxz" true lw) s ->
  forall C, (nonempty C = false -> (lw || lw')%bool = false -> total g (mass g f) = 1) -> forall k, disjoint (cvar k) C = true ->
  same_statistics (base_obj c) (base_obj s) g k C (lw || lw') lw' (fun _ => True).
Proof. exact base_same_statistics. Qed.
Print Assumptions C104_statistics.
Theorem C104_covariances : forall c g f, comp_on c g f -> good_grid g -> nonneg g f ->
  forall lw lw' : bool, lw = false \/ lw' = false -> lw_ok g f (lw || lw') -> forall s, stored (comp_cube c) (get_log_p c "tvxz" true lw) s ->
  forall C, (nonempty C = false -> (lw || lw')%bool = false -> total g (mass g f) = 1) ->
  forall a b, before a b = true -> disjoint (union (cvar a) (cvar b)) C = true ->
  same_covariances (base_obj c) (base_obj s) g a b C (lw || lw') lw' (fun _ => True).
Proof. exact base_same_covariances. Qed.
Print Assumptions C104_covariances.
(** a component made from light-weighted densities: mass-weighted, its first age
    has the light-weighted probability of the original, which is another than
    the mass-weighted one; and so has its mean metallicity *)
Example C104_case : exists s a b d m q, stored (cube_of exg) (get_log_p exc "tvxz" true true) s /\
  get_p exc "t" false true = Ok a /\ get_p s "t" false false = Ok b /\ get_p exc "t" false false = Ok d /\
  ent a [0]%nat = Fin (21 / 41) /\ ent b [0]%nat = Fin (21 / 41) /\ ent d [0]%nat = Fin 36 /\
  get_mean (base_obj exc) "z_t" true = Ok m /\ get_mean (base_obj s) "z_t" false = Ok q /\ ent q [0]%nat = ent m [0]%nat.
Proof.
  destruct (C104_made exc exg exf exc_on exg_good exf_nonneg true (ex_lw_ok true)) as (s & Hs & _ & _).
  destruct (C104_marginals exc exg exf exc_on exg_good exf_nonneg true false (or_intror eq_refl) (ex_lw_ok _) s Hs vst false eq_refl) as (a & b & Ea & Eb & He).
  destruct (get_p_marg exc exg exf exc_on exg_good exf_nonneg vst false true eq_refl (ex_lw_ok _)) as (a' & Ea' & _ & Ha).
  destruct (get_p_marg exc exg exf exc_on exg_good exf_nonneg vst false false eq_refl (ex_lw_ok _)) as (d & Ed & _ & Hd).
  destruct (C104_statistics exc exg exf exc_on exg_good exf_nonneg true false (or_intror eq_refl) (ex_lw_ok _) s Hs vst ltac:(discriminate) Cz eq_refl) as ((m & q & Em & Eq & Hmq) & _).
  cbn [orb] in *. change (name vst) with "t" in *. rewrite Ea in Ea'. injection Ea' as <-.
  assert (Hi : in_grid exg (Bin 0 0 0 0 0)) by (unfold in_grid; cbn; lia).
  exists s, a, b, d, m, q. split; [exact Hs|]. split; [exact Ea|]. split; [exact Eb|]. split; [exact Ed|].
  assert (E0 : ent a [0]%nat = Fin (21 / 41)).
  { etransitivity; [apply (Ha (Bin 0 0 0 0 0) Hi)|]. f_equal. ex_num. }
  split; [exact E0|]. split; [rewrite <- E0; symmetry; exact (He (Bin 0 0 0 0 0) Hi I)|].
  split; [etransitivity; [apply (Hd (Bin 0 0 0 0 0) Hi)|]; f_equal; ex_num|].
  split; [exact Em|]. split; [exact Eq|]. symmetry. exact (Hmq (Bin 0 0 0 0 0) Hi I).
Qed.

(** ** datacubes *)
Theorem C104_datacube : forall W c g f n dv S v0 s, evaluable c g f n dv S v0 -> stored (comp_cube c) (get_log_p c "tvxz" true false) s ->
  forall b b', is_batch b -> is_batch b' ->
  exists y y', evaluate_ybar W c b = Ok y /\ evaluate_ybar W s b' = Ok y' /\ shp y = [n; nx g; ny g] /\ shp y' = [n; nx g; ny g] /\
    forall w i j, (w < n)%nat -> (i < nx g)%nat -> (j < ny g)%nat -> ent y' [w; i; j] = ent y [w; i; j].
Proof. exact base_same_datacube. Qed.
Print Assumptions C104_datacube.
Definition excv : component := comp_for (exv 2 6 2) exD 8 1 exS.
Example C104_datacube_case : exists s y y', stored (comp_cube excv) (get_log_p excv "tvxz" true false) s /\
  evaluate_ybar idW excv "none" = Ok y /\ evaluate_ybar idW s "column" = Ok y' /\ ent y' [5; 1; 0]%nat = ent y [5; 1; 0]%nat.
Proof.
  assert (H : evaluable excv (exv 2 6 2) exD 8 1 exS 3) by (apply exv_evaluable; try lia; apply exD_nonneg).
  destruct (C104_made excv _ _ (ev_on _ _ _ _ _ _ _ H) (ev_grid _ _ _ _ _ _ _ H) (ev_nonneg _ _ _ _ _ _ _ H) false ltac:(discriminate)) as (s & Hs & _).
  destruct (C104_datacube idW excv _ _ _ _ _ _ s H Hs "none" "column") as (y & y' & E & E' & _ & _ & He); [left; reflexivity|right; left; reflexivity|].
  exists s, y, y'. split; [exact Hs|]. split; [exact E|]. split; [exact E'|]. apply He; cbn; lia.
Qed.

(** ** mixtures of base components as one component *)
Theorem C104_mixture_made : forall self g comps l, mix_on self g comps l -> good_grid g -> forall lw, lw_ok g (mixf l) lw ->
  exists s, stored (mx_cube self) (mix_get_log_p self "tvxz" true true lw) s /\ comp_cube s = mx_cube self /\
    comp_on s g (density_of g (prob g (mixf l) lw)).
Proof. exact mix_stored. Qed.
Print Assumptions C104_mixture_made.
Theorem C104_mixture_mass_weighted : forall self g comps l, mix_on self g comps l -> good_grid g -> forall s,
  stored (mx_cube self) (mix_get_log_p self "tvxz" true true false) s -> comp_cube s = mx_cube self /\ comp_on s g (mixf l).
Proof. exact mix_again. Qed.
Print Assumptions C104_mixture_mass_weighted.
Theorem C104_mixture_marginals : forall self g comps l, mix_on self g comps l -> good_grid g ->
  forall lw lw' : bool, lw = false \/ lw' = false -> (forall q, (q < List.length l)%nat -> lw_ok g (pf l q) (lw || lw')) ->
  forall s, stored (mx_cube self) (mix_get_log_p self "tvxz" true true lw) s -> forall S (density : bool), nonempty S = true ->
  alike g (mix_get_p self (name S) true density (lw || lw')) (get_p s (name S) density lw') (coords S) (coords S) (fun _ => True).
Proof. exact mix_same_marg. Qed.
Print Assumptions C104_mixture_marginals.
Theorem C104_mixture_conditionals : forall self g comps l, mix_on self g comps l -> good_grid g ->
  forall lw lw' : bool, lw = false \/ lw' = false -> (forall q, (q < List.length l)%nat -> lw_ok g (pf l q) (lw || lw')) ->
  forall s, stored (mx_cube self) (mix_get_log_p self "tvxz" true true lw) s ->
  forall A C (density : bool), nonempty A = true -> nonempty C = true -> disjoint A C = true ->
  let at_i := fun i => (coords A i ++ coords C i)%list in
  alike g (mix_get_p self (cname A C) true density (lw || lw')) (get_p s (cname A C) density lw') at_i at_i (fun _ => True).
Proof. exact mix_same_cond. Qed.
Print Assumptions C104_mixture_conditionals.
(** the mixture's own means, central moments of any order and covariances, where
    every member has mass (elsewhere the mixture returns nan); L-moments
    everywhere *)
Theorem C104_mixture_mean : forall self g comps l, mix_on self g comps l -> good_grid g ->
  forall lw lw' : bool, lw = false \/ lw' = false -> (forall q, (q < List.length l)%nat -> lw_ok g (pf l q) (lw || lw')) ->
  forall s, stored (mx_cube self) (mix_get_log_p self "tvxz" true true lw) s ->
  forall C, (nonempty C = false -> (lw || lw')%bool = false -> sumR (map snd l) = 1 /\ forall q, (q < List.length l)%nat -> total g (mass g (pf l q)) = 1) ->
  forall k, disjoint (cvar k) C = true ->
  alike g (mix_mean self (dname (cvar k) C) (lw || lw')) (get_mean (base_obj s) (dname (cvar k) C) lw') (mcoords k C) (mcoords k C)
    (fun i => forall q, (q < List.length l)%nat -> 0 < marg g (prob g (pf l q) (lw || lw')) C i).
Proof. exact mix_same_mean. Qed.
Print Assumptions C104_mixture_mean.
Theorem C104_mixture_central : forall self g comps l, mix_on self g comps l -> good_grid g ->
  forall lw lw' : bool, lw = false \/ lw' = false -> (forall q, (q < List.length l)%nat -> lw_ok g (pf l q) (lw || lw')) ->
  forall s, stored (mx_cube self) (mix_get_log_p self "tvxz" true true lw) s ->
  forall C, (nonempty C = false -> (lw || lw')%bool = false -> sumR (map snd l) = 1 /\ forall q, (q < List.length l)%nat -> total g (mass g (pf l q)) = 1) ->
  forall k j, disjoint (cvar k) C = true ->
  alike g (mix_central_moment self (dname (cvar k) C) j (lw || lw')) (get_central_moment (base_obj s) (dname (cvar k) C) j lw') (mcoords k C) (mcoords k C)
    (fun i => forall q, (q < List.length l)%nat -> 0 < marg g (prob g (pf l q) (lw || lw')) C i).
Proof. exact mix_same_central. Qed.
Print Assumptions C104_mixture_central.
Theorem C104_mixture_covariance : forall self g comps l, mix_on self g comps l -> good_grid g ->
  forall lw lw' : bool, lw = false \/ lw' = false -> (forall q, (q < List.length l)%nat -> lw_ok g (pf l q) (lw || lw')) ->
  forall s, stored (mx_cube self) (mix_get_log_p self "tvxz" true true lw) s ->
  forall C, (nonempty C = false -> (lw || lw')%bool = false -> sumR (map snd l) = 1 /\ forall q, (q < List.length l)%nat -> total g (mass g (pf l q)) = 1) ->
  forall a b, before a b = true -> disjoint (union (cvar a) (cvar b)) C = true ->
  alike g (mix_covariance self (dname (union (cvar a) (cvar b)) C) (lw || lw')) (get_covariance (base_obj s) (dname (union (cvar a) (cvar b)) C) lw')
    (mcoords (xkey a b) C) (mcoords (xkey a b) C)
    (fun i => forall q, (q < List.length l)%nat -> 0 < marg g (prob g (pf l q) (lw || lw')) C i).
Proof. exact mix_same_covariance. Qed.
Print Assumptions C104_mixture_covariance.
Theorem C104_mixture_l_moments : forall self g comps l, mix_on self g comps l -> good_grid g ->
  forall lw lw' : bool, lw = false \/ lw' = false -> (forall q, (q < List.length l)%nat -> lw_ok g (pf l q) (lw || lw')) ->
  forall s, stored (mx_cube self) (mix_get_log_p self "tvxz" true true lw) s ->
  forall C, (nonempty C = false -> (lw || lw')%bool = false -> sumR (map snd l) = 1 /\ forall q, (q < List.length l)%nat -> total g (mass g (pf l q)) = 1) ->
  forall k j, disjoint (cvar k) C = true -> is_x k = false ->
  alike g (get_l_moment (mix_obj self) (dname (cvar k) C) (S j) (lw || lw')) (get_l_moment (base_obj s) (dname (cvar k) C) (S j) lw')
    (coords C) (coords C) (fun _ => True).
Proof. exact mix_same_l_moment. Qed.
Print Assumptions C104_mixture_l_moments.
Theorem C104_mixture_datacube : forall W (K : list (component * R * joint)) self g n dv S v0 s,
  mix_on self g (map (fun m => fst (fst m)) K) (map (fun m => (snd m, snd (fst m))) K) ->
  Forall (fun m => evaluable (fst (fst m)) g (snd m) n dv S v0) K -> templates (c_ssps (mx_cube self)) g n dv S ->
  stored (mx_cube self) (mix_get_log_p self "tvxz" true true false) s ->
  forall b b', is_batch b -> is_batch b' ->
  exists ys y y', map_res (fun m => evaluate_ybar W (fst (fst m)) b) K = Ok ys /\
    mixture_ybar (map Some ys) (mx_weights self) = Ok y /\ evaluate_ybar W s b' = Ok y' /\
    shp y = [n; nx g; ny g] /\ shp y' = [n; nx g; ny g] /\
    forall w i j, (w < n)%nat -> (i < nx g)%nat -> (j < ny g)%nat -> ent y' [w; i; j] = ent y [w; i; j].
Proof. exact mix_same_datacube. Qed.
Print Assumptions C104_mixture_datacube.
Example C104_mixture_case : exists s a b m q, stored (cube_of exg) (mix_get_log_p exm "tvxz" true true false) s /\
  mix_get_p exm "t" true false false = Ok a /\ get_p s "t" false false = Ok b /\ ent a [1]%nat = Fin 42 /\ ent b [1]%nat = Fin 42 /\
  mix_mean exm "v_t" true = Ok m /\ get_mean (base_obj s) "v_t" true = Ok q /\ ent q [1]%nat = ent m [1]%nat.
Proof.
  destruct (C104_mixture_made exm exg _ expts exm_on exg_good false (exm_lw _)) as (s & Hs & _ & _).
  destruct (C104_mixture_marginals exm exg _ expts exm_on exg_good false false (or_introl eq_refl) (exm_members _) s Hs vst false eq_refl) as (a & b & Ea & Eb & He).
  destruct (MixCond.mix_p_marg exm exg _ (MixGen.mix_on_gen _ _ _ _ exm_on exg_good) exg_good vst true false false eq_refl (exm_lw _)) as (a' & Ea' & _ & Ha).
  destruct (C104_mixture_mean exm exg _ expts exm_on exg_good false true (or_introl eq_refl) (exm_members _) s Hs vst ltac:(discriminate) Cv eq_refl) as (m & q & Em & Eq & Hmq).
  cbn [orb] in *. change (name vst) with "t" in *. rewrite Ea in Ea'. injection Ea' as <-.
  assert (Hi : in_grid exg (Bin 1 0 0 0 0)) by (unfold in_grid; cbn; lia).
  exists s, a, b, m, q. split; [exact Hs|]. split; [exact Ea|]. split; [exact Eb|].
  assert (E0 : ent a [1]%nat = Fin 42).
  { etransitivity; [apply (Ha (Bin 1 0 0 0 0) Hi)|]. f_equal. cbv beta. mix_num. ex_num. }
  split; [exact E0|]. split; [rewrite <- E0; symmetry; exact (He (Bin 1 0 0 0 0) Hi I)|].
  split; [exact Em|]. split; [exact Eq|]. symmetry. apply (Hmq (Bin 1 0 0 0 0) Hi).
  intros k Hk. small k; mix_num; ex_num.
Qed.
Example C104_mixture_datacube_case : exists s ys y y', stored (comp_cube excv)
    (mix_get_log_p (Mixture (comp_cube excv) [comp_member excv; comp_member (comp_for (exv 2 6 2) (exP 4) 8 1 exS)] [Fin (1 / 4); Fin (3 / 4)]) "tvxz" true true false) s /\
  map_res (fun m => evaluate_ybar idW m "none") [excv; comp_for (exv 2 6 2) (exP 4) 8 1 exS] = Ok ys /\
  mixture_ybar (map Some ys) [Fin (1 / 4); Fin (3 / 4)] = Ok y /\ evaluate_ybar idW s "spaxel" = Ok y' /\ ent y' [5; 1; 0]%nat = ent y [5; 1; 0]%nat.
Proof.
  set (K := [(excv, 1 / 4, exD); (comp_for (exv 2 6 2) (exP 4) 8 1 exS, 3 / 4, exP 4)]).
  set (self := Mixture (comp_cube excv) [comp_member excv; comp_member (comp_for (exv 2 6 2) (exP 4) 8 1 exS)] [Fin (1 / 4); Fin (3 / 4)]).
  assert (H1 : evaluable excv (exv 2 6 2) exD 8 1 exS 3) by (apply exv_evaluable; try lia; apply exD_nonneg).
  assert (H2 : evaluable (comp_for (exv 2 6 2) (exP 4) 8 1 exS) (exv 2 6 2) (exP 4) 8 1 exS 3) by (apply exv_evaluable; try lia; apply exP_nonneg).
  assert (HM : mix_on self (exv 2 6 2) (map (fun m => fst (fst m)) K) (map (fun m => (snd m, snd (fst m))) K)).
  { constructor; try reflexivity; try discriminate; [exact (cm_cube _ _ _ (ev_on _ _ _ _ _ _ _ H1))|].
    intros [|[|k]] c q Ec Eq; [| |destruct k; discriminate Ec]; injection Ec as <-; injection Eq as <-; cbn [fst snd];
      (split; [apply H1 || apply H2|split; [apply H1 || apply H2|lra]]). }
  destruct (C104_mixture_made self _ _ _ HM (ev_grid _ _ _ _ _ _ _ H1) false ltac:(discriminate)) as (s & Hs & _).
  destruct (C104_mixture_datacube idW K self (exv 2 6 2) 8 1 exS 3 s HM (Forall_cons (A := component * R * joint) (excv, 1 / 4, exD) H1 (Forall_cons (A := component * R * joint) (_, _, _) H2 (Forall_nil _))) (ev_templates _ _ _ _ _ _ _ H1) Hs "none" "spaxel")
    as (ys & y & y' & E1 & E2 & E3 & _ & _ & He); [left; reflexivity|right; right; reflexivity|].
  exists s, ys, y, y'. split; [exact Hs|]. split; [exact E1|]. split; [exact E2|]. split; [exact E3|]. apply He; cbn; lia.
Qed.

(** ** parametric components: distributions with the velocity, and given the
    velocity, are those of the stored component; without the velocity, the
    stored component misses the mass outside the range of velocities *)
Theorem C104_parametric_made : forall L self g m, par_on L self g m -> good_grid g -> good_par g m -> forall lw, par_lw_ok g m lw true ->
  exists s, stored (pa_cube self) (par_get_log_p L self "tvxz" true lw) s /\ comp_cube s = pa_cube self /\
    comp_on s g (density_of g (if lw then light g (pjoint g m true) else pjoint g m true)).
Proof. exact par_stored. Qed.
Print Assumptions C104_parametric_made.
Theorem C104_parametric_marginals : forall L self g m, par_on L self g m -> good_grid g -> good_par g m ->
  forall lw lw' : bool, lw = false \/ lw' = false -> par_lw_ok g m (lw || lw') true ->
  forall s, stored (pa_cube self) (par_get_log_p L self "tvxz" true lw) s -> forall S (density : bool), has_v S = true ->
  alike g (par_get_p L self (name S) density (lw || lw')) (get_p s (name S) density lw') (coords S) (coords S) (fun _ => True).
Proof. exact par_same_marg. Qed.
Print Assumptions C104_parametric_marginals.
Theorem C104_parametric_conditionals : forall L self g m, par_on L self g m -> good_grid g -> good_par g m ->
  forall lw lw' : bool, lw = false \/ lw' = false -> par_lw_ok g m (lw || lw') true ->
  forall s, stored (pa_cube self) (par_get_log_p L self "tvxz" true lw) s ->
  forall A C (density : bool), nonempty A = true -> has_v C = true -> disjoint A C = true ->
  let at_i := fun i => (coords A i ++ coords C i)%list in
  alike g (par_get_p L self (cname A C) density (lw || lw')) (get_p s (cname A C) density lw') at_i at_i (fun _ => True).
Proof. exact par_same_cond. Qed.
Print Assumptions C104_parametric_conditionals.
Theorem C104_parametric_without_v : forall L self g m, par_on L self g m -> good_grid g -> good_par g m ->
  forall s S, stored (pa_cube self) (par_get_log_p L self "tvxz" true false) s -> nonempty S = true -> has_v S = false ->
  exists a b, par_get_p L self (name S) false false = Ok a /\ get_p s (name S) false false = Ok b /\
    forall i, in_grid g i -> exists p q, ent a (coords S i) = Fin p /\ ent b (coords S i) = Fin q /\ q <= p /\
      p - q = marg (flat g) (fun t _ x y z => txz_mass g m t x y z *
        (pm_F m ((vE g 0%nat - pm_mu m t x y) / pm_sig m t x y) + (1 - pm_F m ((vE g (nv g) - pm_mu m t x y) / pm_sig m t x y)))) S i.
Proof. exact par_less_marg. Qed.
Print Assumptions C104_parametric_without_v.
Example C104_parametric_case : exists s a b u w, stored (cube_of exg) (par_get_log_p exL exmp "tvxz" true false) s /\
  par_get_p exL exmp "z_tv" true false = Ok a /\ get_p s "z_tv" true false = Ok b /\ ent b [1; 0; 1]%nat = ent a [1; 0; 1]%nat /\
  par_get_p exL exmp "t" false false = Ok u /\ get_p s "t" false false = Ok w /\ exists p q, ent u [1]%nat = Fin p /\ ent w [1]%nat = Fin q /\ q < p.
Proof.
  destruct (C104_parametric_made exL exmp exg exmod exmp_on exg_good exmod_good false ltac:(discriminate)) as (s & Hs & _).
  destruct (C104_parametric_conditionals exL exmp exg exmod exmp_on exg_good exmod_good false false (or_introl eq_refl) ltac:(discriminate) s Hs
    (VSet false false false true) (VSet true true false false) true eq_refl eq_refl eq_refl) as (a & b & Ea & Eb & He).
  destruct (C104_parametric_without_v exL exmp exg exmod exmp_on exg_good exmod_good s vst Hs eq_refl eq_refl) as (u & w & Eu & Ew & Hu).
  exists s, a, b, u, w. split; [exact Hs|]. split; [exact Ea|]. split; [exact Eb|].
  split; [symmetry; apply (He (Bin 0 1 0 0 1)); [unfold in_grid; cbn; lia|exact I]|]. split; [exact Eu|]. split; [exact Ew|].
  destruct (Hu (Bin 1 0 0 0 0)) as (p & q & Ep & Eq & _ & E); [unfold in_grid; cbn; lia|].
  exists p, q. split; [exact Ep|]. split; [exact Eq|]. enough (0 < p - q) by lra. rewrite E.
  pose proof exL_norm as [HF _]. change (forall x, 0 < logistic x < 1) in HF. unfold marg, over, txz_mass. cbn [has_t has_v has_x has_z vst flat nt nv nx ny nz tE vE xE yE zE exg bt bv bx by_ bz pm_t pm_x pm_z pm_mu pm_sig pm_F exmod].
  ev. repeat match goal with |- context [logistic ?x] => pose proof (HF x); generalize dependent (logistic x); intros end. lra.
Qed.

(** ** one particle in the middle of every bin, weighted by the bin's share *)
Theorem C104_particles : forall c g P, cube_on c g -> good_grid g -> 0 < total g P ->
  exists note comp, from_particle c (map fst (centres g P)) (Some (map Fin (map snd (centres g P)))) = Ok (note, comp) /\
    n_lost note = 0%nat /\ comp_on comp g (fun t v x y z => density_of g P t v x y z / total g P).
Proof. exact centres_claim. Qed.
Print Assumptions C104_particles.
Example C104_particles_case : exists note comp a, from_particle (cube_of exg) (map fst (centres exg (mass exg exf))) (Some (map Fin (map snd (centres exg (mass exg exf))))) = Ok (note, comp) /\
  n_lost note = 0%nat /\ get_p comp "t" false false = Ok a /\ ent a [0]%nat = Fin (36 / 60).
Proof.
  assert (HT : total exg (mass exg exf) = 60) by ex_num.
  destruct (C104_particles (cube_of exg) exg (mass exg exf) (cm_cube _ _ _ exc_on) exg_good ltac:(rewrite HT; lra)) as (note & comp & E & Hn & Hon).
  assert (Hon' : comp_on comp exg (fun t v x y z => exf t v x y z / 60)).
  { eapply comp_on_ext; [exact Hon|]. intros t v x y z Hi. rewrite HT, density_of_mass by (try exact exg_good; exact Hi). reflexivity. }
  destruct (get_p_marg comp exg _ Hon' exg_good ltac:(intros t v x y z Ht Hv Hx Hy Hz; pose proof (exf_nonneg t v x y z Ht Hv Hx Hy Hz); lra) vst false false eq_refl ltac:(discriminate)) as (a & Ea & _ & Ha).
  exists note, comp, a. split; [exact E|]. split; [exact Hn|]. split; [exact Ea|].
  etransitivity; [apply (Ha (Bin 0 0 0 0 0)); unfold in_grid; cbn; lia|]. f_equal. ex_num.
Qed.
