(** C98: light weighting given variables that determine the light of the
    templates changes nothing. *)
From Coq Require Import Reals Lra Lia List Bool Arith ZArith String Ascii.
From Verif Require Import Num NumLemmas Arr PyStr Cube Base Moments Parametric Spec SpecLemmas Repr MomSpec MomLemmas Build MomClaims TotalSpec SameSpec
  CondSame LightGiven ParSpec ParRepr ParSetSpec ParMoments ParMomSpec ParMomOther ParExample ParMomExample LightGivenPar
  Mixture MixSpec MixLemmas MixGen MixExample MixStat MomRefuted LightGivenMix LightGivenRefuted.
Import ListNotations.
Local Open Scope R_scope.

(** age and metallicity determine the light *)
Theorem C98_age_and_metallicity : forall g C, has_t C = true -> has_z C = true -> light_by g C.
Proof. exact light_by_tz. Qed.
Print Assumptions C98_age_and_metallicity.

(** ** Base components *)
Theorem C98_distributions : forall self g f,
  comp_on self g f -> good_grid g -> nonneg g f -> lw_ok g f true ->
  forall C, light_by g C -> (nonempty C = false -> total g (mass g f) = 1) ->
  forall A density, nonempty A = true -> disjoint A C = true ->
  exists a b, get_p self (dname A C) density true = Ok a /\ get_p self (dname A C) density false = Ok b /\
    forall i, in_grid g i ->
      (0 < bright g i -> ent a (coords A i ++ coords C i) = ent b (coords A i ++ coords C i)) /\
      (nonempty C = true -> bright g i = 0 -> ent a (coords A i ++ coords C i) = NaN).
Proof. exact given_p. Qed.
Print Assumptions C98_distributions.
Theorem C98_statistics : forall self g f,
  comp_on self g f -> good_grid g -> nonneg g f -> lw_ok g f true ->
  forall C, light_by g C -> (nonempty C = false -> total g (mass g f) = 1) ->
  forall k, disjoint (cvar k) C = true ->
  statistics_alike (base_obj self) g k C C true false (fun i => 0 < bright g i).
Proof. exact given_statistics. Qed.
Print Assumptions C98_statistics.
Theorem C98_covariances : forall self g f,
  comp_on self g f -> good_grid g -> nonneg g f -> lw_ok g f true ->
  forall C, light_by g C -> (nonempty C = false -> total g (mass g f) = 1) ->
  forall a b, before a b = true -> disjoint (union (cvar a) (cvar b)) C = true ->
  covariances_alike (base_obj self) g a b C C true false (fun i => 0 < bright g i).
Proof. exact given_covariances. Qed.
Print Assumptions C98_covariances.

(** light-weighted results are the mass-weighted ones given what determines the
    light, averaged over its light-weighted distribution *)
Theorem C98_spread_mean : forall self g f,
  comp_on self g f -> good_grid g -> nonneg g f -> lw_ok g f true ->
  forall B C, nonempty B = true -> disjoint B C = true -> light_by g (union B C) ->
  let P := light g (mass g f) in
  forall k, disjoint (cvar k) B = true -> disjoint (cvar k) C = true ->
  exists p m m0, get_p self (dname B C) false true = Ok p /\ get_mean (base_obj self) (dname (cvar k) (union B C)) false = Ok m /\
    get_mean (base_obj self) (dname (cvar k) C) true = Ok m0 /\
    forall i, in_grid g i -> 0 < marg g P C i ->
      averaged g P B C p (fun j => ent m (mcoords k (union B C) j)) i = ent m0 (mcoords k C i).
Proof. exact spread_mean. Qed.
Print Assumptions C98_spread_mean.
Theorem C98_spread_distribution : forall self g f,
  comp_on self g f -> good_grid g -> nonneg g f -> lw_ok g f true ->
  forall B C, nonempty B = true -> disjoint B C = true -> light_by g (union B C) ->
  let P := light g (mass g f) in
  forall A, nonempty A = true -> disjoint A B = true -> disjoint A C = true ->
  exists p a b, get_p self (dname B C) false true = Ok p /\ get_p self (cname A (union B C)) false false = Ok a /\
    get_p self (dname A C) false true = Ok b /\
    forall i, in_grid g i -> 0 < marg g P C i ->
      averaged g P B C p (fun j => ent a (coords A j ++ coords (union B C) j)) i = ent b (coords A i ++ coords C i).
Proof. exact spread_p. Qed.
Print Assumptions C98_spread_distribution.

(** ** Parametric components *)
(** T false is all the light, T true that within the velocities of the cube *)
Theorem C98_parametric : forall L self g m, par_on L self g m -> good_grid g -> good_par g m ->
  let T b := total (pgrid g b) (lit (pgrid g b) (pjoint g m b)) in
  forall C, light_by g C ->
  forall A density, nonempty A = true -> nonempty C = true -> disjoint A C = true ->
  par_lw_ok g m true (has_v (union A C)) -> cname A C <> "v_tx"%string ->
  exists a b, par_get_p L self (cname A C) density true = Ok a /\ par_get_p L self (cname A C) density false = Ok b /\
    forall i, in_grid g i ->
      (0 < bright g i -> 0 < par_prob g m false C i ->
        exists p, ent b (coords A i ++ coords C i) = Fin p /\
          ent a (coords A i ++ coords C i) = Fin (if has_v A then T false / T true * p else p)) /\
      (bright g i = 0 -> ent a (coords A i ++ coords C i) = NaN).
Proof. exact par_given_p. Qed.
Print Assumptions C98_parametric.
(** velocities outside the cube hold some of the light *)
Theorem C98_light_in_range : forall g m, good_grid g -> good_par g m ->
  let T b := total (pgrid g b) (lit (pgrid g b) (pjoint g m b)) in
  T true <= T false /\ (good_norm (pm_F m) -> 0 < T false -> T true < T false).
Proof. exact light_in_range. Qed.
Print Assumptions C98_light_in_range.
(** so that p(v|t,z) weighted by light is not p(v|t,z) *)
Theorem C98_parametric_velocity_refuted : exists L self g m i a b p p', par_on L self g m /\ good_grid g /\ good_par g m /\
  in_grid g i /\ 0 < bright g i /\ 0 < par_prob g m false (VSet true false false true) i /\
  par_get_p L self "v_tz" false true = Ok a /\ par_get_p L self "v_tz" false false = Ok b /\
  ent a [bv i; bt i; bz i] = Fin p /\ ent b [bv i; bt i; bz i] = Fin p' /\ p' < p.
Proof. exact velocity_refuted. Qed.
Print Assumptions C98_parametric_velocity_refuted.
Theorem C98_parametric_statistics : forall L self g m q, par_on L self g m -> good_grid g -> good_par g m ->
  forall C, light_by g C -> par_lw_ok g m true (has_v C) ->
  (nonempty C = false -> total g (par_joint g m false (has_v C)) = 1) ->
  forall k, k <> Cv -> disjoint (cvar k) C = true -> no_holes g m false (cvar k) C ->
  statistics_alike (par_obj L q self) g k C C true false (fun i => 0 < bright g i).
Proof. exact par_given_statistics. Qed.
Print Assumptions C98_parametric_statistics.
(** mean velocities and their central moments are not restricted to the cube *)
Theorem C98_parametric_velocities : forall L self g m q, par_on L self g m -> good_grid g -> good_par g m ->
  forall C, light_by g C -> par_lw_ok g m true (has_v C) -> has_v C = false -> nonempty C = true ->
  let Q i := 0 < bright g i /\ 0 < par_prob g m false C i in
  alike g (get_mean (par_obj L q self) (dname (cvar Cv) C) true) (get_mean (par_obj L q self) (dname (cvar Cv) C) false) (coords C) (coords C) Q /\
  (forall j, alike g (get_central_moment (par_obj L (Fin 1) self) (dname (cvar Cv) C) j true)
     (get_central_moment (par_obj L (Fin 1) self) (dname (cvar Cv) C) j false) (coords C) (coords C) Q).
Proof. exact par_given_velocity. Qed.
Print Assumptions C98_parametric_velocities.

(** ** Mixtures of base components *)
Theorem C98_mixture_distributions : forall self g comps l C, mix_on self g comps l -> good_grid g ->
  (forall q, (q < List.length l)%nat -> lw_ok g (pf l q) true) -> light_by g C ->
  (nonempty C = false -> sumR (map snd l) = 1 /\ forall q, (q < List.length l)%nat -> total g (mass g (pf l q)) = 1) ->
  forall A density, nonempty A = true -> disjoint A C = true ->
  exists a b, mix_get_p self (dname A C) true density true = Ok a /\ mix_get_p self (dname A C) true density false = Ok b /\
    forall i, in_grid g i ->
      (0 < bright g i -> ent a (coords A i ++ coords C i) = ent b (coords A i ++ coords C i)) /\
      (nonempty C = true -> bright g i = 0 -> ent a (coords A i ++ coords C i) = NaN).
Proof. exact mix_given_p. Qed.
Print Assumptions C98_mixture_distributions.
Theorem C98_mixture_members : forall self g comps l C, mix_on self g comps l -> good_grid g ->
  (forall q, (q < List.length l)%nat -> lw_ok g (pf l q) true) -> light_by g C ->
  forall A density, nonempty A = true -> nonempty C = true -> disjoint A C = true ->
  exists a b, mix_get_p self (cname A C) false density true = Ok a /\ mix_get_p self (cname A C) false density false = Ok b /\
    forall q i, (q < List.length l)%nat -> in_grid g i -> 0 < bright g i ->
      ent a (q :: coords A i ++ coords C i) = ent b (q :: coords A i ++ coords C i).
Proof. exact mix_given_members. Qed.
Print Assumptions C98_mixture_members.
Theorem C98_mixture_statistics : forall self g comps l C, mix_on self g comps l -> good_grid g ->
  (forall q, (q < List.length l)%nat -> lw_ok g (pf l q) true) -> light_by g C ->
  (nonempty C = false -> sumR (map snd l) = 1 /\ forall q, (q < List.length l)%nat -> total g (mass g (pf l q)) = 1) ->
  let Q i := 0 < bright g i /\ forall q, (q < List.length l)%nat -> 0 < marg g (mass g (pf l q)) C i in
  forall k, disjoint (cvar k) C = true ->
  let w := dname (cvar k) C in let m := mcoords k C in
  alike g (mix_mean self w true) (mix_mean self w false) m m Q /\
  (forall j, alike g (mix_central_moment self w j true) (mix_central_moment self w j false) m m Q) /\
  alike g (mix_variance self w true) (mix_variance self w false) m m Q /\
  alike g (mix_dispersion self w true) (mix_dispersion self w false) m m Q /\
  (is_x k = false -> forall j, alike g (get_l_moment (mix_obj self) w (S j) true) (get_l_moment (mix_obj self) w (S j) false) (coords C) (coords C)
     (fun i => 0 < bright g i)).
Proof. exact mix_given_statistics. Qed.
Print Assumptions C98_mixture_statistics.
Theorem C98_mixture_covariance : forall self g comps l C, mix_on self g comps l -> good_grid g ->
  (forall q, (q < List.length l)%nat -> lw_ok g (pf l q) true) -> light_by g C ->
  (nonempty C = false -> sumR (map snd l) = 1 /\ forall q, (q < List.length l)%nat -> total g (mass g (pf l q)) = 1) ->
  let Q i := 0 < bright g i /\ forall q, (q < List.length l)%nat -> 0 < marg g (mass g (pf l q)) C i in
  forall a b, before a b = true -> disjoint (union (cvar a) (cvar b)) C = true ->
  let w := dname (union (cvar a) (cvar b)) C in let m := mcoords (xkey a b) C in
  alike g (mix_covariance self w true) (mix_covariance self w false) m m Q.
Proof. exact mix_given_covariance. Qed.
Print Assumptions C98_mixture_covariance.

(** ** Cases *)
Local Notation tz := (VSet true false false true).
Lemma exg_bright i : 0 < bright exg i.
Proof. unfold bright. cbn [Lw exg]. pose proof (pos_INR (bt i)). pose proof (pos_INR (bz i)). lra. Qed.
Lemma c_in : in_grid exg (Bin 0 1 0 0 0). Proof. repeat split; cbn; lia. Qed.
Lemma ctz : light_by exg tz. Proof. exact (C98_age_and_metallicity exg tz eq_refl eq_refl). Qed.
(** velocities of the younger, poorer template: nothing changes; metallicities of
    the younger age: they do *)
Example C98_base_case : exists a b c d r r', get_mean (base_obj exc) "v_tz" true = Ok a /\ get_mean (base_obj exc) "v_tz" false = Ok b /\
  ent a [0; 0]%nat = ent b [0; 0]%nat /\ ent b [0; 0]%nat = Fin (1 / 6) /\
  get_p exc "z_t" false true = Ok c /\ get_p exc "z_t" false false = Ok d /\
  ent c [0; 0]%nat = Fin r /\ ent d [0; 0]%nat = Fin r' /\ r < r'.
Proof.
  destruct (C98_statistics exc exg exf exc_on exg_good exf_nonneg (ex_lw_ok _) tz ctz ltac:(discriminate) Cv eq_refl) as ((a & b & Ea & Eb & He) & _).
  destruct (mean_claim exc exg exf false exc_on exg_good exf_nonneg (ex_lw_ok _) Cv tz eq_refl ltac:(discriminate)) as (b' & Eb' & _ & Hb).
  assert (b' = b) by (apply (f_equal (fun r => match r with Ok x => x | _ => b end)) in Eb, Eb'; cbn in Eb, Eb'; congruence). subst b'.
  destruct (get_p_z_t true) as (c & r & Ec & Er & Hr). destruct (get_p_z_t false) as (d & r' & Ed & Er' & Hr').
  exists a, b, c, d, r, r'. split; [exact Ea|]. split; [exact Eb|].
  split; [exact (He (Bin 0 1 0 0 0) c_in (exg_bright _))|].
  split; [|split; [exact Ec|split; [exact Ed|split; [exact Er|split; [exact Er'|rewrite Hr, Hr'; ex_num]]]]].
  etransitivity; [apply (proj1 (Hb (Bin 0 1 0 0 0) c_in)); ex_num|]. f_equal. mom_num.
Qed.
Example C98_covariance_case : covariances_alike (base_obj exc) exg Cv Cx1 tz tz true false (fun i => 0 < bright exg i) /\
  in_grid exg (Bin 0 1 0 0 0) /\ 0 < bright exg (Bin 0 1 0 0 0).
Proof.
  split; [|split; [exact c_in|apply exg_bright]].
  exact (C98_covariances exc exg exf exc_on exg_good exf_nonneg (ex_lw_ok _) tz ctz ltac:(discriminate) Cv Cx1 eq_refl eq_refl).
Qed.
Example C98_distributions_case : exists a b, get_p exc "vx_tz" true true = Ok a /\ get_p exc "vx_tz" true false = Ok b /\
  ent a [1; 0; 0; 0; 0]%nat = ent b [1; 0; 0; 0; 0]%nat.
Proof.
  destruct (C98_distributions exc exg exf exc_on exg_good exf_nonneg (ex_lw_ok _) tz ctz ltac:(discriminate) (VSet false true true false) true eq_refl eq_refl)
    as (a & b & Ea & Eb & He). exists a, b. split; [exact Ea|]. split; [exact Eb|].
  exact (proj1 (He (Bin 0 1 0 0 0) c_in) (exg_bright _)).
Qed.
(** the light-weighted mean velocity at the first pixel from mass-weighted ones *)
Example C98_spread_case : exists p m m0,
  get_p exc "tz_x" false true = Ok p /\ get_mean (base_obj exc) "v_txz" false = Ok m /\ get_mean (base_obj exc) "v_x" true = Ok m0 /\
  nadd (nmul (ent m [0; 0; 0; 0]%nat) (ent p [0; 0; 0; 0]%nat)) (nadd (nmul (ent m [0; 0; 0; 1]%nat) (ent p [0; 1; 0; 0]%nat))
  (nadd (nmul (ent m [1; 0; 0; 0]%nat) (ent p [1; 0; 0; 0]%nat)) (nmul (ent m [1; 0; 0; 1]%nat) (ent p [1; 1; 0; 0]%nat)))) = ent m0 [0; 0]%nat.
Proof.
  destruct (C98_spread_mean exc exg exf exc_on exg_good exf_nonneg (ex_lw_ok _) tz (VSet false false true false) eq_refl eq_refl
    (C98_age_and_metallicity exg (union tz (VSet false false true false)) eq_refl eq_refl) Cv eq_refl eq_refl) as (p & m & m0 & E1 & E2 & E3 & He).
  exists p, m, m0. do 3 (split; [assumption|]).
  etransitivity; [|exact (He (Bin 0 0 0 0 0) ltac:(repeat split; cbn; lia) ltac:(ex_num))]. unfold averaged, occupied.
  change (bins_over exg tz (Bin 0 0 0 0 0)) with [Bin 0 0 0 0 0; Bin 0 0 0 0 1; Bin 1 0 0 0 0; Bin 1 0 0 0 1]. cbn [filter].
  do 4 (destruct (Rlt_dec _ _) as [_|n]; [|exfalso; apply n; ex_num]).
  unfold nsum. cbn [map fold_right mcoords coords union no_vars has_t has_v has_x has_z orb opt app bt bv bx by_ bz].
  rewrite nadd_zero_r. reflexivity.
Qed.
Example C98_parametric_case :
  (exists a b p, par_get_p exL exmp "x_tz" true true = Ok a /\ par_get_p exL exmp "x_tz" true false = Ok b /\
     ent a [0; 0; 0; 0]%nat = Fin p /\ ent b [0; 0; 0; 0]%nat = Fin p) /\
  (exists a b, get_mean (par_obj exL (Fin 1) exmp) "v_tz" true = Ok a /\ get_mean (par_obj exL (Fin 1) exmp) "v_tz" false = Ok b /\
     ent a [0; 0]%nat = ent b [0; 0]%nat) /\
  total (pgrid exg true) (lit (pgrid exg true) (pjoint exg exmod true)) < total (pgrid exg false) (lit (pgrid exg false) (pjoint exg exmod false)).
Proof.
  set (i := Bin 0 1 0 0 0).
  assert (Hp : 0 < par_prob exg exmod false tz i) by (unfold i; rewrite exmod_tz; lra).
  split; [|split].
  - destruct (C98_parametric exL exmp exg exmod exmp_on exg_good exmod_good tz ctz (VSet false false true false) true eq_refl eq_refl eq_refl
      (exmod_lw true) ltac:(discriminate)) as (a & b & Ea & Eb & He).
    destruct (proj1 (He i c_in) (exg_bright i) Hp) as (p & Hb & Ha). exists a, b, p. auto.
  - destruct (C98_parametric_velocities exL exmp exg exmod (Fin 1) exmp_on exg_good exmod_good tz ctz (exmod_lw true) eq_refl eq_refl)
      as ((a & b & Ea & Eb & He) & _). exists a, b. split; [exact Ea|]. split; [exact Eb|]. exact (He i c_in (conj (exg_bright i) Hp)).
  - exact (proj2 (C98_light_in_range exg exmod exg_good exmod_good) exL_norm (exmod_lw true eq_refl)).
Qed.
Example C98_parametric_statistics_case :
  statistics_alike (par_obj exL (Fin 1) exmp) exg Cx1 tz tz true false (fun i => 0 < bright exg i) /\
  in_grid exg (Bin 0 1 0 0 0) /\ 0 < bright exg (Bin 0 1 0 0 0).
Proof.
  split; [|split; [exact c_in|apply exg_bright]].
  apply (C98_parametric_statistics exL exmp exg exmod (Fin 1) exmp_on exg_good exmod_good tz ctz (exmod_lw true)); try discriminate; [reflexivity|].
  intros _ [K|[K|[]]]; discriminate K.
Qed.
Example C98_mixture_case : exists a b c d, mix_mean exm "v_tz" true = Ok a /\ mix_mean exm "v_tz" false = Ok b /\ ent a [0; 0]%nat = ent b [0; 0]%nat /\
  mix_get_p exm "v_tz" false false true = Ok c /\ mix_get_p exm "v_tz" false false false = Ok d /\ ent c [1; 1; 0; 0]%nat = ent d [1; 1; 0; 0]%nat.
Proof.
  destruct (C98_mixture_statistics exm exg _ expts tz exm_on exg_good (exm_members _) ctz ltac:(discriminate) Cv eq_refl) as ((a & b & Ea & Eb & He) & _).
  destruct (C98_mixture_members exm exg _ expts tz exm_on exg_good (exm_members _) ctz (cvar Cv) false eq_refl eq_refl eq_refl) as (c & d & Ec & Ed & Hc).
  exists a, b, c, d. split; [exact Ea|]. split; [exact Eb|]. split.
  - apply (He (Bin 0 1 0 0 0) c_in). split; [apply exg_bright|]. intros q Hq. destruct q as [|[|q]]; [| |cbn in Hq; lia]; mix_num; ex_num.
  - split; [exact Ec|]. split; [exact Ed|]. exact (Hc 1%nat (Bin 0 1 0 0 0) ltac:(cbn; lia) c_in (exg_bright _)).
Qed.
