(** * Claim C92: L-skewness, L-kurtosis and excess L-kurtosis.

    [l_ratios_at]: the trapezoid L-moments over the trapezoid L-dispersion, each
    the L-moment of the histogram and an excess given by the bins;
    [is_l_moment]: an L-moment of the piecewise uniform distribution
    (LRatioSpec.v, NormalLSpec.v). *)
From Coq Require Import Reals Lra Lia List Bool Arith ZArith String Ascii.
From Verif Require Import Num NumLemmas Arr PyStr Cube Base Moments Parametric Spec SpecLemmas Repr ParSpec ParRepr MomSpec LMom ParMoments
  ParMomSpec ParMomOther ParDist ParStat ParStatExample ParMomClaims Props_ParMoments MomLemmas NormalL NormalLSpec QuantLemmas Mixture MixSpec MixParSpec Build MixExample ParExample ParMomExample MixParExample MomRefuted
  CoordUnitsSpec LRatioSpec LRatio LRatioExample Props_Mixture.
Import ListNotations.
Local Open Scope R_scope.
Local Open Scope string_scope.

Theorem C92_base : forall self g f lw, comp_on self g f -> good_grid g -> nonneg g f -> lw_ok g f lw ->
  forall k C, disjoint (cvar k) C = true -> (nonempty C = false -> total g (prob g f lw) = 1) -> is_x k = false ->
  forall q, normal_quantile q ->
  exists r d s u x, get_normalised_l_moment_normal q 4 = Ok (Fin r) /\ get_l_dispersion (base_obj self) (dname (cvar k) C) lw = Ok d /\
    get_l_skewness (base_obj self) (dname (cvar k) C) lw = Ok s /\ get_l_kurtosis (base_obj self) (dname (cvar k) C) lw = Ok u /\
    get_excess_l_kurtosis q (base_obj self) (dname (cvar k) C) lw = Ok x /\
    shp d = dims C g /\ shp s = dims C g /\ shp u = dims C g /\ shp x = dims C g /\
    forall i, in_grid g i ->
      (0 < marg g (prob g f lw) C i ->
         l_ratios_at g (prob g f lw) k C i r (ent d (coords C i)) (ent s (coords C i)) (ent u (coords C i)) (ent x (coords C i))) /\
      (marg g (prob g f lw) C i = 0 -> ent d (coords C i) = NaN /\ ent s (coords C i) = NaN /\ ent u (coords C i) = NaN /\ ent x (coords C i) = NaN).
Proof. exact base_ratios. Qed.
Print Assumptions C92_base.
Theorem C92_parametric : forall L self g m q0 lw, par_on L self g m -> good_grid g -> good_par g m ->
  forall k C, k <> Cv -> disjoint (cvar k) C = true -> par_lw_ok g m lw (has_v C) ->
  (nonempty C = false -> total g (par_joint g m lw (has_v C)) = 1) -> no_holes g m lw (cvar k) C -> is_x k = false ->
  let P := par_joint g m lw (has_v C) in
  forall q, normal_quantile q ->
  exists r d s u x, get_normalised_l_moment_normal q 4 = Ok (Fin r) /\ get_l_dispersion (par_obj L q0 self) (dname (cvar k) C) lw = Ok d /\
    get_l_skewness (par_obj L q0 self) (dname (cvar k) C) lw = Ok s /\ get_l_kurtosis (par_obj L q0 self) (dname (cvar k) C) lw = Ok u /\
    get_excess_l_kurtosis q (par_obj L q0 self) (dname (cvar k) C) lw = Ok x /\
    shp d = dims C g /\ shp s = dims C g /\ shp u = dims C g /\ shp x = dims C g /\
    forall i, in_grid g i ->
      (0 < marg g P C i -> l_ratios_at g P k C i r (ent d (coords C i)) (ent s (coords C i)) (ent u (coords C i)) (ent x (coords C i))) /\
      (marg g P C i = 0 -> ent d (coords C i) = NaN /\ ent s (coords C i) = NaN /\ ent u (coords C i) = NaN /\ ent x (coords C i) = NaN).
Proof. exact par_ratios. Qed.
Print Assumptions C92_parametric.
Theorem C92_mixture : forall self g comps l lw C, mix_on self g comps l -> good_grid g ->
  (forall q, (q < List.length l)%nat -> lw_ok g (pf l q) lw) ->
  (nonempty C = false -> lw = false -> sumR (map snd l) = 1 /\ forall q, (q < List.length l)%nat -> total g (mass g (pf l q)) = 1) ->
  let P := prob g (mixf l) lw in
  forall k, disjoint (cvar k) C = true -> is_x k = false -> forall q, normal_quantile q ->
  exists r d s u x, get_normalised_l_moment_normal q 4 = Ok (Fin r) /\ get_l_dispersion (mix_obj self) (dname (cvar k) C) lw = Ok d /\
    get_l_skewness (mix_obj self) (dname (cvar k) C) lw = Ok s /\ get_l_kurtosis (mix_obj self) (dname (cvar k) C) lw = Ok u /\
    get_excess_l_kurtosis q (mix_obj self) (dname (cvar k) C) lw = Ok x /\
    shp d = dims C g /\ shp s = dims C g /\ shp u = dims C g /\ shp x = dims C g /\
    forall i, in_grid g i ->
      (0 < marg g P C i -> l_ratios_at g P k C i r (ent d (coords C i)) (ent s (coords C i)) (ent u (coords C i)) (ent x (coords C i))) /\
      (marg g P C i = 0 -> ent d (coords C i) = NaN /\ ent s (coords C i) = NaN /\ ent u (coords C i) = NaN /\ ent x (coords C i) = NaN).
Proof. exact mixb_ratios. Qed.
Print Assumptions C92_mixture.
Theorem C92_mixed : forall self g l lw C, mixed_on self g l -> good_grid g ->
  (forall q, (q < List.length l)%nat -> lit_ok g (kmass g (kk l q) (has_v C)) lw) ->
  (nonempty C = false -> lw = false -> k_normal g l) ->
  let P := weighted g lw (kmix g l (has_v C)) in
  forall k, disjoint (cvar k) C = true -> k <> Cv -> is_x k = false -> forall q, normal_quantile q ->
  exists r d s u x, get_normalised_l_moment_normal q 4 = Ok (Fin r) /\ get_l_dispersion (mix_obj self) (dname (cvar k) C) lw = Ok d /\
    get_l_skewness (mix_obj self) (dname (cvar k) C) lw = Ok s /\ get_l_kurtosis (mix_obj self) (dname (cvar k) C) lw = Ok u /\
    get_excess_l_kurtosis q (mix_obj self) (dname (cvar k) C) lw = Ok x /\
    shp d = dims C g /\ shp s = dims C g /\ shp u = dims C g /\ shp x = dims C g /\
    forall i, in_grid g i ->
      (0 < marg g P C i -> l_ratios_at g P k C i r (ent d (coords C i)) (ent s (coords C i)) (ent u (coords C i)) (ent x (coords C i))) /\
      (marg g P C i = 0 -> ent d (coords C i) = NaN /\ ent s (coords C i) = NaN /\ ent u (coords C i) = NaN /\ ent x (coords C i) = NaN).
Proof. exact mixp_ratios. Qed.
Print Assumptions C92_mixed.
(** other units leave the ratios as they are; an origin at uo adds multiples of uo *)
Theorem C92_units : forall u, positive_units u -> forall c c' g f, comp_on c g f -> comp_on c' (rescaled u g) (per_unit u f) -> good_grid g -> nonneg g f ->
  forall C lw, lw_ok g f lw -> (nonempty C = false -> total g (prob g f lw) = 1) -> forall k, disjoint (cvar k) C = true -> is_x k = false ->
  exists d s s' v v', get_l_dispersion (base_obj c) (dname (cvar k) C) lw = Ok d /\
    get_l_skewness (base_obj c) (dname (cvar k) C) lw = Ok s /\ get_l_skewness (base_obj c') (dname (cvar k) C) lw = Ok s' /\
    get_l_kurtosis (base_obj c) (dname (cvar k) C) lw = Ok v /\ get_l_kurtosis (base_obj c') (dname (cvar k) C) lw = Ok v' /\
    shp d = dims C g /\ shp s = dims C g /\ shp s' = dims C g /\ shp v = dims C g /\ shp v' = dims C g /\
    forall i, in_grid g i -> 0 < marg g (prob g f lw) C i ->
      let p := bin_prob g (prob g f lw) k C i in let F := cdf g (prob g f lw) k C i in
      exists L2 S3 K4, 0 < L2 /\ ent d (coords C i) = Fin L2 /\
        ent s (coords C i) = Fin S3 /\ ent s' (coords C i) = Fin (S3 + uo u k / us u k * (drift3 (cn g k) p / L2)) /\
        ent v (coords C i) = Fin K4 /\ ent v' (coords C i) = Fin (K4 + uo u k / us u k * (drift4 (cn g k) p F / L2)).
Proof. exact units_ratios. Qed.
Print Assumptions C92_units.
(** All the probability in one bin: the third and fourth L-moments vanish, the
    L-kurtosis returned is 1 and the L-skewness is the centre over half the width. *)
Theorem C92_one_bin_refuted : forall self g f lw, comp_on self g f -> good_grid g -> nonneg g f -> lw_ok g f lw ->
  forall k C, disjoint (cvar k) C = true -> (nonempty C = false -> total g (prob g f lw) = 1) -> is_x k = false ->
  exists s v, get_l_skewness (base_obj self) (dname (cvar k) C) lw = Ok s /\ get_l_kurtosis (base_obj self) (dname (cvar k) C) lw = Ok v /\
    forall i n, in_grid g i -> 0 < marg g (prob g f lw) C i -> (n < cn g k)%nat -> bin_prob g (prob g f lw) k C i n = 1 ->
      ent s (coords C i) = Fin (2 * mid (cedge g k) n / wid (cedge g k) n) /\ ent v (coords C i) = Fin 1 /\
      is_l_moment g (prob g f lw) k C i 3 0 /\ is_l_moment g (prob g f lw) k C i 4 0.
Proof. exact one_bin_ratios. Qed.
Print Assumptions C92_one_bin_refuted.
(** Both ratios returned exceed any bound, L-ratios being below 1. *)
Theorem C92_unbounded_refuted : forall B, exists self g f, comp_on self g f /\ good_grid g /\ nonneg g f /\
  exists s v S4 K4 M2 M3 M4, get_l_skewness (base_obj self) "v_t" false = Ok s /\ get_l_kurtosis (base_obj self) "v_t" false = Ok v /\
    ent s [0]%nat = Fin S4 /\ ent v [0]%nat = Fin K4 /\
    is_l_moment g (prob g f false) Cv (VSet true false false false) (Bin 0 0 0 0 0) 2 M2 /\
    is_l_moment g (prob g f false) Cv (VSet true false false false) (Bin 0 0 0 0 0) 3 M3 /\
    is_l_moment g (prob g f false) Cv (VSet true false false false) (Bin 0 0 0 0 0) 4 M4 /\
    M3 / M2 = - (2 / 17) /\ M4 / M2 = 2 / 51 /\ B < S4 /\ B < K4.
Proof. exact unbounded_claim. Qed.
Print Assumptions C92_unbounded_refuted.

(** velocities at the first age, bins -1 to 0 and 0 to 1 with probabilities 1/3
    and 2/3: L-skewness 1/3 for -2/17, L-kurtosis 1 for 2/51; then from an origin
    at 27 *)
Example C92_case : (exists q r d s u x, normal_quantile q /\ get_normalised_l_moment_normal q 4 = Ok (Fin r) /\
    get_l_dispersion (base_obj exc) "v_t" false = Ok d /\ get_l_skewness (base_obj exc) "v_t" false = Ok s /\
    get_l_kurtosis (base_obj exc) "v_t" false = Ok u /\ get_excess_l_kurtosis q (base_obj exc) "v_t" false = Ok x /\
    l_ratios_at exg (prob exg exf false) Cv (VSet true false false false) (Bin 0 0 0 0 0) r (ent d [0]%nat) (ent s [0]%nat) (ent u [0]%nat) (ent x [0]%nat)) /\
  (exists s v, get_l_skewness (base_obj (exs 0)) "v_t" false = Ok s /\ get_l_kurtosis (base_obj (exs 0)) "v_t" false = Ok v /\
    ent s [0]%nat = Fin (1 / 3) /\ ent v [0]%nat = Fin 1) /\
  (exists s v, get_l_skewness (base_obj (exs 27)) "v_t" false = Ok s /\ get_l_kurtosis (base_obj (exs 27)) "v_t" false = Ok v /\
    ent s [0]%nat = Fin (55 / 3) /\ ent v [0]%nat = Fin 21).
Proof.
  split; [|split].
  - destruct quantile_exists as (q & Hq).
    destruct (C92_base exc exg exf false exc_on exg_good exf_nonneg (ex_lw_ok _) Cv vset_t eq_refl ltac:(discriminate) eq_refl q Hq)
      as (r & d & s & u & x & Er & Ed & Es & Eu & Ex & _ & _ & _ & _ & He).
    exists q, r, d, s, u, x. do 6 (split; [assumption|]). apply (He ext0 ext0_in), ext0_pos.
  - destruct (exs_ratios 0) as (s & v & Es & Ev & S1 & V1 & _). exists s, v. do 2 (split; [assumption|]).
    split; [etransitivity; [exact S1|]|etransitivity; [exact V1|]]; f_equal; field.
  - destruct (exs_ratios 27) as (s & v & Es & Ev & S1 & V1 & _). exists s, v. do 2 (split; [assumption|]).
    split; [etransitivity; [exact S1|]|etransitivity; [exact V1|]]; f_equal; field.
Qed.
Example C92_one_bin_case : exists s v, get_l_skewness (base_obj (comp_of (oneg 5) onef)) "v" false = Ok s /\
  get_l_kurtosis (base_obj (comp_of (oneg 5) onef)) "v" false = Ok v /\ ent s [] = Fin 11 /\ ent v [] = Fin 1.
Proof.
  destruct (C92_one_bin_refuted (comp_of (oneg 5) onef) (oneg 5) onef false (one_on 5) (oneg_good 5) (one_nonneg 5) ltac:(discriminate) Cv no_vars eq_refl
    (fun _ => one_total 5) eq_refl) as (s & v & Es & Ev & He). exists s, v. do 2 (split; [assumption|]).
  destruct (He (Bin 0 0 0 0 0) 0%nat) as (S1 & V1 & _).
  - repeat split; cbn; lia.
  - unfold no_vars. mom_num; unfold oneg, onef; cbn; lra.
  - cbn; lia.
  - unfold bin_prob, no_vars. mom_num; unfold oneg, onef; cbn; field.
  - split; [etransitivity; [exact S1|]; f_equal; unfold mid, wid; cbn; field|exact V1].
Qed.
(** a mixture; ages at the first position for a mixture with a parametric member
    and a parametric component *)
Example C92_other_case : exists q, normal_quantile q /\
  (exists u x, get_l_kurtosis (mix_obj exm) "v_t" false = Ok u /\ get_excess_l_kurtosis q (mix_obj exm) "v_t" false = Ok x /\
    exists y r, ent u [0]%nat = Fin y /\ ent x [0]%nat = Fin (y - r) /\ get_normalised_l_moment_normal q 4 = Ok (Fin r)) /\
  (exists u x, get_l_kurtosis (mix_obj exm2) "t_x" false = Ok u /\ get_excess_l_kurtosis q (mix_obj exm2) "t_x" false = Ok x /\
    exists y r, ent u [0; 0]%nat = Fin y /\ ent x [0; 0]%nat = Fin (y - r) /\ get_normalised_l_moment_normal q 4 = Ok (Fin r)) /\
  (exists u x, get_l_kurtosis (par_obj exL (Fin 1) exmp) "t_x" false = Ok u /\ get_excess_l_kurtosis q (par_obj exL (Fin 1) exmp) "t_x" false = Ok x /\
    exists y r, ent u [0; 0]%nat = Fin y /\ ent x [0; 0]%nat = Fin (y - r) /\ get_normalised_l_moment_normal q 4 = Ok (Fin r)).
Proof.
  destruct quantile_exists as (q & Hq). exists q. split; [exact Hq|].
  assert (Hi : in_grid exg (Bin 0 0 0 0 0)) by (repeat split; cbn; lia). split; [|split].
  - destruct (C92_mixture exm exg _ expts false vset_t exm_on exg_good (exm_members _) ltac:(discriminate) Cv eq_refl eq_refl q Hq)
      as (r & d & s & u & x & Er & _ & _ & Eu & Ex & _ & _ & _ & _ & He). exists u, x. do 2 (split; [assumption|]).
    destruct (He _ Hi) as [K _]. destruct K as (M2 & M3 & M4 & _ & _ & _ & _ & _ & _ & _ & K1 & K2).
    { unfold vset_t; mix_num; ex_num. }
    do 2 eexists. split; [exact K1|]. split; [exact K2|exact Er].
  - destruct (C92_mixed exm2 exg exl2 false (VSet false false true false) exm2_on exg_good ltac:(intros; discriminate) ltac:(discriminate) Ct eq_refl
      ltac:(discriminate) eq_refl q Hq) as (r & d & s & u & x & Er & _ & _ & Eu & Ex & _ & _ & _ & _ & He). exists u, x. do 2 (split; [assumption|]).
    destruct (He _ Hi) as [K _]. destruct K as (M2 & M3 & M4 & _ & _ & _ & _ & _ & _ & _ & K1 & K2).
    { kev; unfold mass, wid; cbn; lra. }
    do 2 eexists. split; [exact K1|]. split; [exact K2|exact Er].
  - assert (Hp : 0 < marg exg (par_joint exg exmod false false) pv_x (Bin 0 0 0 0 0)).
    { refine (eq_ind_r (fun r => 0 < r) _ (joint_marg exg exmod false exg_good pv_x _)). rewrite exmod_x; lra. }
    destruct (C92_parametric exL exmp exg exmod (Fin 1) false exmp_on exg_good exmod_good Ct pv_x ltac:(discriminate) eq_refl ltac:(discriminate)
      ltac:(discriminate) ltac:(intros _ [K|[K|[]]]; discriminate K) eq_refl q Hq) as (r & d & s & u & x & Er & _ & _ & Eu & Ex & _ & _ & _ & _ & He).
    exists u, x. do 2 (split; [assumption|]). destruct (He _ Hi) as [K _]. destruct (K Hp) as (M2 & M3 & M4 & _ & _ & _ & _ & _ & _ & _ & K1 & K2).
    do 2 eexists. split; [exact K1|]. split; [exact K2|exact Er].
Qed.
