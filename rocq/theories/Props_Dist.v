(** * Props_Dist: claims C01-C11 about the distributions of a base component. *)
From Coq Require Import Reals Lra Lia List Bool Arith ZArith String Ascii Permutation.
From Verif Require Import Num NumLemmas Arr PyStr Cube Base Spec Repr Build
  DistLemmas StringClaims ScaleLemmas.
Import ListNotations.
Local Open Scope R_scope.

(** C01: marginal bin probabilities are sums of the joint bin probabilities,
    with one axis per variable in string order (two for x). *)
Theorem C01_marginals_are_sums : forall self g f S,
  comp_on self g f -> good_grid g -> nonneg g f -> nonempty S = true ->
  exists a, get_p self (name S) false false = Ok a /\ shp a = dims S g /\
    forall i, in_grid g i -> ent a (coords S i) = Fin (marg g (mass g f) S i).
Proof. exact marg_mass_claim. Qed.
Print Assumptions C01_marginals_are_sums.

Example C01_example :
  comp_on exc exg exf /\ good_grid exg /\ nonneg exg exf /\
  exists a, get_p exc "tz" false false = Ok a /\ shp a = [2%nat; 2%nat] /\ ent a [1%nat; 1%nat] = Fin 16.
Proof.
  split; [exact exc_on|]. split; [exact exg_good|]. split; [exact exf_nonneg|].
  destruct (C01_marginals_are_sums exc exg exf (VSet true false false true) exc_on exg_good exf_nonneg eq_refl)
    as (a & E & Hs & He).
  exists a. split; [exact E|]. split; [exact Hs|]. specialize (He exi exi_in). cbn in He. rewrite He.
  f_equal. ex_num.
Qed.

(** C02: light weighting multiplies by the SSP light and renormalises. *)
Theorem C02_light_weighting : forall self g f S,
  comp_on self g f -> good_grid g -> nonneg g f -> nonempty S = true ->
  0 < total g (lit g (mass g f)) ->
  exists a, get_p self (name S) false true = Ok a /\ shp a = dims S g /\
    (forall i, in_grid g i ->
       ent a (coords S i) = Fin (marg g (lit g (mass g f)) S i / total g (lit g (mass g f)))) /\
    (forall i, in_grid g i ->
       nsum (map (fun j => ent a (coords S j)) (bins_over g S i)) = Fin 1).
Proof. exact light_claim. Qed.
Print Assumptions C02_light_weighting.

Example C02_example : 0 < total exg (lit exg (mass exg exf)) /\
  exists a, get_p exc "t" false true = Ok a /\ ent a [1%nat] = Fin (80 / 164).
Proof.
  split; [exact ex_light|].
  destruct (C02_light_weighting exc exg exf (VSet true false false false) exc_on exg_good exf_nonneg eq_refl ex_light)
    as (a & E & _ & He & _).
  exists a. split; [exact E|]. specialize (He exi exi_in). cbn in He. rewrite He. f_equal.
  ex_num; field; lra.
Qed.

(** C03: density is probability over the volume of the dependent variables. *)
Theorem C03_density_marginals : forall self g f,
  comp_on self g f -> good_grid g -> nonneg g f ->
  forall S lw, nonempty S = true -> lw_ok g f lw ->
  exists p d, get_p self (name S) false lw = Ok p /\ get_p self (name S) true lw = Ok d /\
    forall i, in_grid g i -> ent d (coords S i) = ndiv (ent p (coords S i)) (Fin (vol g S i)).
Proof. exact density_marg. Qed.
Print Assumptions C03_density_marginals.
Theorem C03_density_conditionals : forall self g f,
  comp_on self g f -> good_grid g -> nonneg g f ->
  forall A C lw, nonempty A = true -> nonempty C = true -> disjoint A C = true -> lw_ok g f lw ->
  exists p d, get_p self (cname A C) false lw = Ok p /\ get_p self (cname A C) true lw = Ok d /\
    forall i, in_grid g i -> ent d (coords A i ++ coords C i) =
                             ndiv (ent p (coords A i ++ coords C i)) (Fin (vol g A i)).
Proof. exact density_cond. Qed.
Print Assumptions C03_density_conditionals.

(** the volume used is not one: 2 (age) * 4 (metallicity) at bin [exi] *)
Example C03_example : vol exg (VSet true false false true) exi = 8 /\
  exists p d, get_p exc "tz" false false = Ok p /\ get_p exc "tz" true false = Ok d /\
    ent d [1%nat; 1%nat] = ndiv (ent p [1%nat; 1%nat]) (Fin 8).
Proof.
  assert (V : vol exg (VSet true false false true) exi = 8) by ex_num.
  split; [exact V|].
  destruct (C03_density_marginals exc exg exf exc_on exg_good exf_nonneg (VSet true false false true) false eq_refl
             (ex_lw_ok false)) as (p & d & Ep & Ed & He).
  exists p, d. do 2 (split; [assumption|]). specialize (He exi exi_in). rewrite V in He. exact He.
Qed.

(** C04: conditionals are joint over marginal, nan exactly on empty conditioners. *)
Theorem C04_conditionals : forall self g f,
  comp_on self g f -> good_grid g -> nonneg g f ->
  forall A C density lw,
  nonempty A = true -> nonempty C = true -> disjoint A C = true -> lw_ok g f lw ->
  exists a, get_p self (cname A C) density lw = Ok a /\ shp a = (dims A g ++ dims C g)%list /\
    forall i, in_grid g i ->
      (0 < marg g (prob g f lw) C i ->
       ent a (coords A i ++ coords C i) =
       Fin (marg g (prob g f lw) (union A C) i / marg g (prob g f lw) C i /
            (if density then vol g A i else 1))) /\
      (marg g (prob g f lw) C i = 0 -> ent a (coords A i ++ coords C i) = NaN).
Proof. exact get_p_cond. Qed.
Print Assumptions C04_conditionals.
Theorem C04_never_infinite : forall self g f,
  comp_on self g f -> good_grid g -> nonneg g f ->
  forall A C density lw i a,
  nonempty A = true -> nonempty C = true -> disjoint A C = true -> lw_ok g f lw -> in_grid g i ->
  get_p self (cname A C) density lw = Ok a ->
  ent a (coords A i ++ coords C i) <> PInf /\ ent a (coords A i ++ coords C i) <> NInf.
Proof. exact cond_never_inf. Qed.
Print Assumptions C04_never_infinite.

(** p(t|x) in a filled pixel, and nan for p(z|tx) in an empty (t,x) bin *)
Example C04_example :
  (exists a, get_p exc "t_x" false false = Ok a /\ ent a [1; 0; 0]%nat = Fin (24 / 42)) /\
  (exists a, get_p exc "z_tx" false false = Ok a /\ ent a [0; 1; 1; 0]%nat = NaN).
Proof.
  split.
  - destruct (C04_conditionals exc exg exf exc_on exg_good exf_nonneg (VSet true false false false)
      (VSet false false true false) false false eq_refl eq_refl eq_refl (ex_lw_ok _)) as (a & E & _ & He).
    exists a. split; [exact E|]. specialize (He exi exi_in) as [He _]. cbn [coords opt has_t has_v has_x has_z exi] in He.
    etransitivity; [apply He; ex_num|]. f_equal. ex_num.
  - destruct (C04_conditionals exc exg exf exc_on exg_good exf_nonneg (VSet false false false true)
      (VSet true false true false) false false eq_refl eq_refl eq_refl (ex_lw_ok _)) as (a & E & _ & He).
    exists a. split; [exact E|].
    specialize (He (Bin 1 0 1 0 0)) as [_ He]; [unfold in_grid; cbn; lia|]. apply He. ex_num.
Qed.

(** C05: normalisation *)
Theorem C05_marginals_sum : forall self g f,
  comp_on self g f -> good_grid g -> nonneg g f ->
  forall S lw i, nonempty S = true -> lw_ok g f lw -> in_grid g i ->
  exists p, get_p self (name S) false lw = Ok p /\
    nsum (map (fun j => ent p (coords S j)) (bins_over g S i)) = Fin (total g (prob g f lw)).
Proof. exact norm_marg. Qed.
Print Assumptions C05_marginals_sum.
Theorem C05_light_total : forall g f, lw_ok g f true -> total g (prob g f true) = 1.
Proof. exact total_prob_lw. Qed.
Print Assumptions C05_light_total.
Theorem C05_conditionals_sum : forall self g f,
  comp_on self g f -> good_grid g -> nonneg g f ->
  forall A C lw i,
  nonempty A = true -> nonempty C = true -> disjoint A C = true -> lw_ok g f lw -> in_grid g i ->
  0 < marg g (prob g f lw) C i ->
  exists p, get_p self (cname A C) false lw = Ok p /\
    nsum (map (fun j => ent p (coords A j ++ coords C j)) (bins_over g A i)) = Fin 1.
Proof. exact norm_cond. Qed.
Print Assumptions C05_conditionals_sum.

Example C05_example :
  (exists p, get_p exc "x" false false = Ok p /\ nsum [ent p [0; 0]%nat; ent p [1; 0]%nat] = Fin 60) /\
  (exists p, get_p exc "t_x" false false = Ok p /\ nsum [ent p [0; 0; 0]%nat; ent p [1; 0; 0]%nat] = Fin 1).
Proof.
  split.
  - destruct (C05_marginals_sum exc exg exf exc_on exg_good exf_nonneg (VSet false false true false) false exi
      eq_refl (ex_lw_ok _) exi_in) as (p & E & Hp). exists p; split; [exact E|].
    cbn [bins_over flat_map range_if map app seq has_t has_v has_x has_z exg exi bt bv bx by_ bz nx ny coords opt] in Hp.
    etransitivity; [exact Hp|]. f_equal. ex_num.
  - destruct (C05_conditionals_sum exc exg exf exc_on exg_good exf_nonneg (VSet true false false false)
      (VSet false false true false) false exi
      eq_refl eq_refl eq_refl (ex_lw_ok _) exi_in ltac:(ex_num)) as (p & E & Hp). exists p; split; [exact E|].
    exact Hp.
Qed.

(** C06: product rule and Bayes' rule between the returned arrays *)
Theorem C06_product_rule : forall self g f,
  comp_on self g f -> good_grid g -> nonneg g f ->
  forall A C density lw,
  nonempty A = true -> nonempty C = true -> disjoint A C = true -> lw_ok g f lw ->
  exists pac pc pj, get_p self (cname A C) density lw = Ok pac /\
    get_p self (name C) density lw = Ok pc /\ get_p self (name (union A C)) density lw = Ok pj /\
    forall i, in_grid g i -> ent pc (coords C i) <> Fin 0 ->
      nmul (ent pac (coords A i ++ coords C i)) (ent pc (coords C i)) = ent pj (coords (union A C) i).
Proof. exact product_rule. Qed.
Print Assumptions C06_product_rule.
Theorem C06_bayes_rule : forall self g f,
  comp_on self g f -> good_grid g -> nonneg g f ->
  forall A C density lw,
  nonempty A = true -> nonempty C = true -> disjoint A C = true -> lw_ok g f lw ->
  exists pac pc pca pa, get_p self (cname A C) density lw = Ok pac /\
    get_p self (name C) density lw = Ok pc /\ get_p self (cname C A) density lw = Ok pca /\
    get_p self (name A) density lw = Ok pa /\
    forall i, in_grid g i -> ent pc (coords C i) <> Fin 0 -> ent pa (coords A i) <> Fin 0 ->
      nmul (ent pac (coords A i ++ coords C i)) (ent pc (coords C i)) =
      nmul (ent pca (coords C i ++ coords A i)) (ent pa (coords A i)).
Proof. exact bayes_rule. Qed.
Print Assumptions C06_bayes_rule.

(** a case where the axes have to be rearranged: p(x|z) p(z), C after A, and
    p(x|t) p(t), C before A *)
Example C06_example : exists pac pc pj,
  get_p exc "x_t" true false = Ok pac /\ get_p exc "t" true false = Ok pc /\ get_p exc "tx" true false = Ok pj /\
  nmul (ent pac [0; 0; 1]%nat) (ent pc [1]%nat) = ent pj [1; 0; 0]%nat.
Proof.
  destruct (C06_product_rule exc exg exf exc_on exg_good exf_nonneg (VSet false false true false)
      (VSet true false false false) true false eq_refl eq_refl eq_refl (ex_lw_ok _)) as (a & b & c & E1 & E2 & E3 & He).
  exists a, b, c. do 3 (split; [assumption|]). apply (He exi exi_in).
  destruct (get_p_marg exc exg exf exc_on exg_good exf_nonneg (VSet true false false false) true false eq_refl (ex_lw_ok _))
    as (b' & E & _ & Hb).
  rewrite E in E2; injection E2 as <-. rewrite (Hb exi exi_in). intros X. injection X as X. revert X. ex_num.
Qed.

(** C07: marginals of one component are consistent with each other *)
Theorem C07_marginal_consistency : forall self g f,
  comp_on self g f -> good_grid g -> nonneg g f ->
  forall A C lw, nonempty C = true -> disjoint A C = true -> lw_ok g f lw ->
  exists pj pc, get_p self (name (union A C)) false lw = Ok pj /\ get_p self (name C) false lw = Ok pc /\
    forall i, in_grid g i ->
      nsum (map (fun j => ent pj (coords (union A C) j)) (bins_over g A i)) = ent pc (coords C i).
Proof. exact marginal_consistency. Qed.
Print Assumptions C07_marginal_consistency.

Example C07_example : exists pj pc, get_p exc "tz" false true = Ok pj /\ get_p exc "z" false true = Ok pc /\
  nsum [ent pj [0; 1]%nat; ent pj [1; 1]%nat] = ent pc [1]%nat.
Proof.
  destruct (C07_marginal_consistency exc exg exf exc_on exg_good exf_nonneg (VSet true false false false)
      (VSet false false false true) true eq_refl eq_refl (ex_lw_ok _)) as (a & b & E1 & E2 & He).
  exists a, b. do 2 (split; [assumption|]). exact (He exi exi_in).
Qed.

(** C08: get_p is the exponential of get_log_p; -inf exactly at zero *)
Theorem C08_exp_of_log : forall self w density lw,
  match get_log_p self w density lw, get_p self w density lw with
  | Ok l, Ok p => shp p = shp l /\ forall idx, ent p idx = nexp (ent l idx)
  | Err e, Err e' => e = e'
  | _, _ => False
  end.
Proof. exact get_p_exp. Qed.
Print Assumptions C08_exp_of_log.
Theorem C08_log_zero : forall self g f,
  comp_on self g f -> good_grid g -> nonneg g f ->
  forall S density lw, nonempty S = true -> lw_ok g f lw ->
  exists l p, get_log_p self (name S) density lw = Ok l /\ get_p self (name S) density lw = Ok p /\
   forall i, in_grid g i -> (exists r, ent p (coords S i) = Fin r /\ 0 <= r) /\
      (ent l (coords S i) = NInf <-> ent p (coords S i) = Fin 0).
Proof. exact log_zero_iff. Qed.
Print Assumptions C08_log_zero.

Example C08_example : exists l p, get_log_p exc "tx" true false = Ok l /\ get_p exc "tx" true false = Ok p /\
  ent p [1; 1; 0]%nat = Fin 0 /\ ent l [1; 1; 0]%nat = NInf.
Proof.
  destruct (C08_log_zero exc exg exf exc_on exg_good exf_nonneg (VSet true false true false) true false eq_refl
    (ex_lw_ok _)) as (l & p & El & Ep & He).
  exists l, p. do 2 (split; [assumption|]).
  assert (Hi : in_grid exg (Bin 1 0 1 0 0)) by (unfold in_grid; cbn; lia).
  specialize (He _ Hi) as [_ He].
  destruct (get_p_marg exc exg exf exc_on exg_good exf_nonneg (VSet true false true false) true false eq_refl (ex_lw_ok _))
    as (p' & E & _ & Hp).
  rewrite E in Ep; injection Ep as <-. specialize (Hp _ Hi).
  assert (Z : ent p' [1; 1; 0]%nat = Fin 0).
  { etransitivity; [exact Hp|]. f_equal. ex_num. }
  split; [exact Z|]. apply He. exact Z.
Qed.

(** C09: strings which are not distributions *)
Theorem C09_unknown_marginals_raise : forall self w density lw, has_char "_" w = false ->
  (forall S, nonempty S = true -> w <> name S) -> get_p self w density lw = Err AttributeError.
Proof. exact marginal_strings. Qed.
Print Assumptions C09_unknown_marginals_raise.
Theorem C09_accepted_conditionals : forall self w density lw a,
  has_char "_" w = true -> get_p self w density lw = Ok a ->
  exists d A C, w = (d ++ "_" ++ name C)%string /\ Permutation (chars d) (chars (name A)) /\
    nonempty C = true /\ disjoint A C = true.
Proof. exact cond_strings_ok. Qed.
Print Assumptions C09_accepted_conditionals.
Theorem C09_misordered_is_alphabetical : forall self A C d lw, Permutation (chars d) (chars (name A)) ->
  get_p self (d ++ "_" ++ name C)%string false lw = get_p self (cname A C) false lw.
Proof. exact misordered. Qed.
Print Assumptions C09_misordered_is_alphabetical.

Example C09_example : get_p exc "zt" false false = Err AttributeError /\
  get_p exc "q" true true = Err AttributeError /\ get_p exc "t_t" false false <> Ok (log_p_tvxz exc).
Proof. split; [reflexivity|]. split; [reflexivity|]. discriminate. Qed.

(** refuted: axes in string order.  'zx_v' is accepted and its array has the
    axes (x, z | v), not (z, x | v) *)
Theorem C09_axes_in_string_order_refuted : exists a, get_p exc "zx_v" false false = Ok a /\
  shp a = [nx exg; ny exg; nz exg; nv exg] /\ shp a <> [nz exg; nx exg; ny exg; nv exg].
Proof. exact zx_v_axes. Qed.
Print Assumptions C09_axes_in_string_order_refuted.
(** refuted: the dependent part must name at least one variable.  '_t' is accepted. *)
Theorem C09_empty_dependent_refuted : exists a, get_p exc "_t" false false = Ok a /\ shp a = [nt exg].
Proof. exact empty_dependent. Qed.
Print Assumptions C09_empty_dependent_refuted.

(** C10: the constructor *)
Theorem C10_constructor_shape : forall c g a, cube_on c g ->
  component_init c a = if list_eq_dec Nat.eq_dec (shp a) [nt g; nv g; nx g; ny g; nz g]
                       then Ok (Component c a) else Err ValueError.
Proof. exact constructor_shape. Qed.
Print Assumptions C10_constructor_shape.

Example C10_example : component_init (comp_cube exc) (full [2; 2; 1; 2; 2]%nat (Fin 0)) = Err ValueError /\
  exists s, component_init (comp_cube exc) (full [2; 2; 2; 1; 2]%nat (Fin 0)) = Ok s.
Proof.
  rewrite !(C10_constructor_shape (comp_cube exc) exg _ (cm_cube _ _ _ exc_on)).
  split; [reflexivity|]. eexists; reflexivity.
Qed.

(** C11: scale invariance *)
Theorem C11_shift_mass : forall self g f k,
  comp_on self g f -> good_grid g -> nonneg g f ->
  forall S density, nonempty S = true ->
  exists p p', get_p self (name S) density false = Ok p /\
    get_p (shift_log k self) (name S) density false = Ok p' /\
    forall i, in_grid g i -> ent p' (coords S i) = nmul (Fin (exp k)) (ent p (coords S i)).
Proof. exact shift_marg_mass. Qed.
Print Assumptions C11_shift_mass.
Theorem C11_shift_light : forall self g f k,
  comp_on self g f -> good_grid g -> nonneg g f ->
  forall S density, nonempty S = true -> lw_ok g f true ->
  exists p p', get_p self (name S) density true = Ok p /\
    get_p (shift_log k self) (name S) density true = Ok p' /\
    forall i, in_grid g i -> ent p' (coords S i) = ent p (coords S i).
Proof. exact shift_marg_light. Qed.
Print Assumptions C11_shift_light.
Theorem C11_shift_conditionals : forall self g f k,
  comp_on self g f -> good_grid g -> nonneg g f ->
  forall A C density lw,
  nonempty A = true -> nonempty C = true -> disjoint A C = true -> lw_ok g f lw ->
  exists p p', get_p self (cname A C) density lw = Ok p /\
    get_p (shift_log k self) (cname A C) density lw = Ok p' /\
    forall i, in_grid g i -> ent p' (coords A i ++ coords C i) = ent p (coords A i ++ coords C i).
Proof. exact shift_cond. Qed.
Print Assumptions C11_shift_conditionals.
Theorem C11_light_scale_marginals : forall self g f k,
  comp_on self g f -> good_grid g -> nonneg g f -> 0 < k ->
  forall S density lw, nonempty S = true -> lw_ok g f lw ->
  exists p p', get_p self (name S) density lw = Ok p /\
    get_p (scale_light k self) (name S) density lw = Ok p' /\
    forall i, in_grid g i -> ent p' (coords S i) = ent p (coords S i).
Proof. exact scale_light_marg. Qed.
Print Assumptions C11_light_scale_marginals.
Theorem C11_light_scale_conditionals : forall self g f k,
  comp_on self g f -> good_grid g -> nonneg g f -> 0 < k ->
  forall A C density lw,
  nonempty A = true -> nonempty C = true -> disjoint A C = true -> lw_ok g f lw ->
  exists p p', get_p self (cname A C) density lw = Ok p /\
    get_p (scale_light k self) (cname A C) density lw = Ok p' /\
    forall i, in_grid g i -> ent p' (coords A i ++ coords C i) = ent p (coords A i ++ coords C i).
Proof. exact scale_light_cond. Qed.
Print Assumptions C11_light_scale_conditionals.

Example C11_example :
  (exists p p', get_p exc "z" false true = Ok p /\ get_p (scale_light 3 exc) "z" false true = Ok p' /\
     ent p' [1%nat] = ent p [1%nat]) /\
  light_weights (c_ssps (comp_cube (scale_light 3 exc))) <> light_weights (c_ssps (comp_cube exc)).
Proof.
  split.
  - destruct (C11_light_scale_marginals exc exg exf 3 exc_on exg_good exf_nonneg ltac:(lra)
      (VSet false false false true) false true eq_refl (ex_lw_ok _)) as (p & p' & E & E' & He).
    exists p, p'. do 2 (split; [assumption|]). exact (He exi exi_in).
  - intros X. apply (f_equal (fun a => ent a [0; 0]%nat)) in X. cbn in X.
    rewrite nmul_Fin in X. injection X as X. lra.
Qed.
