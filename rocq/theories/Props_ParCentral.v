(** * Props_ParCentral: claim C90 about the methods get_central_moment_v… of
    parametric components.

    The second argument of [call_central] is factorial2(-1), on which scipy
    versions disagree (see C51); mu is None where the caller gives no mu. *)
From Coq Require Import Reals Lra Lia List Bool Arith ZArith String Ascii.
From Verif Require Import Num NumLemmas Arr PyStr Cube Base Moments Parametric Spec Repr ParSpec ParRepr MomSpec ParMoments
  GaussSpec ParMomSpec Build ParExample ParMomClaims ParMomExample ParCentral ParCentralSpec ParCentralLemmas.
Import ListNotations.
Local Open Scope R_scope.

(** ** C90 *)
(** each method gives the central moments of its distribution *)
Theorem C90_central_moments : forall L self g m lw, par_on L self g m -> good_grid g -> good_par g m -> par_lw_ok g m lw false ->
  forall C j mu, has_v C = false -> accepted C mu ->
  exists a, call_central L (Fin 1) self (dname V_v C) j mu lw = Ok a /\ shp a = dims C g /\
    forall i, in_grid g i -> 0 < par_prob g m lw C i -> (nonempty C = false -> lw = false -> par_prob g m false no_vars i = 1) ->
      exists M, ent a (coords C i) = Fin M /\ mixture_moment g m lw C i (mixture_mean g m lw C i) j M.
Proof. exact call_claim. Qed.
Print Assumptions C90_central_moments.
(** given age and position also where there is no mass; from order 1 on it does
    not matter what factorial2(-1) is *)
Theorem C90_given_age_and_position : forall L self g m lw, par_on L self g m -> good_par g m ->
  forall f2m1 C j, has_v C = false -> has_t C = true -> has_x C = true -> f2m1 = Fin 1 \/ (0 < j)%nat ->
  exists a, call_central L f2m1 self (dname V_v C) j None lw = Ok a /\ shp a = dims C g /\
    forall i, in_grid g i -> exists M, ent a (coords C i) = Fin M /\
      let mu := pm_mu m (bt i) (bx i) (by_ i) in gauss_moment mu (pm_sig m (bt i) (bx i) (by_ i)) mu j M.
Proof. exact call_tx_claim. Qed.
Print Assumptions C90_given_age_and_position.
(** summed over ages or positions they are what get_central_moment gives, nan
    included and whatever factorial2(-1) is; in particular mu is not used *)
Theorem C90_same_as_get_central_moment : forall L self g m lw, par_on L self g m -> good_grid g -> good_par g m -> par_lw_ok g m lw false ->
  forall f2m1 C j mu, has_v C = false -> accepted C mu -> (has_t C && has_x C)%bool = false ->
  call_central L f2m1 self (dname V_v C) j mu lw = get_central_moment (par_obj L f2m1 self) (dname V_v C) j lw.
Proof. exact call_same. Qed.
Print Assumptions C90_same_as_get_central_moment.
(** any other call, in particular the documented one without mu where the
    method has that parameter, raises TypeError *)
Theorem C90_documented_call_refuted : forall L self lw f2m1 C j mu, has_v C = false -> ~ accepted C mu ->
  call_central L f2m1 self (dname V_v C) j mu lw = Err TypeError.
Proof. exact not_accepted. Qed.
Print Assumptions C90_documented_call_refuted.
(** where factorial2(-1) is 0 the moment of order 0 given age and position is 0 *)
Theorem C90_order_zero_refuted : forall L self g m lw, par_on L self g m -> good_par g m ->
  forall C, has_v C = false -> has_t C = true -> has_x C = true ->
  exists a, call_central L (Fin 0) self (dname V_v C) 0 None lw = Ok a /\
    forall i, in_grid g i -> ent a (coords C i) = Fin 0 /\
      let mu := pm_mu m (bt i) (bx i) (by_ i) in gauss_moment mu (pm_sig m (bt i) (bx i) (by_ i)) mu 0 1.
Proof. exact call_order0. Qed.
Print Assumptions C90_order_zero_refuted.

(** as in C51_example; mu is arbitrary *)
Example C90_example : exists a b c,
  call_central exL (Fin 1) exmp "v_x" 2 None false = Ok a /\ ent a [0; 0]%nat = Fin (1 / 5 * (1 + 12 ^ 2) + 4 / 5 * (4 + 3 ^ 2)) /\
  call_central exL (Fin 1) exmp "v_xz" 2 (Some (scal (Fin 77))) false = Ok b /\ shp b = [2; 1; 2]%nat /\
  call_central exL (Fin 0) exmp "v_tx" 1 None true = Ok c /\ ent c [1; 0; 0]%nat = Fin 0 /\
  call_central exL (Fin 1) exmp "v_xz" 2 None false = Err TypeError.
Proof.
  set (i := Bin 0 0 0 0 0). assert (Hi : in_grid exg i) by (repeat split; cbn; lia).
  set (C := VSet false false true false).
  assert (Hp : par_prob exg exmod false C i = 5 / 12).
  { unfold par_prob, marg, over, pprob, pjoint, txz_mass. cbn [has_t has_v has_x has_z C pgrid]. ev. lra. }
  assert (HM : mixture_mean exg exmod false C i = -2).
  { unfold mixture_mean, over_rest, weight. rewrite Hp. unfold sum_over, sum_if, par_prob, marg, over, pprob, pjoint, txz_mass.
    cbn [has_t has_v has_x has_z C rest union negb orb andb pgrid]. ev. lra. }
  assert (AC : accepted C None) by (split; [discriminate|congruence]).
  destruct (par_variance_claim exL exmp exg exmod false exmp_on exg_good exmod_good (exmod_lw false) C eq_refl) as (a & Ea & _ & Ha).
  destruct (C90_central_moments exL exmp exg exmod false exmp_on exg_good exmod_good (exmod_lw false) (VSet false false true true) 2%nat
    (Some (scal (Fin 77))) eq_refl) as (b & Eb & Sb & _); [split; [discriminate|reflexivity]|].
  destruct (C90_given_age_and_position exL exmp exg exmod true exmp_on exmod_good (Fin 0) (VSet true false true false) 1%nat
    eq_refl eq_refl eq_refl ltac:(right; lia)) as (c & Ec & _ & Hc).
  exists a, b, c. split.
  { change "v_x"%string with (dname V_v C).
    rewrite (C90_same_as_get_central_moment exL exmp exg exmod false exmp_on exg_good exmod_good (exmod_lw false) (Fin 1) C 2 None eq_refl AC eq_refl).
    exact Ea. }
  split.
  { change [0; 0]%nat with (coords C i). rewrite (Ha i Hi); [|rewrite Hp; lra|discriminate]. f_equal. rewrite HM.
    unfold over_rest, weight. rewrite Hp. unfold sum_over, sum_if, par_prob, marg, over, pprob, pjoint, txz_mass.
    cbn [has_t has_v has_x has_z C rest union negb orb andb pgrid]. ev. lra. }
  split; [exact Eb|]. split; [exact Sb|]. split; [exact Ec|]. split; [|reflexivity].
  assert (Hi2 : in_grid exg (Bin 1 0 0 0 0)) by (repeat split; cbn; lia).
  destruct (Hc _ Hi2) as (M & EM & HM2). change [1; 0; 0]%nat with (coords (VSet true false true false) (Bin 1 0 0 0 0)).
  rewrite EM. f_equal. eapply GaussLemmas.gauss_moment_unique; [exact HM2|].
  cbv zeta. replace 0 with (GaussLemmas.gmom (pm_mu exmod 1 0 0 - pm_mu exmod 1 0 0) (pm_sig exmod 1 0 0) 1)
    by (rewrite GaussLemmas.gmom_1; ring).
  apply GaussLemmas.gmom_ok. apply (gp_sig _ _ exmod_good); cbn; lia.
Qed.
