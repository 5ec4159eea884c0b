(** * Props_SinglePar: claim C110, the mixture of one parametric component with
    weight 1 against the component itself. *)
From Coq Require Import Reals Lra Lia List Bool Arith ZArith String Ascii.
From Verif Require Import Num NumLemmas Arr ArrLemmas PyStr Cube Base Spec SpecLemmas Repr Moments Mixture MomSpec ParSpec Parametric ParRepr ParSetSpec Build
  ParLemmas ParDist ParClaims ParMoments ParMomSpec ParMomClaims ParMomOther ParExample ParMomExample LightGivenPar LightGivenRefuted MixParSpec SinglePar SingleParExample.
Import ListNotations.
Local Open Scope R_scope.

Theorem C110_marginals : forall L self g m, par_on L self g m -> good_grid g -> good_par g m ->
  forall S (density lw : bool), nonempty S = true -> par_lw_ok g m lw (has_v S) ->
  exists a b, mix_get_p (Mixture (pa_cube self) [par_member L (Fin 1) self] [Fin 1]) (name S) true density lw = Ok a /\
    par_get_p L self (name S) density lw = Ok b /\ shp a = dims S g /\ shp b = dims S g /\
    forall i, in_grid g i -> ent a (coords S i) = ent b (coords S i).
Proof. exact sp_marginals. Qed.
Print Assumptions C110_marginals.
(** conditionals agree where the condition has mass; elsewhere the mixture's are
    nan, the component's too unless stored *)
Theorem C110_conditionals : forall L self g m, par_on L self g m -> good_grid g -> good_par g m ->
  forall A C (density lw : bool), nonempty A = true -> nonempty C = true -> disjoint A C = true ->
  par_lw_ok g m lw (has_v (union A C)) -> (lw = true -> cname A C <> "v_tx"%string) ->
  exists a b, mix_get_p (Mixture (pa_cube self) [par_member L (Fin 1) self] [Fin 1]) (cname A C) true density lw = Ok a /\
    par_get_p L self (cname A C) density lw = Ok b /\
    shp a = (dims A g ++ dims C g)%list /\ shp b = (dims A g ++ dims C g)%list /\
    forall i, in_grid g i ->
      (0 < par_prob g m lw C i -> ent a (coords A i ++ coords C i) = ent b (coords A i ++ coords C i)) /\
      (par_prob g m lw C i = 0 -> ent a (coords A i ++ coords C i) = NaN) /\
      (par_prob g m lw C i = 0 -> lw = true \/ ~ In (cname A C) ["x_t"; "z_tx"; "v_tx"]%string -> ent b (coords A i ++ coords C i) = NaN).
Proof. exact sp_conditionals. Qed.
Print Assumptions C110_conditionals.
(** light-weighted p(v|t,x): the mixture divides by p(t,x), the component by the
    sum over the velocities of the cube *)
Theorem C110_light_weighted_v_tx : forall L self g m, par_on L self g m -> good_grid g -> good_par g m ->
  forall density : bool, par_lw_ok g m true true ->
  exists a b, mix_get_p (Mixture (pa_cube self) [par_member L (Fin 1) self] [Fin 1]) "v_tx" true density true = Ok a /\
    par_get_p L self "v_tx" density true = Ok b /\ shp a = [nv g; nt g; nx g; ny g] /\ shp b = [nv g; nt g; nx g; ny g] /\
    forall i, in_grid g i ->
      let P := fun v => par_prob g m true (VSet true true true false) (set_v v i) in let Q := par_prob g m true (VSet true false true false) i in
      let w := if density then wid (vE g) (bv i) else 1 in
      0 < Q -> 0 < Sum (nv g) P ->
      ent a [bv i; bt i; bx i; by_ i] = Fin (P (bv i) / Q / w) /\ ent b [bv i; bt i; bx i; by_ i] = Fin (P (bv i) / Sum (nv g) P / w) /\
      (0 < P (bv i) -> (ent a [bv i; bt i; bx i; by_ i] = ent b [bv i; bt i; bx i; by_ i] <-> Sum (nv g) P = Q)).
Proof. exact sp_v_tx. Qed.
Print Assumptions C110_light_weighted_v_tx.
(** these agree at the ages and pixels which have in the range of velocities the
    fraction that all the light has there *)
Theorem C110_where_they_agree : forall g m, good_grid g -> good_par g m -> forall i, in_grid g i -> par_lw_ok g m true true ->
  let T := fun b => total (pgrid g b) (lit (pgrid g b) (pjoint g m b)) in
  let P := fun v => par_prob g m true (VSet true true true false) (set_v v i) in let Q := par_prob g m true (VSet true false true false) i in
  0 < Q -> (Sum (nv g) P = Q <-> Sum (nv g) (fun v => vbin g m (bt i) v (bx i) (by_ i)) = T true / T false).
Proof. exact sp_v_tx_agree. Qed.
Print Assumptions C110_where_they_agree.
Theorem C110_light_weighted_v_tx_refuted : exists i a b, in_grid exg i /\ 0 < par_prob exg exmod true (VSet true false true false) i /\
  mix_get_p exmix "v_tx" true false true = Ok a /\ par_get_p exL exmp "v_tx" false true = Ok b /\
  ent a [bv i; bt i; bx i; by_ i] <> ent b [bv i; bt i; bx i; by_ i].
Proof. exact v_tx_refuted. Qed.
Print Assumptions C110_light_weighted_v_tx_refuted.

(** ** moments *)
Theorem C110_means : forall L self g m, par_on L self g m -> good_grid g -> good_par g m ->
  forall k C lw, k <> Cv -> disjoint (cvar k) C = true -> par_lw_ok g m lw (has_v C) -> (lw = true -> has_v C = false) ->
  (nonempty C = false -> lw = false -> total g (par_joint g m false false) = 1) -> no_holes g m lw (cvar k) C ->
  exists a b, mix_mean (Mixture (pa_cube self) [par_member L (Fin 1) self] [Fin 1]) (dname (cvar k) C) lw = Ok a /\
    get_mean (par_obj L (Fin 1) self) (dname (cvar k) C) lw = Ok b /\
    shp a = mdims k C g /\ shp b = mdims k C g /\ forall i, in_grid g i -> ent a (mcoords k C i) = ent b (mcoords k C i).
Proof. exact sp_mean. Qed.
Print Assumptions C110_means.
Theorem C110_central_moments : forall L self g m, par_on L self g m -> good_grid g -> good_par g m ->
  forall k C lw, k <> Cv -> disjoint (cvar k) C = true -> par_lw_ok g m lw (has_v C) -> (lw = true -> has_v C = false) ->
  (nonempty C = false -> lw = false -> total g (par_joint g m false false) = 1) -> no_holes g m lw (cvar k) C -> forall j,
  exists a b, mix_central_moment (Mixture (pa_cube self) [par_member L (Fin 1) self] [Fin 1]) (dname (cvar k) C) j lw = Ok a /\
    get_central_moment (par_obj L (Fin 1) self) (dname (cvar k) C) j lw = Ok b /\
    shp a = mdims k C g /\ shp b = mdims k C g /\ forall i, in_grid g i -> ent a (mcoords k C i) = ent b (mcoords k C i).
Proof. exact sp_central. Qed.
Print Assumptions C110_central_moments.
Theorem C110_velocity_means : forall L self g m, par_on L self g m -> good_grid g -> good_par g m ->
  forall C lw, has_v C = false -> par_lw_ok g m lw false -> (nonempty C = false -> lw = false -> total g (par_joint g m false false) = 1) ->
  exists a b, mix_mean (Mixture (pa_cube self) [par_member L (Fin 1) self] [Fin 1]) (dname V_v C) lw = Ok a /\
    get_mean (par_obj L (Fin 1) self) (dname V_v C) lw = Ok b /\ shp a = dims C g /\ shp b = dims C g /\
    forall i, in_grid g i -> 0 < par_prob g m lw C i -> ent a (coords C i) = ent b (coords C i) /\ ent a (coords C i) <> NaN.
Proof. exact sp_v_mean. Qed.
Print Assumptions C110_velocity_means.
Theorem C110_velocity_moments : forall L self g m, par_on L self g m -> good_grid g -> good_par g m ->
  forall C lw, has_v C = false -> par_lw_ok g m lw false -> (nonempty C = false -> lw = false -> total g (par_joint g m false false) = 1) ->
  forall j, C <> V_txz ->
  exists a b, mix_central_moment (Mixture (pa_cube self) [par_member L (Fin 1) self] [Fin 1]) (dname V_v C) j lw = Ok a /\
    get_central_moment (par_obj L (Fin 1) self) (dname V_v C) j lw = Ok b /\ shp a = dims C g /\ shp b = dims C g /\
    forall i, in_grid g i -> 0 < par_prob g m lw C i -> ent a (coords C i) = ent b (coords C i) /\ ent a (coords C i) <> NaN.
Proof. exact sp_v_central. Qed.
Print Assumptions C110_velocity_moments.

(** ** cases *)
Example C110_case : exists a b c d e h p,
  mix_get_p exmix "vx" true true true = Ok a /\ par_get_p exL exmp "vx" true true = Ok b /\ ent a [1; 0; 0]%nat = ent b [1; 0; 0]%nat /\
  mix_mean exmix "t_x" true = Ok c /\ get_mean (par_obj exL (Fin 1) exmp) "t_x" true = Ok d /\ ent c [1; 0]%nat = ent d [1; 0]%nat /\
  mix_central_moment exmix "v_x" 4 false = Ok e /\ get_central_moment (par_obj exL (Fin 1) exmp) "v_x" 4 false = Ok h /\
  ent e [0; 0]%nat = ent h [0; 0]%nat /\ ent e [0; 0]%nat = Fin p.
Proof.
  set (i := Bin 1 1 0 0 0). assert (Hi : in_grid exg i) by (repeat split; cbn; lia).
  set (i' := Bin 1 1 1 0 0). assert (Hi' : in_grid exg i') by (repeat split; cbn; lia).
  destruct (C110_marginals exL exmp exg exmod exmp_on exg_good exmod_good (VSet false true true false) true true eq_refl exmod_lwv) as (a & b & Ea & Eb & _ & _ & Hab).
  destruct (C110_means exL exmp exg exmod exmp_on exg_good exmod_good Ct (VSet false false true false) true ltac:(discriminate) eq_refl (exmod_lw true)
    (fun _ => eq_refl) ltac:(discriminate) ltac:(intros X; discriminate X)) as (c & d & Ec & Ed & _ & _ & Hcd).
  destruct (C110_velocity_moments exL exmp exg exmod exmp_on exg_good exmod_good (VSet false false true false) false eq_refl ltac:(intros X; discriminate X)
    ltac:(discriminate) 4%nat ltac:(discriminate)) as (e & h & Ee & Eh & _ & _ & Heh).
  assert (Hp : 0 < par_prob exg exmod false (VSet false false true false) i).
  { unfold par_prob, marg, over, pprob, pjoint, txz_mass, i. cbn [has_t has_v has_x has_z pgrid bt bv bx by_ bz]. ev. lra. }
  destruct (Heh i Hi Hp) as [E1 E2]. assert (C51 : exists p, ent e [0; 0]%nat = Fin p).
  { destruct (par_central_claim exL exmp exg exmod false exmp_on exg_good exmod_good ltac:(intros X; discriminate X) (VSet false false true false) 4 eq_refl)
      as (h' & Eh' & _ & Q). assert (h' = h) by congruence. subst h'. destruct (Q i Hi Hp ltac:(discriminate)) as (M & EM & _). exists M.
    change [0; 0]%nat with (coords (VSet false false true false) i). rewrite E1. exact EM. }
  destruct C51 as [p P].
  exists a, b, c, d, e, h, p. split; [exact Ea|]. split; [exact Eb|]. split; [exact (Hab i Hi)|]. split; [exact Ec|]. split; [exact Ed|].
  split; [exact (Hcd i' Hi')|]. split; [exact Ee|]. split; [exact Eh|]. split; [exact E1|exact P].
Qed.
(** p(x|t) at an age without mass: nan for the mixture, stored for the component *)
Example C110_empty_case : exists a b p, mix_get_p (Mixture (pa_cube exhp) [par_member exL (Fin 1) exhp] [Fin 1]) "x_t" true true false = Ok a /\
  par_get_p exL exhp "x_t" true false = Ok b /\ ent a [0; 0; 1]%nat = NaN /\ ent b [0; 0; 1]%nat = Fin p.
Proof.
  set (i := Bin 1 0 0 0 0). assert (Hi : in_grid exg i) by (repeat split; cbn; lia).
  destruct (C110_conditionals exL exhp exg exhole exhp_on exg_good exhole_good (VSet false false true false) (VSet true false false false) true false
    eq_refl eq_refl eq_refl ltac:(intros X; discriminate X) ltac:(intros X; discriminate X)) as (a & b & Ea & Eb & _ & _ & He).
  destruct (x_t_query exL exhp exg exhole exhp_on exg_good exhole_good true) as (b' & Eb' & _ & Hb).
  change (cname (VSet false false true false) (VSet true false false false)) with "x_t"%string in *.
  assert (b' = b) by congruence. subst b'. exists a, b. eexists. split; [exact Ea|]. split; [exact Eb|]. split.
  - apply (He i Hi). unfold par_prob, marg, over, pprob, pjoint, txz_mass, i. cbn [has_t has_v has_x has_z pgrid bt bv bx by_ bz]. ev. lra.
  - apply Hb; cbn; lia.
Qed.
