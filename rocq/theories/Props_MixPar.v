(** * Claims C52, C56 and C57: mixtures with parametric members.

    Members are base or parametric components in any combination; a parametric
    component stands for any of the classes built on it. *)
From Coq Require Import Reals Lra Lia List Bool Arith ZArith String Ascii.
From Verif Require Import Num NumLemmas Arr PyStr Cube Base Parametric Spec SpecLemmas Repr ParSpec ParRepr MomSpec Moments ParSetSpec
  ParMoments GaussSpec ParMomSpec ParMomOther ParMomExample Build ParExample Mixture MixParSpec MixParLemmas MixParClaims MixParExample.
Import ListNotations.
Local Open Scope R_scope.
Local Open Scope string_scope.

(** ** C56 *)
Theorem C56_mixed_marginals : forall self g l, mixed_on self g l -> good_grid g ->
  forall S (density lw : bool), nonempty S = true -> lit_ok g (kmix g l (has_v S)) lw ->
  exists a b, mix_get_p self (name S) true density lw = Ok a /\ mix_get_p self (name S) false density lw = Ok b /\
    shp a = dims S g /\ shp b = (List.length l :: dims S g)%list /\
    forall i, in_grid g i ->
      ent a (coords S i) = Fin (marg g (weighted g lw (kmix g l (has_v S))) S i / (if density then vol g S i else 1)) /\
      (forall q, (q < List.length l)%nat -> ent b (q :: coords S i) =
         Fin (marg g (kshare g l lw (has_v S) q) S i / (if density then vol g S i else 1))) /\
      nsum (map (fun q => ent b (q :: coords S i)) (seq 0 (List.length l))) = ent a (coords S i).
Proof. exact mixed_marg_claim. Qed.
Print Assumptions C56_mixed_marginals.
Theorem C56_mixed_conditionals : forall self g l, mixed_on self g l -> good_grid g ->
  forall A C (density lw : bool),
  nonempty A = true -> nonempty C = true -> disjoint A C = true -> lit_ok g (kmix g l (has_v (union A C))) lw ->
  exists a b, mix_get_p self (cname A C) true density lw = Ok a /\ mix_get_p self (cname A C) false density lw = Ok b /\
    shp a = (dims A g ++ dims C g)%list /\ shp b = (List.length l :: dims A g ++ dims C g)%list /\
    forall i, in_grid g i ->
      let PC := marg g (weighted g lw (kmix g l (has_v C))) C i in
      (0 < PC -> ent a (coords A i ++ coords C i) =
         Fin (marg g (weighted g lw (kmix g l (has_v (union A C)))) (union A C) i / PC / (if density then vol g A i else 1))) /\
      (0 < PC -> forall q, (q < List.length l)%nat -> ent b (q :: coords A i ++ coords C i) =
         Fin (marg g (kshare g l lw (has_v (union A C)) q) (union A C) i / PC / (if density then vol g A i else 1))) /\
      (PC = 0 -> ent a (coords A i ++ coords C i) = NaN) /\
      nsum (map (fun q => ent b (q :: coords A i ++ coords C i)) (seq 0 (List.length l))) = ent a (coords A i ++ coords C i).
Proof. exact mixed_cond_claim. Qed.
Print Assumptions C56_mixed_conditionals.
(** a base and a parametric component: ages given a position *)
Example C56_mixed_case : exists a, mix_get_p exm2 "t_x" true false false = Ok a /\ ent a [0; 0; 0]%nat = Fin (73 / 173).
Proof.
  destruct (C56_mixed_conditionals exm2 exg exl2 exm2_on exg_good (VSet true false false false) (VSet false false true false) false false eq_refl eq_refl eq_refl
    ltac:(discriminate)) as (a & b & E & _ & _ & _ & He). exists a. split; [exact E|].
  destruct (He (Bin 0 0 0 0 0) ltac:(repeat split; cbn; lia)) as (K & _).
  assert (E1 : marg exg (weighted exg false (kmix exg exl2 false)) (VSet false false true false) (Bin 0 0 0 0 0) = 173 / 16)
    by (kev; unfold mass, wid; cbn; field).
  assert (E2 : marg exg (weighted exg false (kmix exg exl2 false)) (VSet true false true false) (Bin 0 0 0 0 0) = 73 / 16)
    by (kev; unfold mass, wid; cbn; field).
  etransitivity; [apply K; change (0 < marg exg (weighted exg false (kmix exg exl2 false)) (VSet false false true false) (Bin 0 0 0 0 0)); rewrite E1; lra|].
  f_equal.
  change (marg exg (weighted exg false (kmix exg exl2 false)) (VSet true false true false) (Bin 0 0 0 0 0) /
    marg exg (weighted exg false (kmix exg exl2 false)) (VSet false false true false) (Bin 0 0 0 0 0) / 1 = 73 / 173). rewrite E1, E2. field.
Qed.

(** ** C57 *)
(** means of age, position and metallicity; light-weighted ones only without v
    among the conditioners *)
Theorem C57_mixed_means : forall self g l, mixed_on self g l -> good_grid g ->
  forall lw k C, (forall q, (q < List.length l)%nat -> lit_ok g (kmass g (kk l q) (has_v C)) lw) ->
  disjoint (cvar k) C = true -> (lw = true -> has_v C = false) ->
  (nonempty C = false -> lw = false -> k_normal g l) -> k <> Cv ->
  (forall q m, (q < List.length l)%nat -> kk l q = KPar m -> no_holes g m lw (cvar k) C) ->
  exists m, mix_mean self (dname (cvar k) C) lw = Ok m /\ shp m = mdims k C g /\
  forall i, in_grid g i ->
    (all_there g l lw C i -> ent m (mcoords k C i) = Fin (Mean g (weighted g lw (kmix g l (has_v C))) k C i)) /\
    (some_missing g l lw C i -> ent m (mcoords k C i) = NaN).
Proof. exact mixed_mean_claim. Qed.
Print Assumptions C57_mixed_means.
Theorem C57_mixed_central_moments : forall self g l, mixed_on self g l -> good_grid g ->
  forall lw k C, (forall q, (q < List.length l)%nat -> lit_ok g (kmass g (kk l q) (has_v C)) lw) ->
  disjoint (cvar k) C = true -> (lw = true -> has_v C = false) ->
  (nonempty C = false -> lw = false -> k_normal g l) -> k <> Cv ->
  (forall q m, (q < List.length l)%nat -> kk l q = KPar m -> no_holes g m lw (cvar k) C) ->
  forall j, exists m, mix_central_moment self (dname (cvar k) C) j lw = Ok m /\ shp m = mdims k C g /\
  forall i, in_grid g i -> let P := weighted g lw (kmix g l (has_v C)) in
    (all_there g l lw C i -> ent m (mcoords k C i) = Fin (Moment g P k C j (Mean g P k C i) i)) /\
    (some_missing g l lw C i -> ent m (mcoords k C i) = NaN).
Proof. exact mixed_central_claim. Qed.
Print Assumptions C57_mixed_central_moments.
(** mean velocity: the members' means weighted by their shares; a base
    component's mean is over its velocity bins, a parametric one's over all
    velocities *)
Theorem C57_mixed_velocity_means : forall self g l, mixed_on self g l -> good_grid g ->
  forall lw C, has_v C = false -> (forall q, (q < List.length l)%nat -> lit_ok g (kmass g (kk l q) (has_v C)) lw) ->
  (nonempty C = false -> lw = false -> k_normal g l) ->
  exists m, mix_mean self (dname V_v C) lw = Ok m /\ shp m = dims C g /\
  forall i, in_grid g i -> all_there g l lw C i -> ent m (coords C i) = Fin (k_mean_v g l lw C i).
Proof. exact mixed_v_mean_claim. Qed.
Print Assumptions C57_mixed_velocity_means.
(** central moments of the velocity, unless given t, x and z (see C52) *)
Theorem C57_mixed_velocity_moments : forall self g l, mixed_on self g l -> good_grid g ->
  forall lw C, has_v C = false -> C <> V_txz ->
  (forall q, (q < List.length l)%nat -> lit_ok g (kmass g (kk l q) false) lw) ->
  (nonempty C = false -> lw = false -> k_normal g l) -> forall j,
  exists m, mix_central_moment self (dname V_v C) j lw = Ok m /\ shp m = dims C g /\
  forall i, in_grid g i -> all_there g l lw C i -> exists M, ent m (coords C i) = Fin M /\
    k_moment_v g l lw C i (fun _ => k_mean_v g l lw C i) j M.
Proof. exact v_central_claim. Qed.
Print Assumptions C57_mixed_velocity_moments.
(** light-weighted means given v and more: the members' shares of light are
    those over all velocities, their distributions are over the velocity range
    of the cube *)
Theorem C57_light_given_v : forall self g l, mixed_on self g l -> good_grid g ->
  forall lw k C, (forall q, (q < List.length l)%nat -> lit_ok g (kmass g (kk l q) (has_v C)) lw) ->
  disjoint (cvar k) C = true -> (nonempty C = false -> lw = false -> k_normal g l) -> k <> Cv ->
  (forall q m, (q < List.length l)%nat -> kk l q = KPar m -> no_holes g m lw (cvar k) C) -> lw = true -> nonempty C = true ->
  (forall q, (q < List.length l)%nat -> lit_ok g (kmass g (kk l q) false) true) ->
  exists m, mix_mean self (dname (cvar k) C) true = Ok m /\ shp m = mdims k C g /\
  forall i, in_grid g i -> all_there g l true C i -> ent m (mcoords k C i) =
    Fin (Sum (List.length l) (fun q => kw l q * total g (lit g (kmass g (kk l q) false)) / total g (lit g (kmix g l false)) *
           marg g (weighted g true (kmass g (kk l q) (has_v C))) C i * Mean g (weighted g true (kmass g (kk l q) (has_v C))) k C i) /
         marg g (weighted g true (kmix g l (has_v C))) C i).
Proof. exact light_given_v_claim. Qed.
Print Assumptions C57_light_given_v.
(** so the mean age given the velocity can differ from the only age there is;
    for every symmetric cdf which is not linear in between, such as the normal one *)
Theorem C57_light_given_v_refuted : forall L, good_norm (norm_cdf L) -> (forall x, norm_cdf L (- x) = 1 - norm_cdf L x) ->
  norm_cdf L 0 - norm_cdf L (-1) <> norm_cdf L (-1) - norm_cdf L (-2) ->
  exists self g l i m r, mixed_on self g l /\ good_grid g /\ in_grid g i /\ k_normal g l /\
  (forall q m, kk l q = KPar m -> (q < List.length l)%nat -> pm_F m = norm_cdf L) /\
  (forall q, (q < List.length l)%nat -> lit_ok g (kmass g (kk l q) true) true) /\ all_there g l true V_v i /\ nt g = 1%nat /\
  mix_mean self "t_v" true = Ok m /\ ent m (coords V_v i) = Fin r /\
  Mean g (weighted g true (kmix g l true)) Ct V_v i = mid (tE g) 0 /\ r <> mid (tE g) 0.
Proof. exact light_given_v_refuted. Qed.
Print Assumptions C57_light_given_v_refuted.
Example C57_light_given_v_case : exists self g l i m r, mixed_on self g l /\ good_grid g /\ in_grid g i /\ k_normal g l /\
  (forall q m, kk l q = KPar m -> (q < List.length l)%nat -> pm_F m = logistic) /\
  (forall q, (q < List.length l)%nat -> lit_ok g (kmass g (kk l q) true) true) /\ all_there g l true V_v i /\ nt g = 1%nat /\
  mix_mean self "t_v" true = Ok m /\ ent m (coords V_v i) = Fin r /\
  Mean g (weighted g true (kmix g l true)) Ct V_v i = mid (tE g) 0 /\ r <> mid (tE g) 0.
Proof. exact (C57_light_given_v_refuted exL exL_norm logistic_sym logistic_bends). Qed.
(** a base component with mean velocity 1/6 at the first age, and a parametric
    one with 10 *)
Example C57_mixed_case :
  (exists m, mix_mean exm2 "v_t" false = Ok m /\ ent m [0]%nat = Fin (16 / 37)) /\
  (exists m, mix_mean exm2 "t_x" false = Ok m /\ ent m [0; 0]%nat = Fin (473 / 346)).
Proof.
  assert (Hi : in_grid exg (Bin 0 0 0 0 0)) by (repeat split; cbn; lia). split.
  - destruct (C57_mixed_velocity_means exm2 exg exl2 exm2_on exg_good false (VSet true false false false) eq_refl ltac:(intros; discriminate) ltac:(discriminate))
      as (m & E & _ & He). exists m. split; [exact E|]. etransitivity; [apply (He (Bin 0 0 0 0 0) Hi)|].
    + intros q Hq. cbn in Hq. destruct q as [|[|q]]; [| |lia]; kev; unfold mass, wid; cbn; lra.
    + f_equal. unfold k_mean_v. cbn [List.length exl2 Sum]. fold exl2.
      assert (G0 : k_given exg exl2 false (VSet true false false false) (Bin 0 0 0 0 0) 0 = 36 / 37) by (kev; unfold mass, wid; cbn; field).
      assert (G1 : k_given exg exl2 false (VSet true false false false) (Bin 0 0 0 0 0) 1 = 1 / 37) by (kev; unfold mass, wid; cbn; field).
      assert (V0 : k_v_mean exg (kk exl2 0) false (VSet true false false false) (Bin 0 0 0 0 0) = 1 / 6)
        by (cbn [kk exl2 nth fst k_v_mean]; unfold Mean, Ex, prob, mass; kev; unfold cmid, wid, mid; cbn; field).
      assert (V1 : k_v_mean exg (kk exl2 1) false (VSet true false false false) (Bin 0 0 0 0 0) = 10) by (kev; field).
      rewrite G0, G1, V0, V1. field.
  - destruct (C57_mixed_means exm2 exg exl2 exm2_on exg_good false Ct (VSet false false true false) ltac:(intros; discriminate) eq_refl ltac:(discriminate) ltac:(discriminate)
      ltac:(discriminate)) as (m & E & _ & He).
    { intros q m Hq Em _ [K|[K|[]]]; discriminate K. }
    exists m. split; [exact E|]. destruct (He _ Hi) as [K _]. etransitivity; [apply K|].
    + intros q Hq. cbn in Hq. destruct q as [|[|q]]; [| |lia]; kev; unfold mass, wid; cbn; lra.
    + f_equal. unfold Mean, Ex. kev. unfold cmid, mass, wid, mid. cbn. field.
Qed.

(** ** C52 *)
(** given t, x and z parametric members use the mixture's mean of the first
    metallicity as the centre *)
Theorem C52_mixture_centre : forall self g l, mixed_on self g l -> good_grid g ->
  forall lw C, has_v C = false -> (forall q, (q < List.length l)%nat -> lit_ok g (kmass g (kk l q) (has_v C)) lw) ->
  (nonempty C = false -> lw = false -> k_normal g l) -> forall j,
  exists m, mix_central_moment self (dname V_v C) j lw = Ok m /\ shp m = dims C g /\
  forall i, in_grid g i -> all_there g l lw C i ->
    (forall q, (q < List.length l)%nat -> all_there g l lw C (centre_at (kk l q) C i)) ->
    exists M, ent m (coords C i) = Fin M /\
      k_moment_v g l lw C i (fun q => k_mean_v g l lw C (centre_at (kk l q) C i)) j M.
Proof. exact mixed_v_central_claim. Qed.
Print Assumptions C52_mixture_centre.
(** so get_variance of a mixture can return 8 where the variance is 4 *)
Theorem C52_mixture_refuted : exists self g l i m, mixed_on self g l /\ good_grid g /\ in_grid g i /\ k_normal g l /\
  all_there g l false V_txz i /\
  mix_central_moment self "v_txz" 2 false = Ok m /\ ent m (coords V_txz i) = Fin 8 /\
  k_moment_v g l false V_txz i (fun _ => k_mean_v g l false V_txz i) 2 4.
Proof. exact mixture_txz_refuted. Qed.
Print Assumptions C52_mixture_refuted.
