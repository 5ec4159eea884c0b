(** * Claim C100: particle data given as arrays. *)
From Coq Require Import Reals Lra Lia List Bool Arith ZArith String Ascii.
From Verif Require Import Num NumLemmas Arr Cube Base Spec Repr Build Particle ParticleSpec ParticleLemmas ParticleClaims
  ParticleExample ParticleArr ParticleArrSpec ParticleArrClaims.
Import ListNotations.
Local Open Scope R_scope.

(** arrays of one length, with weights: entry i of each array belongs to
    particle i, and the component has the density of these particles *)
Theorem C100_weighted : forall c g n (t v x1 x2 z a : arr num) w, cube_on c g -> good_grid g ->
  of_length n [t; v; x1; x2; z; a] -> (forall i, (i < n)%nat -> ent a [i] = Fin (w i)) ->
  0 < weight (in_bounds g) (zipped_w n t v x1 x2 z w) ->
  exists comp, from_particle_arrays c t v x1 x2 z (Some a) = Ok (note_of g (zipped n t v x1 x2 z), comp) /\
    comp_on comp g (particle_density g (zipped_w n t v x1 x2 z w)).
Proof. exact weighted_claim. Qed.
Print Assumptions C100_weighted.
Example C100_weighted_case : exists comp, from_particle_arrays excube
    (arr1 [Fin 1; Fin (1/2); Fin 5] NaN) (arr1 [Fin (-1/2); Fin (1/2); Fin (1/2)] NaN)
    (arr1 [Fin (1/2); Fin (3/2); Fin (3/2)] NaN) (arr1 [Fin (1/2); Fin (1/2); NaN] NaN)
    (arr1 [Fin 6; Fin 1; Fin 1] NaN) (Some (arr1 [Fin 1; Fin 3; Fin 2] NaN)) =
    Ok (note_of exg [pa; pb; pout], comp) /\ comp_on comp exg (particle_density exg expw).
Proof.
  match goal with |- context [from_particle_arrays _ ?t ?v ?x ?y ?z (Some ?a)] =>
    refine (C100_weighted excube exg 3 t v x y z a (fun i => nth i [1; 3; 2] 0) _ _ _ _ _) end.
  - exact excube_on.
  - exact exg_good.
  - repeat (constructor; [reflexivity|]). constructor.
  - intros [|[|[|i]]] Hi; [reflexivity|reflexivity|reflexivity|lia].
  - match goal with |- 0 < weight _ ?l => change l with expw end. rewrite exp_total. lra.
Qed.
(** and without weights every particle counts the same *)
Theorem C100_unweighted : forall c g n (t v x1 x2 z : arr num), cube_on c g -> good_grid g ->
  of_length n [t; v; x1; x2; z] -> 0 < weight (in_bounds g) (zipped_w n t v x1 x2 z (fun _ => 1)) ->
  exists comp, from_particle_arrays c t v x1 x2 z None = Ok (note_of g (zipped n t v x1 x2 z), comp) /\
    comp_on comp g (particle_density g (zipped_w n t v x1 x2 z (fun _ => 1))).
Proof. exact (fun c g n t v x1 x2 z Hc Hg => unweighted_claim c g Hc Hg n t v x1 x2 z). Qed.
Print Assumptions C100_unweighted.
Example C100_unweighted_case : exists comp, from_particle_arrays excube
    (arr1 [Fin 1; Fin (1/2)] NaN) (arr1 [Fin (-1/2); Fin (1/2)] NaN) (arr1 [Fin (1/2); Fin (3/2)] NaN)
    (arr1 [Fin (1/2); Fin (1/2)] NaN) (arr1 [Fin 6; Fin 1] NaN) None = Ok (note_of exg [pa; pb], comp) /\
  comp_on comp exg (particle_density exg [(pa, 1); (pb, 1)]).
Proof.
  match goal with |- context [from_particle_arrays _ ?t ?v ?x ?y ?z None] =>
    refine (C100_unweighted excube exg 2 t v x y z _ _ _ _) end.
  - exact excube_on.
  - exact exg_good.
  - repeat (constructor; [reflexivity|]). constructor.
  - match goal with |- 0 < weight _ ?l => change l with [(pa, 1); (pb, 1)] end.
    rewrite !weight_cons, weight_nil. cbn [fst snd]. rewrite pa_bounds, pb_bounds. lra.
Qed.
(** so claims C38-C40 on lists of particles apply to arrays *)
Theorem C100_lists : forall c n (t v x1 x2 z : arr num), of_length n [t; v; x1; x2; z] ->
  from_particle_arrays c t v x1 x2 z None = from_particle c (zipped n t v x1 x2 z) None /\
  forall a m, shp a = [m] ->
    from_particle_arrays c t v x1 x2 z (Some a) = from_particle c (zipped n t v x1 x2 z) (Some (to_list a)).
Proof. exact list_claim. Qed.
Print Assumptions C100_lists.
(** the call succeeds exactly when the data have one axis and one length and
    the weights fit *)
Theorem C100_succeeds : forall c g (t v x1 x2 z : arr num) w, cube_on c g -> good_grid g ->
  (exists r, from_particle_arrays c t v x1 x2 z w = Ok r) <->
  (exists n, of_length n [t; v; x1; x2; z] /\ weights_fit n w).
Proof. exact (fun c g t v x1 x2 z w Hc Hg => succeeds_claim c g Hc Hg t v x1 x2 z w). Qed.
Print Assumptions C100_succeeds.
(** it fails with a TypeError when the ages are a single number, in all other
    cases with a ValueError *)
Theorem C100_failure : forall c g (t v x1 x2 z : arr num) w e, cube_on c g -> good_grid g ->
  from_particle_arrays c t v x1 x2 z w = Err e ->
  (e = TypeError <-> shp t = []) /\ (e = ValueError <-> shp t <> []).
Proof. exact (fun c g t v x1 x2 z w e Hc Hg => failure_claim c g Hc Hg t v x1 x2 z w e). Qed.
Print Assumptions C100_failure.
(** one velocity for two particles is not spread over them, although the mask
    of lines 29-40 accepts it *)
Example C100_failure_case : from_particle_arrays excube
    (arr1 [Fin 1; Fin (1/2)] NaN) (arr1 [Fin (-1/2)] NaN) (arr1 [Fin (1/2); Fin (3/2)] NaN)
    (arr1 [Fin (1/2); Fin (1/2)] NaN) (arr1 [Fin 6; Fin 1] NaN) None = Err ValueError.
Proof.
  match goal with |- ?r = _ => destruct r as [q|e] eqn:E end.
  - exfalso. assert (H : exists n, of_length n [arr1 [Fin 1; Fin (1/2)] NaN; arr1 [Fin (-1/2)] NaN;
      arr1 [Fin (1/2); Fin (3/2)] NaN; arr1 [Fin (1/2); Fin (1/2)] NaN; arr1 [Fin 6; Fin 1] NaN] /\ weights_fit n None)
      by (apply (C100_succeeds excube exg); [exact excube_on|exact exg_good|eexists; exact E]).
    destruct H as (n & H & _). inversion H as [|a l H1 H2]; subst. inversion H2 as [|a' l' H3 H4]; subst. cbn in *. congruence.
  - f_equal. apply (proj2 (C100_failure _ _ _ _ _ _ _ _ _ excube_on exg_good E)). discriminate.
Qed.
