(** * Claim C101: coarser grids. *)
From Coq Require Import Reals Lra Lia List Bool Arith ZArith String Ascii.
From Verif Require Import Num NumLemmas Arr Cube Base Spec Repr Build DistLemmas CoarseSpec Coarse CoarseClaims CoarseExample
  Particle ParticleSpec ParticleLemmas ParticleClaims ParticleExample.
Import ListNotations.
Local Open Scope R_scope.

(** a component on a coarser grid whose bin probabilities are sums of those of
    a component on a finer grid: every marginal is the sum of the finer one *)
Theorem C101_marginals : forall g g' c, coarser g g' c -> good_grid g -> good_grid g' ->
  forall self self' f f', comp_on self g f -> comp_on self' g' f' -> nonneg g f -> merged g' c (mass g f) (mass g' f') ->
  forall S lw, nonempty S = true -> lw_ok g f lw -> (lw = true -> shared_light g g' c) ->
  exists p p', get_p self (name S) false lw = Ok p /\ get_p self' (name S) false lw = Ok p' /\ shp p' = dims S g' /\
    forall i, in_grid g' i -> ent p' (coords S i) = nsum (map (fun j => ent p (coords S j)) (fine_bins c S i)).
Proof. exact coarse_marg. Qed.
Print Assumptions C101_marginals.
Example C101_marginals_case : exists p p', get_p exc "tv" false true = Ok p /\ get_p exc1c "tv" false true = Ok p' /\
  ent p' [1; 0]%nat = nadd (ent p [1; 0]%nat) (nadd (ent p [1; 1]%nat) (Fin 0)).
Proof.
  destruct (C101_marginals exg exg1 excuts excoarser exg_good exg1_good exc exc1c exf exf1c exc_on exc1c_on exf_nonneg exmerged
    (VSet true true false false) true eq_refl (ex_lw_ok true) (fun _ => exshared)) as (p & p' & Ep & Ep' & _ & H).
  exists p, p'. split; [exact Ep|]. split; [exact Ep'|]. apply (H (Bin 1 0 0 0 0)). unfold in_grid; cbn; lia.
Qed.
(** conditionals are quotients of two such sums (nan where nothing is) *)
Theorem C101_conditionals : forall g g' c, coarser g g' c -> good_grid g -> good_grid g' ->
  forall self self' f f', comp_on self g f -> comp_on self' g' f' -> nonneg g f -> merged g' c (mass g f) (mass g' f') ->
  forall A C lw, nonempty A = true -> nonempty C = true -> disjoint A C = true -> lw_ok g f lw ->
  (lw = true -> shared_light g g' c) ->
  exists p pc p', get_p self (name (union A C)) false lw = Ok p /\ get_p self (name C) false lw = Ok pc /\
    get_p self' (cname A C) false lw = Ok p' /\ shp p' = (dims A g' ++ dims C g')%list /\
    forall i, in_grid g' i -> ent p' (coords A i ++ coords C i) =
      ndiv (nsum (map (fun j => ent p (coords (union A C) j)) (fine_bins c (union A C) i)))
           (nsum (map (fun j => ent pc (coords C j)) (fine_bins c C i))).
Proof. exact coarse_cond. Qed.
Print Assumptions C101_conditionals.
Example C101_conditionals_case : exists p pc p', get_p exc "tv" false false = Ok p /\ get_p exc "v" false false = Ok pc /\
  get_p exc1c "t_v" false false = Ok p' /\
  ent p' [1; 0]%nat = ndiv (nadd (ent p [1; 0]%nat) (nadd (ent p [1; 1]%nat) (Fin 0)))
                           (nadd (ent pc [0]%nat) (nadd (ent pc [1]%nat) (Fin 0))).
Proof.
  destruct (C101_conditionals exg exg1 excuts excoarser exg_good exg1_good exc exc1c exf exf1c exc_on exc1c_on exf_nonneg exmerged
    (VSet true false false false) (VSet false true false false) false eq_refl eq_refl eq_refl (fun e => ltac:(discriminate e)) (fun _ => exshared))
    as (p & pc & p' & Ep & Epc & Ep' & _ & H).
  exists p, pc, p'. split; [exact Ep|]. split; [exact Epc|]. split; [exact Ep'|]. apply (H (Bin 1 0 0 0 0)). unfold in_grid; cbn; lia.
Qed.
(** exactly one density on the coarser grid has these probabilities *)
Theorem C101_density : forall g g' c f f', good_grid g' ->
  (merged g' c (mass g f) (mass g' f') <->
   forall i, in_grid g' i -> f' (bt i) (bv i) (bx i) (by_ i) (bz i) = coarse_density g g' c f (bt i) (bv i) (bx i) (by_ i) (bz i)).
Proof. exact merged_iff. Qed.
Print Assumptions C101_density.
(** the fine bins of the coarse bins are all bins, each once, so nothing is
    lost or counted twice *)
Theorem C101_total : forall g g' c P P', coarser g g' c -> merged g' c P P' -> total g' P' = total g P.
Proof. exact (fun g g' c P P' Hc => total_merged g g' c Hc P P'). Qed.
Print Assumptions C101_total.
(** a coarse bin holds the particles of its fine bins *)
Theorem C101_particles_inside : forall g g' c pw i, coarser g g' c -> good_grid g -> in_grid g' i ->
  weight (inside g' i) pw = fine_sum c all_vars i (fun j => weight (inside g j) pw).
Proof. exact (fun g g' c pw i Hc Hg => weight_merged g g' c Hc Hg pw i). Qed.
Print Assumptions C101_particles_inside.
(** the same particles on the two grids: the same are lost, and the
    probabilities on the coarser grid are sums of those on the finer one *)
Theorem C101_particles : forall g g' c, coarser g g' c -> good_grid g -> good_grid g' ->
  forall k k' pw, cube_on k g -> cube_on k' g' -> (forall q, In q pw -> 0 <= snd q) -> 0 < weight (in_bounds g) pw ->
  exists n n' comp comp', from_particle k (map fst pw) (Some (map Fin (map snd pw))) = Ok (n, comp) /\
    from_particle k' (map fst pw) (Some (map Fin (map snd pw))) = Ok (n', comp') /\ n_lost n = n_lost n' /\ lost_lo_hi n = lost_lo_hi n' /\
    forall S lw, nonempty S = true -> lw_ok g (particle_density g pw) lw -> (lw = true -> shared_light g g' c) ->
      exists p p', get_p comp (name S) false lw = Ok p /\ get_p comp' (name S) false lw = Ok p' /\ shp p' = dims S g' /\
        forall i, in_grid g' i -> ent p' (coords S i) = nsum (map (fun j => ent p (coords S j)) (fine_bins c S i)).
Proof. exact particles_coarse. Qed.
Print Assumptions C101_particles.
Example C101_particles_case : exists n n' comp comp' p p',
  from_particle excube [pa; pb; pout] (Some [Fin 1; Fin 3; Fin 2]) = Ok (n, comp) /\
  from_particle (cube_of exg1) [pa; pb; pout] (Some [Fin 1; Fin 3; Fin 2]) = Ok (n', comp') /\ n_lost n' = 1%nat /\
  get_p comp "v" false false = Ok p /\ get_p comp' "v" false false = Ok p' /\
  ent p' [0]%nat = nadd (ent p [0]%nat) (nadd (ent p [1]%nat) (Fin 0)).
Proof.
  destruct (C101_particles exg exg1 excuts excoarser exg_good exg1_good excube (cube_of exg1) expw excube_on excube1_on exp_pos)
    as (n & n' & comp & comp' & E & E' & Hn & _ & H); [rewrite exp_total; lra|].
  destruct (H (VSet false true false false) false eq_refl (fun e => ltac:(discriminate e)) (fun _ => exshared)) as (p & p' & Ep & Ep' & _ & Hp).
  exists n, n', comp, comp', p, p'. split; [exact E|]. split; [exact E'|]. split.
  - rewrite <- Hn. destruct (density_claim excube exg excube_on exg_good expw) as (co & Eco & _); [rewrite exp_total; lra|].
    rewrite E in Eco. injection Eco as -> ->. apply exp_note.
  - split; [exact Ep|]. split; [exact Ep'|]. apply (Hp (Bin 0 0 0 0 0)). unfold in_grid; cbn; lia.
Qed.
