(** * Claim C102: datacubes on coarser pixels. *)
From Coq Require Import Reals Lra Lia List Bool Arith ZArith String Ascii.
From Verif Require Import Num NumLemmas Arr Cube Base Spec Repr Build Datacube DatacubeSpec DatacubeClaims DatacubeExample
  CoarseSpec Coarse CoarseClaims CoarseCubeSpec CoarseCube CoarseCubeExample Particle ParticleSpec ParticleLemmas.
Import ListNotations.
Local Open Scope R_scope.

(** a component on a grid with coarser pixels, ages or metallicities but the
    same velocity bins, whose bin probabilities are sums of those of a
    component on a finer grid and whose merged ages and metallicities share
    their templates: each spaxel of its datacube is the sum of the spaxels of
    the finer pixels *)
Theorem C102_datacube : forall (W : weights) g g' c self self' f f' n dv (S S' : spectra) v0 batch batch',
  coarser g g' c -> same_bins (nv g') (sv c) ->
  evaluable self g f n dv S v0 -> evaluable self' g' f' n dv S' v0 -> merged g' c (mass g f) (mass g' f') ->
  shared_spectra g' c n S S' -> is_batch batch -> is_batch batch' ->
  exists y y', evaluate_ybar W self batch = Ok y /\ evaluate_ybar W self' batch' = Ok y' /\ shp y' = [n; nx g'; ny g'] /\
    forall w i j, (w < n)%nat -> (i < nx g')%nat -> (j < ny g')%nat ->
      ent y' [w; i; j] = nsum (map (fun q => ent y [w; fst q; snd q]) (fine_pixels c i j)).
Proof. exact coarse_cube_claim. Qed.
Print Assumptions C102_datacube.
Example C102_datacube_case : exists y y', evaluate_ybar idW fcomp "none" = Ok y /\ evaluate_ybar idW ccomp "column" = Ok y' /\
  ent y' [1; 0; 0]%nat = nadd (ent y [1; 0; 0]%nat) (nadd (ent y [1; 1; 0]%nat) (Fin 0)).
Proof.
  destruct (C102_datacube idW fg cg ccuts fcomp ccomp exD cf 4 1 exS0 exS0 3 "none" "column" fcoarser fsame fcomp_ev ccomp_ev fmerged fshared
    ltac:(unfold is_batch; auto) ltac:(unfold is_batch; auto)) as (y & y' & E & E' & _ & H).
  exists y, y'. split; [exact E|]. split; [exact E'|]. apply (H 1 0 0)%nat; cbn; lia.
Qed.
(** the same particles on the two grids *)
Theorem C102_particles : forall (W : weights) g g' c k k' pw n dv (S S' : spectra) v0 batch batch',
  coarser g g' c -> same_bins (nv g') (sv c) ->
  good_grid g -> good_grid g' -> cube_on k g -> cube_on k' g' -> (forall q, In q pw -> 0 <= snd q) -> 0 < weight (in_bounds g) pw ->
  templates (c_ssps k) g n dv S -> templates (c_ssps k') g' n dv S' -> shared_spectra g' c n S S' ->
  velocity_ok (nv g) (vE g) dv v0 -> (6 <= nv g)%nat -> is_batch batch -> is_batch batch' ->
  exists no no' comp comp' y y', from_particle k (map fst pw) (Some (map Fin (map snd pw))) = Ok (no, comp) /\
    from_particle k' (map fst pw) (Some (map Fin (map snd pw))) = Ok (no', comp') /\
    evaluate_ybar W comp batch = Ok y /\ evaluate_ybar W comp' batch' = Ok y' /\ shp y' = [n; nx g'; ny g'] /\
    forall w i j, (w < n)%nat -> (i < nx g')%nat -> (j < ny g')%nat ->
      ent y' [w; i; j] = nsum (map (fun q => ent y [w; fst q; snd q]) (fine_pixels c i j)).
Proof. exact coarse_particles_cube. Qed.
Print Assumptions C102_particles.
Example C102_particles_case : exists no no' comp comp' y y',
  from_particle fcube (map fst fpw) (Some [Fin 1; Fin 2]) = Ok (no, comp) /\
  from_particle ccube (map fst fpw) (Some [Fin 1; Fin 2]) = Ok (no', comp') /\
  evaluate_ybar idW comp "spaxel" = Ok y /\ evaluate_ybar idW comp' "none" = Ok y' /\
  ent y' [2; 0; 0]%nat = nadd (ent y [2; 0; 0]%nat) (nadd (ent y [2; 1; 0]%nat) (Fin 0)).
Proof.
  destruct (C102_particles idW fg cg ccuts fcube ccube fpw 4 1 exS0 exS0 3 "spaxel" "none" fcoarser fsame fg_good cg_good fcube_on ccube_on fpw_pos
    ltac:(rewrite fpw_total; lra) (templates_for fg 4 1 exS0 ltac:(lia) ltac:(cbn; lia)) (templates_for cg 4 1 exS0 ltac:(lia) ltac:(cbn; lia))
    fshared (exv_velocity 2 6 1 (or_introl eq_refl)) ltac:(cbn; lia) ltac:(unfold is_batch; auto) ltac:(unfold is_batch; auto))
    as (no & no' & comp & comp' & y & y' & E1 & E2 & E3 & E4 & _ & H).
  exists no, no', comp, comp', y, y'. split; [exact E1|]. split; [exact E2|]. split; [exact E3|]. split; [exact E4|].
  apply (H 2 0 0)%nat; cbn; lia.
Qed.
