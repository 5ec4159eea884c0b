(** * ParticleCellsExample: weights of cells for the particles of ParticleExample,
    and particles on a grid with enough velocities for datacubes. *)
From Coq Require Import Reals Lra Lia String Ascii List Bool Arith ZArith.
From Verif Require Import Num NumLemmas Arr Cube Base Spec SpecLemmas Repr Build MomSpec Particle ParticleSpec ParticleLemmas ParticleClaims ParticleExample
  Mixture MixSpec ParticleMix ParticleCells Fft Datacube FourierSpec DatacubeSpec DatacubeClaims Sharing SharingLemmas SharingClaims DatacubeExample.
Import ListNotations.
Local Open Scope R_scope.

Ltac cellb := unfold in_cell, on_axis, in_bin, in_range, pa, pb, pout, exg; cbn; rbool; reflexivity.
Definition cell_t : vset := VSet true false false false.
Definition cell_v : vset := VSet false true false false.
Definition cell_xz : vset := VSet false false true true.

Ltac weigh := unfold expw, relit; cbn [map fst snd]; rewrite ?weight_cons, ?weight_nil; cbn [fst snd];
  repeat match goal with |- context [in_cell ?g ?S ?i ?p] =>
    first [ replace (in_cell g S i p) with true by cellb | replace (in_cell g S i p) with false by cellb ] end;
  rewrite ?pa_bounds, ?pb_bounds, ?pout_bounds.

Lemma pa_light : its_light exg pa = 4.
Proof.
  rewrite (its_light_in exg exg_good 1 1 pa); [cbn; lra|cbn; lia|cbn; lia| |];
    unfold in_bin, pa, exg; cbn; rbool; reflexivity.
Qed.
Lemma pb_light : its_light exg pb = 1.
Proof.
  rewrite (its_light_in exg exg_good 0 0 pb); [cbn; lra|cbn; lia|cbn; lia| |];
    unfold in_bin, pb, exg; cbn; rbool; reflexivity.
Qed.
Lemma ex_relit_total : weight (in_bounds exg) (relit exg expw) = 7.
Proof. weigh. rewrite pa_light, pb_light. lra. Qed.
Lemma ex_cell_t : weight (in_cell exg cell_t (Bin 1 0 0 0 0)) expw = 1 /\ weight (in_cell exg cell_t (Bin 1 0 0 0 0)) (relit exg expw) = 4.
Proof. split; weigh; rewrite ?pa_light, ?pb_light; lra. Qed.
Lemma ex_cell_vt : weight (in_cell exg (union cell_v cell_t) (Bin 1 0 0 0 0)) expw = 1.
Proof. weigh; lra. Qed.
Lemma ex_cell_xz : weight (in_cell exg cell_xz (Bin 0 0 0 0 0)) expw = 0.
Proof. weigh; lra. Qed.

(** the particles in two sets *)
Definition exsets : list (list (particle * R)) := [[(pa, 1); (pout, 2)]; [(pb, 3)]].
Lemma ex_set1 : weight (in_bounds exg) [(pa, 1); (pout, 2)] = 1.
Proof. weigh; lra. Qed.
Lemma ex_set2 : weight (in_bounds exg) [(pb, 3)] = 3.
Proof. weigh; lra. Qed.
Lemma exsets_ok : Forall (fun pw => (forall q, In q pw -> 0 <= snd q) /\ 0 < weight (in_bounds exg) pw) exsets.
Proof.
  apply Forall_cons; [split|apply Forall_cons; [split|constructor]].
  - intros q [<-|[<-|[]]]; cbn; lra.
  - rewrite ex_set1; lra.
  - intros q [<-|[]]; cbn; lra.
  - rewrite ex_set2; lra.
Qed.
Lemma exsets_built : exists made whole self, split_sets excube exg exsets made whole self.
Proof.
  destruct (built_claim excube exg exsets excube_on exg_good ltac:(discriminate) exsets_ok) as (made & whole & self & _ & _ & _ & H).
  exists made, whole, self. exact H.
Qed.
Lemma ex_marg pw S i : 0 < weight (in_bounds exg) pw -> in_grid exg i ->
  marg exg (prob exg (particle_density exg pw) false) S i = weight (in_cell exg S i) pw / weight (in_bounds exg) pw.
Proof. intros Hw Hi. apply (marg_cells exg exg_good pw false); assumption. Qed.
Lemma ex_nolight f : lw_ok exg f false.
Proof. intros X; discriminate X. Qed.
(** the first set has mass at the older age only, the second at the younger *)
Lemma ex_set_t : marg exg (prob exg (particle_density exg [(pa, 1); (pout, 2)]) false) cell_t (Bin 1 0 0 0 0) = 1 /\
  marg exg (prob exg (particle_density exg [(pb, 3)]) false) cell_t (Bin 1 0 0 0 0) = 0.
Proof.
  assert (Hi : in_grid exg (Bin 1 0 0 0 0)) by (unfold in_grid; cbn; lia).
  split; (rewrite ex_marg; [|rewrite ?ex_set1, ?ex_set2; lra|exact Hi]); rewrite ?ex_set1, ?ex_set2; weigh; lra.
Qed.

(** for datacubes *)
Definition dgrid : grid := exv 1 6 1.
Definition dcube : cube := see (Build.cube_of dgrid) (ssps_for dgrid 4 1 exS).
Lemma dcube_on : cube_on dcube dgrid.
Proof. exact (cm_cube _ _ _ (comp_for_on dgrid exD 4 1 exS (exv_x 1 6 1) (exv_y 1 6 1))). Qed.
Definition pd (x v : R) : particle := Particle (Fin (1/2)) (Fin v) (Fin x) (Fin (1/2)) (Fin 1).
Definition dsets : list (list (particle * R)) := [[(pd (1/2) 0, 1); (pd (3/2) 1, 2)]; [(pd (3/2) (-1), 3)]].
Lemma pd_bounds x v : 0 <= x <= 2 -> -3 <= v <= 2 -> in_bounds dgrid (pd x v) = true.
Proof.
  intros Hx Hv. unfold in_bounds, in_range, pd, dgrid, exv; cbn. rbool. reflexivity.
Qed.
Lemma dsets_ok : Forall (fun pw => (forall q, In q pw -> 0 <= snd q) /\ 0 < weight (in_bounds dgrid) pw) dsets.
Proof.
  apply Forall_cons; [split|apply Forall_cons; [split|constructor]].
  - intros q [<-|[<-|[]]]; cbn; lra.
  - rewrite !weight_cons, weight_nil. cbn [fst snd]. rewrite !pd_bounds by lra. lra.
  - intros q [<-|[]]; cbn; lra.
  - rewrite !weight_cons, weight_nil. cbn [fst snd]. rewrite !pd_bounds by lra. lra.
Qed.
