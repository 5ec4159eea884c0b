(** * CoarseCubeExample: two ages and two pixels merged. *)
From Coq Require Import Reals Lra Lia List Bool Arith ZArith String Ascii.
From Verif Require Import Num NumLemmas Arr Cube Base Spec Repr Build Sharing Datacube DatacubeSpec DatacubeClaims DatacubeExample
  CoarseSpec Coarse CoarseClaims CoarseCubeSpec CoarseCube Particle ParticleSpec ParticleLemmas ParticleClaims ParticleExample ParticleCellsExample.
Import ListNotations.
Local Open Scope R_scope.

Definition fg : grid := exv 2 6 1.
Definition cg : grid :=
  Grid 1 6 1 1 1 (fun i => 3 * INR i) (fun i => INR i - INR 3 - / 2) (fun i => 2 * INR i) (fun i => INR i)
       (fun i => INR i * (INR i + 1)) (fun t z => 1).
Definition ccuts : cuts := Cuts (fun k => 2 * k)%nat (fun k => k) (fun k => 2 * k)%nat (fun k => k) (fun k => k).
(** spectra that do not depend on age *)
Definition exS0 : spectra := fun t z w => INR (2 * z + w).

Lemma cg_good : good_grid cg.
Proof.
  constructor; cbn [cg nt nv nx ny nz]; try lia; try (intros i Hi; cbn [tE vE xE yE zE cg]; rewrite ?S_INR; pose proof (pos_INR i); nra).
  intros; cbn; lra.
Qed.
Lemma fg_good : good_grid fg. Proof. apply exv_good; lia. Qed.
Lemma fcoarser : coarser fg cg ccuts.
Proof.
  constructor; constructor; cbn [fg cg exv ccuts nt nv nx ny nz tE vE xE yE zE st sv sx sy sz]; try reflexivity; try lia; intros k Hk; try lia.
  - destruct k as [|[|k]]; cbn; lra || lia.
  - destruct k as [|[|k]]; cbn; lra || lia.
Qed.
Lemma fsame : same_bins (nv cg) (sv ccuts). Proof. intros k _. reflexivity. Qed.
Lemma fshared : shared_spectra cg ccuts 4 exS0 exS0.
Proof.
  intros t z j k w _ _ _ Hk _. unfold run, ccuts in Hk. cbn [sz] in Hk. apply in_seq in Hk. unfold exS0. replace k with z by lia. reflexivity.
Qed.
Definition fcomp : component := comp_for fg exD 4 1 exS0.
Definition cf : joint := coarse_density fg cg ccuts exD.
Definition ccomp : component := comp_for cg cf 4 1 exS0.
Lemma cg_x : uniform (nx cg) (xE cg). Proof. intros i Hi. unfold wid; cbn [xE cg]. rewrite !S_INR. lra. Qed.
Lemma cg_y : uniform (ny cg) (yE cg). Proof. intros i Hi. unfold wid; cbn [yE cg]. rewrite !S_INR. lra. Qed.
Lemma fmerged : merged cg ccuts (mass fg exD) (mass cg cf).
Proof. apply merged_iff; [exact cg_good|]. reflexivity. Qed.
Lemma fcomp_ev : evaluable fcomp fg exD 4 1 exS0 3.
Proof. apply exv_evaluable; try lia. apply exD_nonneg. Qed.
Lemma cg_velocity : velocity_ok (nv cg) (vE cg) 1 3.
Proof. exact (exv_velocity 2 6 1 (or_introl eq_refl)). Qed.
Lemma cf_nonneg : nonneg cg cf.
Proof. apply (merged_nonneg fg cg ccuts fcoarser fg_good cg_good exD cf); [apply exD_nonneg|exact fmerged]. Qed.
Lemma ccomp_ev : evaluable ccomp cg cf 4 1 exS0 3.
Proof.
  constructor; [apply comp_for_on; [exact cg_x|exact cg_y]|exact cg_good|exact cf_nonneg|apply templates_for; cbn; lia|exact cg_velocity|cbn; lia].
Qed.

Definition fcube : cube := see (Build.cube_of fg) (ssps_for fg 4 1 exS0).
Definition ccube : cube := see (Build.cube_of cg) (ssps_for cg 4 1 exS0).
Lemma fcube_on : cube_on fcube fg.
Proof. exact (cm_cube _ _ _ (ev_on _ _ _ _ _ _ _ fcomp_ev)). Qed.
Lemma ccube_on : cube_on ccube cg.
Proof. exact (cm_cube _ _ _ (ev_on _ _ _ _ _ _ _ ccomp_ev)). Qed.
Definition fpw : list (particle * R) := [(pd (1/2) 0, 1); (pd (3/2) 1, 2)].
Lemma fpw_bounds x v : 0 <= x <= 2 -> -3 <= v <= 2 -> in_bounds fg (pd x v) = true.
Proof. intros Hx Hv. unfold in_bounds, in_range, pd, fg, exv; cbn. rbool. reflexivity. Qed.
Lemma fpw_total : weight (in_bounds fg) fpw = 3.
Proof. unfold fpw. rewrite !weight_cons, weight_nil. cbn [fst snd]. rewrite !fpw_bounds by lra. lra. Qed.
Lemma fpw_pos : forall q, In q fpw -> 0 <= snd q.
Proof. intros q [<-|[<-|[]]]; cbn; lra. Qed.
