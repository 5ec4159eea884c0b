(** * CoarseCube: datacubes on coarser grids. *)
From Coq Require Import Reals Lra Lia List Bool Arith ZArith String Ascii.
From Verif Require Import Num NumLemmas Arr ArrLemmas Cube CubeLemmas Base Spec SpecLemmas Repr Build Fft FourierSpec Datacube DatacubeSpec DatacubeClaims
  CoarseSpec Coarse CoarseClaims CoarseCubeSpec Particle ParticleSpec ParticleLemmas ParticleClaims ParticleMix.
Import ListNotations.
Local Open Scope R_scope.

(** one template broadened by a velocity distribution, linear in it *)
Definition T W n nv v0 (x : nat -> R) (p : nat -> R) (w : nat) : R := conv n x (broadening W n nv v0 p) w.
Lemma broadening_within W n nv v0 p p' d : (forall v, (v < nv)%nat -> p v = p' v) -> broadening W n nv v0 p d = broadening W n nv v0 p' d.
Proof.
  intros H. unfold broadening. apply signal_ext. intros k _. unfold vel_re, vel_im.
  split; apply Sum_ext; intros j _; f_equal; apply Sum_ext; intros v Hv; rewrite H by assumption; reflexivity.
Qed.
Lemma T_ext W n nv v0 x x' p p' w : (forall s, (s < n)%nat -> x s = x' s) -> (forall v, (v < nv)%nat -> p v = p' v) ->
  T W n nv v0 x p w = T W n nv v0 x' p' w.
Proof.
  intros Hx H. unfold T, conv. apply Sum_ext. intros s Hs. rewrite Hx by assumption. f_equal. apply broadening_within. exact H.
Qed.
Lemma T_plus W n nv v0 x p q w : T W n nv v0 x (fun v => p v + q v) w = T W n nv v0 x p w + T W n nv v0 x q w.
Proof.
  unfold T, conv. rewrite <- Sum_plus. apply Sum_ext. intros s _.
  rewrite (broadening_ext _ _ _ _ _ (fun v => 1 * p v + q v)) by (intros; lra). rewrite broadening_lin. ring.
Qed.
Lemma T_zero W n nv v0 x w : T W n nv v0 x (fun _ => 0) w = 0.
Proof.
  pose proof (T_plus W n nv v0 x (fun _ => 0) (fun _ => 0) w) as H.
  cbv beta in H.
  rewrite (T_ext W n nv v0 x x (fun _ => 0 + 0) (fun _ => 0) w) in H by (intros; try reflexivity; lra). lra.
Qed.
Lemma T_L W n nv v0 x l (p : nat -> nat -> R) w :
  T W n nv v0 x (fun v => L l (fun j => p j v)) w = L l (fun j => T W n nv v0 x (p j) w).
Proof.
  induction l as [|a l IH]; [rewrite L_nil; exact (T_zero W n nv v0 x w)|].
  rewrite L_cons, <- IH, <- T_plus. reflexivity.
Qed.

Section Cube.
Context (g g' : grid) (c : cuts) (Hc : coarser g g' c) (Hg : good_grid g) (Hg' : good_grid g').
Context (HV : same_bins (nv g') (sv c)).
Context (f f' : joint) (HM : merged g' c (mass g f) (mass g' f')).

Lemma nv_same : nv g = nv g'.
Proof. rewrite <- (mg_last _ _ _ _ _ (co_v _ _ _ Hc)). apply HV. lia. Qed.
Lemma v_edge v : (v <= nv g')%nat -> vE g' v = vE g v.
Proof. intros Hv. rewrite (mg_edge _ _ _ _ _ (co_v _ _ _ Hc) v Hv). rewrite HV by assumption. reflexivity. Qed.

(** probabilities in the pixels *)
Lemma bin_prob_merged dv t i j z v : in_grid g' (Bin t v i j z) ->
  bin_prob g' f' dv t i j z v =
  L (run (st c) t) (fun t' => L (run (sx c) i) (fun i' => L (run (sy c) j) (fun j' => L (run (sz c) z) (fun z' =>
    bin_prob g f dv t' i' j' z' v)))).
Proof.
  intros Hi. pose proof (HM _ Hi) as E. cbn [bt bv bx by_ bz] in E. destruct Hi as (H1 & H2 & H3 & H4 & H5). cbn [bt bv bx by_ bz] in *.
  rewrite fine_sum_L in E. cbn [has_t has_v has_x has_z all_vars run_if bt bv bx by_ bz] in E. unfold L5 in E.
  assert (R : run (sv c) v = [v]).
  { unfold run. rewrite !HV by lia. replace (S v - v)%nat with 1%nat by lia. reflexivity. }
  rewrite R in E.
  assert (Wv : wid (vE g') v = wid (vE g) v) by (unfold wid; rewrite !v_edge by lia; reflexivity).
  pose proof (wid_pos _ _ _ (gg_vE _ Hg') H2) as P. set (wv := wid (vE g') v) in *.
  apply (Rmult_eq_reg_r wv); [|lra].
  transitivity (mass g' f' t v i j z * dv); [unfold bin_prob, mass; fold wv; ring|]. rewrite E.
  rewrite <- !L_scal_r. apply L_ext. intros t' _. rewrite L_one. rewrite <- !L_scal_r. apply L_ext. intros i' _.
  rewrite <- !L_scal_r. apply L_ext. intros j' _. rewrite <- !L_scal_r. apply L_ext. intros z' _.
  unfold bin_prob, mass. rewrite <- Wv. ring.
Qed.

Context (W : nat -> nat -> nat -> nat -> R) (n : nat) (dv : R) (v0 : nat) (S S' : spectra) (HS : shared_spectra g' c n S S').

Lemma datacube_L h F (Z : spectra) w i j : datacube W h F n dv v0 Z w i j =
  L (seq 0 (nt h)) (fun t => L (seq 0 (nz h)) (fun z => T W n (nv h) v0 (Z t z) (bin_prob h F dv t i j z) w)).
Proof. unfold datacube. rewrite <- L_seq. apply L_ext. intros t _. rewrite <- L_seq. reflexivity. Qed.

Lemma datacube_merged w i j : (i < nx g')%nat -> (j < ny g')%nat ->
  datacube W g' f' n dv v0 S' w i j =
  L (run (sx c) i) (fun i' => L (run (sy c) j) (fun j' => datacube W g f n dv v0 S w i' j')).
Proof.
  intros Hi Hj. rewrite datacube_L.
  transitivity (L (seq 0 (nt g')) (fun t => L (seq 0 (nz g')) (fun z =>
    L (run (st c) t) (fun t' => L (run (sz c) z) (fun z' => L (run (sx c) i) (fun i' => L (run (sy c) j) (fun j' =>
      T W n (nv g) v0 (S t' z') (bin_prob g f dv t' i' j' z') w))))))).
  { apply L_ext. intros t Ht. apply L_ext. intros z Hz. apply in_seq in Ht, Hz. rewrite <- nv_same.
    rewrite (T_ext _ _ _ _ _ (S' t z) _ (fun v => L (run (st c) t) (fun t' => L (run (sx c) i) (fun i' => L (run (sy c) j) (fun j' =>
      L (run (sz c) z) (fun z' => bin_prob g f dv t' i' j' z' v))))) w (fun _ _ => eq_refl)).
    2:{ intros v Hv. rewrite nv_same in Hv. apply bin_prob_merged. unfold in_grid; cbn; lia. }
    rewrite T_L. apply L_ext. intros t' Ht'. rewrite T_L.
    etransitivity; [apply L_ext; intros i' _; rewrite T_L; apply L_ext; intros j' _; apply T_L|]. cbv beta.
    etransitivity; [apply out2|]. apply L_ext. intros z' Hz'. apply L_ext. intros i' _. apply L_ext. intros j' _.
    apply T_ext; [|reflexivity]. intros s Hs. symmetry. apply HS; try assumption; lia. }
  transitivity (L (seq 0 (nt g)) (fun t' => L (seq 0 (nz g)) (fun z' => L (run (sx c) i) (fun i' => L (run (sy c) j) (fun j' =>
      T W n (nv g) v0 (S t' z') (bin_prob g f dv t' i' j' z') w))))).
  { rewrite <- (mg_last _ _ _ _ _ (co_t _ _ _ Hc)), <- (mg_last _ _ _ _ _ (co_z _ _ _ Hc)).
    rewrite <- (runs_upto (st c) (nt g')), <- (runs_upto (sz c) (nz g'));
      [|apply (mg_first _ _ _ _ _ (co_z _ _ _ Hc))|apply (mg_rise _ _ _ _ _ (co_z _ _ _ Hc))
       |apply (mg_first _ _ _ _ _ (co_t _ _ _ Hc))|apply (mg_rise _ _ _ _ _ (co_t _ _ _ Hc))].
    rewrite L_flat. apply L_ext. intros t _. rewrite L_swap. apply L_ext. intros t' _. rewrite L_flat. reflexivity. }
  symmetry. etransitivity; [apply L_ext; intros i' _; apply L_ext; intros j' _; apply datacube_L|]. cbv beta.
  etransitivity; [apply out2|]. apply L_ext. intros t _. etransitivity; [apply out2|]. reflexivity.
Qed.
End Cube.

Lemma L_pairs a b (F : nat -> nat -> R) : L a (fun x => L b (fun y => F x y)) = sumR (map (fun q => F (fst q) (snd q)) (list_prod a b)).
Proof.
  induction a as [|x a IH]; [reflexivity|]. rewrite L_cons, IH. cbn [list_prod]. rewrite map_app, sumR_app, map_map. reflexivity.
Qed.

Lemma coarse_cube_claim W g g' c self self' f f' n dv S S' v0 batch batch' : coarser g g' c -> same_bins (nv g') (sv c) ->
  evaluable self g f n dv S v0 -> evaluable self' g' f' n dv S' v0 -> merged g' c (mass g f) (mass g' f') ->
  shared_spectra g' c n S S' -> is_batch batch -> is_batch batch' ->
  exists y y', evaluate_ybar W self batch = Ok y /\ evaluate_ybar W self' batch' = Ok y' /\ shp y' = [n; nx g'; ny g'] /\
    forall w i j, (w < n)%nat -> (i < nx g')%nat -> (j < ny g')%nat ->
      ent y' [w; i; j] = nsum (map (fun q => ent y [w; fst q; snd q]) (fine_pixels c i j)).
Proof.
  intros Hc HV He He' HM HS Hb Hb'.
  destruct (evaluate_claim W self g f n dv S v0 batch He Hb) as (y & Ey & [Sy Hy]).
  destruct (evaluate_claim W self' g' f' n dv S' v0 batch' He' Hb') as (y' & Ey' & [Sy' Hy']).
  exists y, y'. split; [exact Ey|]. split; [exact Ey'|]. split; [exact Sy'|]. intros w i j Hw Hi Hj.
  rewrite (Hy' w i j Hw Hi Hj).
  rewrite (nsum_map_Fin _ (fun q => datacube W g f n dv v0 S w (fst q) (snd q))).
  - f_equal. rewrite (datacube_merged g g' c Hc (ev_grid _ _ _ _ _ _ _ He') HV f f' HM W n dv v0 S S' HS w i j Hi Hj). apply L_pairs.
  - intros [i' j'] Hq. apply in_prod_iff in Hq as [A B]. cbn [fst snd]. apply Hy; [exact Hw| |].
    + apply (run_in _ _ _ _ _ _ _ (co_x _ _ _ Hc) Hi A).
    + apply (run_in _ _ _ _ _ _ _ (co_y _ _ _ Hc) Hj B).
Qed.

Lemma coarse_particles_cube W g g' c k k' pw n dv S S' v0 batch batch' : coarser g g' c -> same_bins (nv g') (sv c) ->
  good_grid g -> good_grid g' -> cube_on k g -> cube_on k' g' -> (forall q, In q pw -> 0 <= snd q) -> 0 < weight (in_bounds g) pw ->
  templates (c_ssps k) g n dv S -> templates (c_ssps k') g' n dv S' -> shared_spectra g' c n S S' ->
  velocity_ok (nv g) (vE g) dv v0 -> (6 <= nv g)%nat -> is_batch batch -> is_batch batch' ->
  exists no no' comp comp' y y', from_particle k (map fst pw) (Some (map Fin (map snd pw))) = Ok (no, comp) /\
    from_particle k' (map fst pw) (Some (map Fin (map snd pw))) = Ok (no', comp') /\
    evaluate_ybar W comp batch = Ok y /\ evaluate_ybar W comp' batch' = Ok y' /\ shp y' = [n; nx g'; ny g'] /\
    forall w i j, (w < n)%nat -> (i < nx g')%nat -> (j < ny g')%nat ->
      ent y' [w; i; j] = nsum (map (fun q => ent y [w; fst q; snd q]) (fine_pixels c i j)).
Proof.
  intros Hc HV Hg Hg' Hk Hk' Hp Hw HT HT' HS Hv Hn Hb Hb'.
  assert (Hw' : 0 < weight (in_bounds g') pw) by (rewrite (total_weight_same g g' c Hc); exact Hw).
  destruct (particles_ok k g Hk Hg pw Hw) as (comp & E & Ec & On).
  destruct (particles_ok k' g' Hk' Hg' pw Hw') as (comp' & E' & Ec' & On').
  assert (Ev : evaluable comp g (particle_density g pw) n dv S v0).
  { constructor; try assumption; [|rewrite Ec; exact HT]. apply particle_density_nonneg; assumption. }
  assert (Ev' : evaluable comp' g' (particle_density g' pw) n dv S' v0).
  { pose proof (nv_same g g' c Hc HV) as N. pose proof (v_edge g g' c Hc HV) as EV.
    constructor; try assumption; [apply particle_density_nonneg; assumption|rewrite Ec'; exact HT'| |rewrite <- N; exact Hn].
    destruct Hv as [V1 V2 V3 V4 V5 V6].
    constructor; unfold wid, mid in *; rewrite ?N in *.
    all: try exact V6; try exact V3; intros; rewrite ?EV by lia; first [apply V1|apply V2|apply V4|apply V5]; lia. }
  destruct (coarse_cube_claim W g g' c comp comp' _ _ n dv S S' v0 batch batch' Hc HV Ev Ev'
    (particles_merged g g' c Hc Hg Hg' pw ltac:(lra)) HS Hb Hb') as (y & y' & A & B & C & D).
  exists (note_of g (map fst pw)), (note_of g' (map fst pw)), comp, comp', y, y'. repeat split; assumption.
Qed.
