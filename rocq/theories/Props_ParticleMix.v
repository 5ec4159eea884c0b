(** * Claim C85: one component from all particles, or a mixture of components
    from subsets of them. *)
From Coq Require Import Reals Lra Lia String Ascii List Bool Arith ZArith.
From Verif Require Import Num Arr Cube Base Spec Repr Build Moments MomSpec MomRefuted Particle ParticleSpec ParticleClaims ParticleExample
  Mixture MixSpec ParticleMix Fft Datacube DatacubeSpec DatacubeClaims DatacubeExample ParticleCells ParticleCellsExample.
Import ListNotations.
Local Open Scope R_scope.
Local Open Scope string_scope.

(** both can be built, whatever the sets *)
Theorem C85_built : forall c g sets, cube_on c g -> good_grid g -> sets <> [] ->
  Forall (fun pw => (forall q, In q pw -> 0 <= snd q) /\ 0 < weight (in_bounds g) pw) sets ->
  exists made whole self,
    map_res (fun pw => from_particle c (map fst pw) (Some (map Fin (map snd pw)))) sets = Ok made /\
    from_particle c (map fst (concat sets)) (Some (map Fin (map snd (concat sets)))) = Ok whole /\
    mixture_init c (map (fun k => comp_member (snd k)) made)
      (map (fun pw => Fin (weight (in_bounds g) pw / weight (in_bounds g) (concat sets))) sets) = Ok self /\
    split_sets c g sets made whole self.
Proof. exact built_claim. Qed.
Print Assumptions C85_built.
(** every distribution is the same *)
Theorem C85_marginals : forall c g sets made whole self, split_sets c g sets made whole self ->
  forall S density lw, nonempty S = true -> lw_ok g (particle_density g (concat sets)) lw ->
  exists a b, mix_get_p self (name S) true density lw = Ok a /\ get_p (snd whole) (name S) density lw = Ok b /\
    shp a = dims S g /\ shp b = dims S g /\
    forall i, in_grid g i -> ent a (coords S i) = ent b (coords S i) /\ ent a (coords S i) <> NaN.
Proof. exact marg_sets_claim. Qed.
Print Assumptions C85_marginals.
Theorem C85_conditionals : forall c g sets made whole self, split_sets c g sets made whole self ->
  forall A C density lw, nonempty A = true -> nonempty C = true -> disjoint A C = true ->
  lw_ok g (particle_density g (concat sets)) lw ->
  exists a b, mix_get_p self (cname A C) true density lw = Ok a /\ get_p (snd whole) (cname A C) density lw = Ok b /\
    shp a = (dims A g ++ dims C g)%list /\ shp b = (dims A g ++ dims C g)%list /\
    forall i, in_grid g i -> ent a (coords A i ++ coords C i) = ent b (coords A i ++ coords C i).
Proof. exact cond_sets_claim. Qed.
Print Assumptions C85_conditionals.
(** means and central moments agree where every set has mass *)
Theorem C85_moments : forall c g sets made whole self, split_sets c g sets made whole self ->
  forall lw, (forall pw, In pw sets -> lw_ok g (particle_density g pw) lw) ->
  forall k C j, disjoint (cvar k) C = true ->
  exists m m' q q', mix_mean self (dname (cvar k) C) lw = Ok m /\ get_mean (base_obj (snd whole)) (dname (cvar k) C) lw = Ok m' /\
    mix_central_moment self (dname (cvar k) C) j lw = Ok q /\
    get_central_moment (base_obj (snd whole)) (dname (cvar k) C) j lw = Ok q' /\
    shp m = mdims k C g /\ shp m' = mdims k C g /\ shp q = mdims k C g /\ shp q' = mdims k C g /\
    forall i, in_grid g i -> (forall pw, In pw sets -> 0 < marg g (prob g (particle_density g pw) lw) C i) ->
      ent m (mcoords k C i) = ent m' (mcoords k C i) /\ ent q (mcoords k C i) = ent q' (mcoords k C i) /\
      ent m (mcoords k C i) <> NaN /\ ent q (mcoords k C i) <> NaN.
Proof. exact moments_sets_claim. Qed.
Print Assumptions C85_moments.
(** but not where one of the sets has none and another does *)
Theorem C85_empty_set_refuted : forall c g sets made whole self, split_sets c g sets made whole self ->
  forall lw, (forall pw, In pw sets -> lw_ok g (particle_density g pw) lw) ->
  forall k C j, disjoint (cvar k) C = true ->
  exists m m' q q', mix_mean self (dname (cvar k) C) lw = Ok m /\ get_mean (base_obj (snd whole)) (dname (cvar k) C) lw = Ok m' /\
    mix_central_moment self (dname (cvar k) C) j lw = Ok q /\
    get_central_moment (base_obj (snd whole)) (dname (cvar k) C) j lw = Ok q' /\
    forall i, in_grid g i -> (exists pw, In pw sets /\ marg g (prob g (particle_density g pw) lw) C i = 0) ->
      (exists pw, In pw sets /\ 0 < marg g (prob g (particle_density g pw) lw) C i) ->
      ent m (mcoords k C i) = NaN /\ ent q (mcoords k C i) = NaN /\
      (exists r, ent m' (mcoords k C i) = Fin r) /\ (exists r, ent q' (mcoords k C i) = Fin r).
Proof. exact empty_set_claim. Qed.
Print Assumptions C85_empty_set_refuted.
(** the datacubes agree, and the numbers of lost particles add up *)
Theorem C85_datacube : forall W c g sets made whole self n dv S v0 batch wbatch, split_sets c g sets made whole self ->
  templates (c_ssps c) g n dv S -> velocity_ok (nv g) (vE g) dv v0 -> (6 <= nv g)%nat -> is_batch batch -> is_batch wbatch ->
  exists ys y y', map_res (fun k => evaluate_ybar W (snd k) batch) made = Ok ys /\
    mixture_ybar (map Some ys) (map Fin (set_shares g sets)) = Ok y /\
    evaluate_ybar W (snd whole) wbatch = Ok y' /\ shp y = [n; nx g; ny g] /\ shp y' = [n; nx g; ny g] /\
    forall w i j, (w < n)%nat -> (i < nx g)%nat -> (j < ny g)%nat ->
      ent y [w; i; j] = ent y' [w; i; j] /\ exists r, ent y [w; i; j] = Fin r.
Proof. exact datacube_sets_claim. Qed.
Print Assumptions C85_datacube.
Theorem C85_notes : forall c g sets made whole self, split_sets c g sets made whole self ->
  n_lost (fst whole) = list_sum (map (fun k => n_lost (fst k)) made) /\
  n_total (fst whole) = list_sum (map (fun k => n_total (fst k)) made).
Proof. exact notes_claim. Qed.
Print Assumptions C85_notes.

(** the particles of ParticleExample in two sets, of different ages *)
Example C85_case : exists made whole self, split_sets excube exg exsets made whole self /\
  (exists a b, mix_get_p self "t" true false false = Ok a /\ get_p (snd whole) "t" false false = Ok b /\
     ent a [1%nat] = Fin (1 / 4) /\ ent b [1%nat] = Fin (1 / 4)) /\
  (exists a b, mix_get_p self "v_t" true false false = Ok a /\ get_p (snd whole) "v_t" false false = Ok b /\
     ent a [0; 1]%nat = ent b [0; 1]%nat) /\
  (exists m m' r, mix_mean self "t" false = Ok m /\ get_mean (base_obj (snd whole)) "t" false = Ok m' /\
     ent m [] = ent m' [] /\ ent m [] = r /\ r <> NaN) /\
  (exists m m' r, mix_mean self "v_t" false = Ok m /\ get_mean (base_obj (snd whole)) "v_t" false = Ok m' /\
     ent m [1%nat] = NaN /\ ent m' [1%nat] = Fin r) /\
  n_lost (fst whole) = 1%nat /\ n_total (fst whole) = 3%nat.
Proof.
  destruct exsets_built as (made & whole & self & H). exists made, whole, self. split; [exact H|].
  assert (I1 : in_grid exg (Bin 1 0 0 0 0)) by (unfold in_grid; cbn; lia).
  assert (LW : forall pw, In pw exsets -> lw_ok exg (particle_density exg pw) false) by (intros; apply ex_nolight).
  assert (W : 0 < weight (in_bounds exg) (concat exsets)).
  { cbn [exsets concat app]. rewrite !weight_cons, weight_nil. cbn [fst snd]. rewrite pa_bounds, pb_bounds, pout_bounds. lra. }
  repeat split.
  - destruct (C85_marginals _ _ _ _ _ _ H cell_t false false eq_refl (ex_nolight _)) as (a & b & Ea & Eb & _ & _ & Hv).
    exists a, b. split; [exact Ea|]. split; [exact Eb|]. destruct (Hv _ I1) as [Ev _].
    assert (Eb' : ent b [1%nat] = Fin (1 / 4)); [|split; [|exact Eb']; etransitivity; [exact Ev|exact Eb']].
    pose proof (ss_whole _ _ _ _ _ _ H) as Hwh. destruct whole as [note comp].
    destruct (cells_marg_claim excube exg (concat exsets) note comp excube_on exg_good ltac:(intros q [<-|[<-|[<-|[]]]]; cbn; lra) W Hwh
      false W cell_t false eq_refl) as (b' & Eb2 & _ & Hb'). cbn [snd] in Eb. rewrite Eb in Eb2. injection Eb2 as <-.
    etransitivity; [exact (Hb' _ I1)|]. f_equal. cbn [weighed]. cbn [exsets concat app]. weigh. field.
  - destruct (C85_conditionals _ _ _ _ _ _ H cell_v cell_t false false eq_refl eq_refl eq_refl (ex_nolight _)) as (a & b & Ea & Eb & _ & _ & Hv).
    exists a, b. split; [exact Ea|]. split; [exact Eb|]. exact (Hv _ I1).
  - destruct (C85_moments _ _ _ _ _ _ H false LW Ct no_vars 2 eq_refl) as (m & m' & q & q' & Em & Em' & _ & _ & _ & _ & _ & _ & Hv).
    destruct (Hv _ I1) as (V1 & _ & V2 & _).
    { intros pw [<-|[<-|[]]]; (rewrite ex_marg; [|rewrite ?ex_set1, ?ex_set2; lra|exact I1]);
        change (in_cell exg no_vars (Bin 1 0 0 0 0)) with (in_bounds exg); rewrite ?ex_set1, ?ex_set2; lra. }
    exists m, m', (ent m []). split; [exact Em|]. split; [exact Em'|]. split; [exact V1|]. split; [reflexivity|exact V2].
  - destruct (C85_empty_set_refuted _ _ _ _ _ _ H false LW Cv cell_t 2 eq_refl) as (m & m' & q & q' & Em & Em' & _ & _ & Hv).
    destruct (Hv _ I1) as (V1 & _ & (r & V2) & _).
    { exists [(pb, 3)]. split; [right; left; reflexivity|]. apply ex_set_t. }
    { exists [(pa, 1); (pout, 2)]. split; [left; reflexivity|]. rewrite (proj1 ex_set_t). lra. }
    exists m, m', r. split; [exact Em|]. split; [exact Em'|]. split; [exact V1|exact V2].
  - destruct (C85_notes _ _ _ _ _ _ H) as [-> _]. pose proof (ss_made _ _ _ _ _ _ H) as Hm. unfold exsets in Hm. cbn [map_res] in Hm.
    destruct (density_claim excube exg excube_on exg_good [(pa, 1); (pout, 2)] ltac:(rewrite ex_set1; lra)) as (c1 & E1 & _).
    destruct (density_claim excube exg excube_on exg_good [(pb, 3)] ltac:(rewrite ex_set2; lra)) as (c2 & E2 & _).
    unfold particles in Hm. rewrite E1, E2 in Hm. cbn [bind] in Hm. injection Hm as <-. cbn [map fst list_sum fold_right].
    unfold note_of, count. cbn [n_lost map fst filter]. rewrite pa_bounds, pb_bounds, pout_bounds. reflexivity.
  - destruct (C85_notes _ _ _ _ _ _ H) as [_ ->]. pose proof (ss_made _ _ _ _ _ _ H) as Hm. unfold exsets in Hm. cbn [map_res] in Hm.
    destruct (density_claim excube exg excube_on exg_good [(pa, 1); (pout, 2)] ltac:(rewrite ex_set1; lra)) as (c1 & E1 & _).
    destruct (density_claim excube exg excube_on exg_good [(pb, 3)] ltac:(rewrite ex_set2; lra)) as (c2 & E2 & _).
    unfold particles in Hm. rewrite E1, E2 in Hm. cbn [bind] in Hm. injection Hm as <-. reflexivity.
Qed.
Example C85_case_datacube : exists made whole self ys y y', split_sets dcube dgrid dsets made whole self /\
  map_res (fun k => evaluate_ybar idW (snd k) "column") made = Ok ys /\
  mixture_ybar (map Some ys) (map Fin (set_shares dgrid dsets)) = Ok y /\
  evaluate_ybar idW (snd whole) "none" = Ok y' /\ shp y = [4; 2; 1]%nat /\ ent y [1; 1; 0]%nat = ent y' [1; 1; 0]%nat.
Proof.
  destruct (C85_built dcube dgrid dsets dcube_on (exv_good 1 6 1 ltac:(lia) ltac:(lia) ltac:(lia)) ltac:(discriminate) dsets_ok)
    as (made & whole & self & _ & _ & _ & H). exists made, whole, self.
  destruct (C85_datacube idW dcube dgrid dsets made whole self 4 1 exS 3 "column" "none" H
    (templates_for dgrid 4 1 exS ltac:(lia) ltac:(cbn; lia)) (exv_velocity 1 6 1 (or_introl eq_refl)) ltac:(cbn; lia)
    ltac:(unfold is_batch; auto) ltac:(unfold is_batch; auto)) as (ys & y & y' & E1 & E2 & E3 & Sy & _ & Hv).
  exists ys, y, y'. do 5 (split; [assumption|]). apply (Hv 1 1 0)%nat; cbn; lia.
Qed.
