(** * Claim C93: mean metallicity falls with age and with depletion time.

    [mean_law]: what a table of mean metallicities by depletion time and age bin
    satisfies; [zdist]: the density of metallicity of a given mean, which
    determines it (EnrichSpec.v). *)
From Coq Require Import Reals Lra Lia List Bool Arith ZArith String Ascii.
From Verif Require Import Num NumLemmas Arr PyStr Cube Base Parametric GrowingDisk Stream Spec SpecLemmas Repr ParSpec ParRepr ParSetSpec
  ParSetLemmas ParEnrich DiskLemmas EnrichSpec Enrich Build ParExample EnrichExample.
Import ListNotations.
Local Open Scope R_scope.

Theorem C93_enrichment : forall g, good_grid g -> exists M, mean_law g M /\
  forall L self, cube_on (pa_cube self) g -> zgrid_on self g -> good_norm (norm_cdf L) ->
  (forall (t_dep : arr num) (td : map2d), shp t_dep = [nx g; ny g] ->
    (forall x y, (x < nx g)%nat -> (y < ny g)%nat -> ent t_dep [x; y] = Fin (td x y)) ->
    exists self' a p, set_p_z_tx L self t_dep = Ok self' /\ pa_log_p_z_tx self' = Some a /\ shp a = [nz g; nt g; nx g; ny g] /\
      forall t x y, (t < nt g)%nat -> (x < nx g)%nat -> (y < ny g)%nat ->
        zdist g (norm_cdf L) (M (td x y) t) (p t x y) /\
        forall k, (k < nz g)%nat -> ent a [k; t; x; y] = nlog (Fin (p t x y k))) /\
  (forall td, exists self' a p, stream_set_t_dep L self td = Ok self' /\ pa_log_p_z_tx self' = Some a /\ shp a = [nz g; nt g; nx g; ny g] /\
      forall t, (t < nt g)%nat -> zdist g (norm_cdf L) (M td t) (p t) /\
        forall k x y, (k < nz g)%nat -> (x < nx g)%nat -> (y < ny g)%nat -> ent a [k; t; x; y] = nlog (Fin (p t k))) /\
  (forall td, exists a p, enrichment_model L self td = Ok a /\ shp a = [nz g; nt g] /\
      forall t, (t < nt g)%nat -> zdist g (norm_cdf L) (M td t) (p t) /\ forall k, (k < nz g)%nat -> ent a [k; t] = Fin (p t k)) /\
  (forall X Y q al a b lo hi, xy_on self g X Y -> 0 < max_abs g X -> tdep_args_ok q al a b lo hi ->
    exists self' w p mu, disk_set_t_dep L self q al a b lo hi = Ok self' /\ pa_log_p_z_tx self' = Some w /\ shp w = [nz g; nt g; nx g; ny g] /\
    (forall t x y, (t < nt g)%nat -> (x < nx g)%nat -> (y < ny g)%nat ->
      zdist g (norm_cdf L) (mu t x y) (p t x y) /\
      (forall k, (k < nz g)%nat -> ent w [k; t; x; y] = nlog (Fin (p t x y k))) /\
      Rmin (M a t) (M b t) <= mu t x y <= Rmax (M a t) (M b t)) /\
    (forall t x y x' y', (t < nt g)%nat -> let r := ell q (X x y) (Y x y) in let r' := ell q (X x' y') (Y x' y') in
      (r <= r' -> a <= b -> mu t x' y' <= mu t x y) /\ (r <= r' -> b <= a -> mu t x y <= mu t x' y') /\
      (r = r' -> mu t x y = mu t x' y' /\ p t x y = p t x' y') /\
      (r = 0 -> 0 < al -> mu t x y = M a t) /\ (max_abs g X <= r -> mu t x y = M b t))).
Proof. exact enrichment_claim. Qed.
Print Assumptions C93_enrichment.
(** the mean determines the density *)
Theorem C93_density_of_mean : forall g F mu p q, good_grid g -> good_norm F -> zdist g F mu p -> zdist g F mu q ->
  forall k, (k < nz g)%nat -> p k = q k.
Proof. exact zdist_unique. Qed.
Print Assumptions C93_density_of_mean.

(** stars of the example component: pixels 0 and 1 are at the same distance from
    the centre, and the mean is strictly lower for depletion in 10 than in 1 *)
Example C93_example : exists M self' w, mean_law exg M /\ (forall t, (t < 2)%nat -> M 10 t < M 1 t) /\
  disk_set_t_dep exL expar 1 1 1 10 (1 / 10) 13 = Ok self' /\ pa_log_p_z_tx self' = Some w /\
  ent w [1; 1; 0; 0]%nat = ent w [1; 1; 1; 0]%nat.
Proof.
  exists (zm exg). pose proof (zm_law exg exg_good) as HM.
  destruct expar_ok as (X & Y & s & e & _ & _ & Hxy & X0 & Y0 & X1 & Y1 & Hz & _ & Hm).
  destruct (disk_gradient exL expar exg X Y 1 1 1 10 (1 / 10) 13 expar_cube exg_good Hz exL_norm Hxy Hm ltac:(unfold tdep_args_ok; lra))
    as (self' & w & p & mu & E & Ew & _ & V & G).
  exists self', w. split; [exact HM|]. split; [exact ex_gradient|]. split; [exact E|]. split; [exact Ew|].
  destruct (V 1 0 0)%nat as (_ & V0 & _); [cbn; lia|cbn; lia|cbn; lia|].
  destruct (V 1 1 0)%nat as (_ & V1 & _); [cbn; lia|cbn; lia|cbn; lia|].
  rewrite V0, V1 by (cbn; lia).
  destruct (G 1 0 0 1 0)%nat as (_ & _ & R & _); [cbn; lia|]. cbv zeta in R.
  rewrite X0, X1, Y0, Y1 in R. destruct R as [_ ->]; [unfold ell; f_equal; lra|reflexivity].
Qed.
