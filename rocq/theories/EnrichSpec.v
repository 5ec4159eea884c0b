(** * EnrichSpec: mean metallicity as a function of age and depletion time (C93). *)
From Coq Require Import Reals List.
From Verif Require Import Num Spec ParSpec ParSetSpec Parametric.
Local Open Scope R_scope.

(** stars of age tau have metallicity z when gas is depleted in a time td and
    star formation began at age h (Zhu et al. 2020) *)
Definition enriched (h td tau z : R) : Prop := tau = h - td * z / (1 - ahat * rpow z bhat).

(** ratio of neighbouring depletion times of the table *)
Definition t_dep_ratio : R := Rpower 10 (2 / 999).

(** p is the density of metallicity whose bins are in the ratios of the normal
    probabilities of mean mu and variance ahat mu^bhat *)
Definition zdist (g : grid) (F : R -> R) (mu : R) (p : nat -> R) : Prop :=
  let N := znorm g F mu (ahat * Rpower mu bhat) in
  (forall k, (k < nz g)%nat -> 0 < p k) /\ Sum (nz g) (fun k => p k * wid (zE g) k) = 1 /\
  (forall k l, (k < nz g)%nat -> (l < nz g)%nat -> p k * N l = p l * N k).

(** M td t: mean metallicity of age bin t for depletion time td *)
Record mean_law (g : grid) (M : R -> nat -> R) : Prop := {
  ml_range : forall td t, (t < nt g)%nat -> 0 < M td t <= z_max;
  ml_age : forall td t t', (t <= t')%nat -> (t' < nt g)%nat -> M td t' <= M td t;
  ml_slow : forall td td' t, (t < nt g)%nat -> td <= td' -> M td' t <= M td t;
  ml_strict : forall td td' t, (t < nt g)%nat -> 1 / 10 <= td -> td' <= 10 -> t_dep_ratio * td < td' ->
    M td' t < z_max -> M td' t < M td t;
  ml_solves : forall td t z, (t < nt g)%nat -> 1 / 10 <= td <= 10 -> 0 < z <= z_max ->
    enriched (tE g (nt g)) td (mid (tE g) t) z ->
    Rabs (M td t - z) <= z_max / 999 + z * ((t_dep_ratio - 1) / 2);
  ml_young : forall td t, (t < nt g)%nat -> 1 / 10 <= td <= 10 ->
    mid (tE g) t < tE g (nt g) - td * z_max / (1 - ahat * rpow z_max bhat) ->
    z_max - M td t <= z_max / 999 + z_max * ((t_dep_ratio - 1) / 2);
  ml_below : forall td t, td <= 1 / 10 -> M td t = M (1 / 10) t;
  ml_above : forall td t, 10 <= td -> M td t = M 10 t
}.
