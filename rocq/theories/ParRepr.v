(** * ParRepr: when a parametric component represents a [par_model]. *)
From Coq Require Import Reals List Bool.
From Verif Require Import Num Arr Cube Base Parametric Spec Repr ParSpec.
Import ListNotations.
Local Open Scope R_scope.

(** the arrays which the setters have stored; [None] for setters not called *)
Definition has_log_p_t (self : par) (g : grid) (m : par_model) : Prop :=
  exists a, pa_log_p_t self = Some a /\ shp a = [nt g] /\
    forall t, (t < nt g)%nat -> ent a [t] = nlog (Fin (pm_t m t)).
Definition has_log_p_x_t (self : par) (g : grid) (m : par_model) : Prop :=
  exists a, pa_log_p_x_t self = Some a /\ shp a = [nx g; ny g; nt g] /\
    forall t x y, (t < nt g)%nat -> (x < nx g)%nat -> (y < ny g)%nat ->
      ent a [x; y; t] = nlog (Fin (pm_x m t x y)).
Definition has_log_p_z_tx (self : par) (g : grid) (m : par_model) : Prop :=
  exists a, pa_log_p_z_tx self = Some a /\ shp a = [nz g; nt g; nx g; ny g] /\
    forall t x y z, (t < nt g)%nat -> (x < nx g)%nat -> (y < ny g)%nat -> (z < nz g)%nat ->
      ent a [z; t; x; y] = nlog (Fin (pm_z m t x y z)).
Definition has_mu_v (self : par) (g : grid) (m : par_model) : Prop :=
  exists a, pa_mu_v self = Some a /\ shp a = [nt g; nx g; ny g] /\
    forall t x y, (t < nt g)%nat -> (x < nx g)%nat -> (y < ny g)%nat ->
      ent a [t; x; y] = Fin (pm_mu m t x y).
Definition has_sig_v (self : par) (g : grid) (m : par_model) : Prop :=
  exists a, pa_sig_v self = Some a /\ shp a = [nt g; nx g; ny g] /\
    forall t x y, (t < nt g)%nat -> (x < nx g)%nat -> (y < ny g)%nat ->
      ent a [t; x; y] = Fin (pm_sig m t x y).

(** a component all of whose setters have been called *)
Record par_on (L : stats_lib) (self : par) (g : grid) (m : par_model) : Prop := {
  po_cube : cube_on (pa_cube self) g;
  po_F : pm_F m = norm_cdf L;
  po_t : has_log_p_t self g m;
  po_x : has_log_p_x_t self g m;
  po_z : has_log_p_z_tx self g m;
  po_mu : has_mu_v self g m;
  po_sig : has_sig_v self g m
}.
