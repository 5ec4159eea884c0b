(** * FluxUnitsSpec: templates in other units of flux. *)
From Coq Require Import Reals List.
From Verif Require Import Num Arr ArrLemmas Spec Ssps.
Import ListNotations.
Local Open Scope R_scope.

(** the grid with all light weights times k *)
Definition brighter (k : R) (g : grid) : grid :=
  Grid (nt g) (nv g) (nx g) (ny g) (nz g) (tE g) (vE g) (xE g) (yE g) (zE g) (fun t z => k * Lw g t z).
(** the SSP object with all fluxes times k *)
Definition refluxed (k : R) (mg : mgrid) : mgrid :=
  MGrid (g_n mg) (g_lmd mg) (g_edges_z mg) (g_edges_t mg) (g_cents_z mg) (g_cents_t mg) (g_dims mg) (g_par_idx mg) (g_p mg)
    (g_delta_z mg) (g_delta_t mg) (amap (nmul (Fin k)) (g_X mg)) (g_t_ticks mg) (g_z_ticks mg) (g_img_t_ticks mg) (g_img_z_ticks mg).
(** interpolation of k times the values is k times the interpolation *)
Definition homogeneous (spline : list R -> list num -> R -> num) : Prop :=
  forall k knots vals w, (forall x, In x vals -> exists r, x = Fin r) ->
    spline knots (map (nmul (Fin k)) vals) w = nmul (Fin k) (spline knots vals w).

(** the second cube is k times the first *)
Definition k_times (k : R) (y y' : arr num) : Prop :=
  shp y' = shp y /\ forall idx, inb idx (shp y) -> exists r, ent y idx = Fin r /\ ent y' idx = Fin (k * r).
