(** * CoordUnitsSpec: coordinates in other units and from other origins. *)
From Coq Require Import Reals List Bool.
From Verif Require Import Num Spec MomSpec ParSpec MixParSpec.
Import ListNotations.
Local Open Scope R_scope.

(** coordinate k is written as uo k + us k times its value *)
Record units := Units { us : coord -> R; uo : coord -> R }.
Definition positive_units (u : units) : Prop := forall k, 0 < us u k.
Definition in_units (u : units) (k : coord) (r : R) : R := uo u k + us u k * r.

(** the grid, with edges in these units *)
Definition rescaled (u : units) (g : grid) : grid :=
  Grid (nt g) (nv g) (nx g) (ny g) (nz g)
    (fun n => in_units u Ct (tE g n)) (fun n => in_units u Cv (vE g n)) (fun n => in_units u Cx1 (xE g n))
    (fun n => in_units u Cx2 (yE g n)) (fun n => in_units u Cz (zE g n)) (Lw g).
(** unit of volume in the variables of S *)
Definition unit_vol (u : units) (S : vset) : R :=
  ifw (has_t S) (us u Ct) * ifw (has_v S) (us u Cv) * ifw (has_x S) (us u Cx1 * us u Cx2) * ifw (has_z S) (us u Cz).
(** a density per unit volume *)
Definition per_unit (u : units) (f : joint) : joint := fun t v x y z => f t v x y z / unit_vol u all_vars.
(** the densities, velocities and dispersions of a parametric component *)
Definition par_in_units (u : units) (m : par_model) : par_model :=
  ParModel (fun t => pm_t m t / us u Ct) (fun t x y => pm_x m t x y / (us u Cx1 * us u Cx2))
    (fun t x y z => pm_z m t x y z / us u Cz) (fun t x y => in_units u Cv (pm_mu m t x y))
    (fun t x y => us u Cv * pm_sig m t x y) (pm_F m).
Definition kind_in_units (u : units) (k : kind) : kind :=
  match k with KBase f => KBase (per_unit u f) | KPar m => KPar (par_in_units u m) end.
Definition kinds_in_units (u : units) (l : kinds) : kinds := map (fun q => (kind_in_units u (fst q), snd q)) l.

(** the same for numbers that may be nan *)
Definition num_in_units (u : units) (k : coord) (a : num) : num := nadd (Fin (uo u k)) (nmul (Fin (us u k)) a).
(** a density, or a probability *)
Definition per_volume (u : units) (S : vset) (density : bool) (a : num) : num :=
  ndiv a (Fin (if density then unit_vol u S else 1)).

(** ages, positions and metallicities in other units, velocities as they are *)
Definition same_velocities (u : units) : Prop := us u Cv = 1 /\ uo u Cv = 0.
