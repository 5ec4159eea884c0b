(** * Repr: when Python objects represent the objects of the specification. *)
From Coq Require Import Reals List Bool Arith ZArith String Ascii.
From Verif Require Import Num Arr Cube Base Spec.
Import ListNotations.
Local Open Scope R_scope.

(** [a] is the 1-d array of the [n] finite numbers f 0, ..., f (n-1) *)
Definition vec (a : arr num) (n : nat) (f : nat -> R) : Prop :=
  shp a = [n] /\ forall i, (i < n)%nat -> ent a [i] = Fin (f i).

(** SSP object whose grid is [g] *)
Record ssps_on (s : ssps) (g : grid) : Prop := {
  so_dt : vec (delta_t s) (nt g) (wid (tE g));
  so_dz : vec (delta_z s) (nz g) (wid (zE g));
  so_te : vec (par_edges_t s) (nt g + 1) (tE g);
  so_ze : vec (par_edges_z s) (nz g + 1) (zE g);
  so_tc : vec (par_cents_t s) (nt g) (mid (tE g));
  so_zc : vec (par_cents_z s) (nz g) (mid (zE g));
  so_lw_shp : shp (light_weights s) = [nt g; nz g];
  so_lw : forall t z, (t < nt g)%nat -> (z < nz g)%nat ->
          ent (light_weights s) [t; z] = Fin (Lw g t z);
  so_dims : par_dims s = (nz g, nt g)
}.

(** cube whose grid is [g] *)
Record cube_on (c : cube) (g : grid) : Prop := {
  co_ssps : ssps_on (c_ssps c) g;
  co_nx : c_nx c = nx g;
  co_ny : c_ny c = ny g;
  co_nv : c_nv c = nv g;
  co_dx : exists d, c_dx c = Fin d /\ forall i, (i < nx g)%nat -> wid (xE g) i = d;
  co_dy : exists d, c_dy c = Fin d /\ forall i, (i < ny g)%nat -> wid (yE g) i = d;
  co_x : vec (c_x c) (nx g) (mid (xE g));
  co_y : vec (c_y c) (ny g) (mid (yE g));
  co_v : vec (c_v_edg c) (nv g + 1) (vE g);
  co_x1rng : c_x1rng c = (Fin (xE g 0), Fin (xE g (nx g)));
  co_x2rng : c_x2rng c = (Fin (yE g 0), Fin (yE g (ny g)))
}.

(** component on grid [g] whose stored array is the log of the density [f] *)
Record comp_on (self : component) (g : grid) (f : joint) : Prop := {
  cm_cube : cube_on (comp_cube self) g;
  cm_shp : shp (log_p_tvxz self) = [nt g; nv g; nx g; ny g; nz g];
  cm_ent : forall t v x y z,
    (t < nt g)%nat -> (v < nv g)%nat -> (x < nx g)%nat -> (y < ny g)%nat -> (z < nz g)%nat ->
    ent (log_p_tvxz self) [t; v; x; y; z] = nlog (Fin (f t v x y z))
}.
