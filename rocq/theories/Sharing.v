(** * Sharing: cubes built on the same SSP object.

    IFUCube.__init__ (ifu_cube.py lines 31-50) keeps a reference to the SSP object
    and overwrites its attributes dv, w, Xw, n_fft and FXw
    (model_grids.py lines 240-281).  The attributes now on the object are part of
    the state, and every cube built on it reads them there. *)
From Coq Require Import Reals List Bool Arith ZArith String Ascii.
From Verif Require Import Num Arr PyStr Cube Ssps.
Import ListNotations.

(** arguments of IFUCube (without interp_kind) *)
Record cube_args := Args { a_nx1 : nat; a_nx2 : nat; a_nv : nat; a_x1 : R * R; a_x2 : R * R; a_v : R * R }.

(** an SSP object and the cubes built on it, first to last; the SSP attributes
    stored with a cube are never read *)
Record world := World { w_grid : mgrid; w_now : option ssps; w_cubes : list cube }.

(** the cube with the SSP attributes [s] *)
Definition see (c : cube) (s : ssps) : cube :=
  Cube s (c_nx c) (c_ny c) (c_x1rng c) (c_x2rng c) (c_dx c) (c_dy c) (c_x c) (c_y c) (c_xx c) (c_yy c) (c_nv c) (c_v_edg c).

(** attributes before any cube is built (not read by cube_init) *)
Definition blank : ssps :=
  let e := Arr [] (fun _ => NaN) in Ssps e e e e e e (O, O) e NaN e (Arr [] (fun _ => (NaN, NaN))) O.

(** IFUCube(ssps, ...): the width passed to the resampling is v_edg[1] - v_edg[0], lines 46-48 *)
Definition build (spline : list R -> list num -> R -> num) (w : world) (a : cube_args) : res world :=
  c <- cube_init blank (a_nx1 a) (a_nx2 a) (a_nv a) (a_x1 a) (a_x2 a) (a_v a) ;;
  e1 <- getitem [IInt 1] (c_v_edg c) ;;
  e0 <- getitem [IInt 0] (c_v_edg c) ;;
  match nsub (ent e1 []) (ent e0 []) with
  | Fin dv => s <- resample spline dv (w_grid w) ;; Ok (World (w_grid w) (Some s) (w_cubes w ++ [c]))
  | _ => Err ValueError
  end.
Fixpoint builds (spline : list R -> list num -> R -> num) (w : world) (l : list cube_args) : res world :=
  match l with
  | [] => Ok w
  | a :: l' => w <- build spline w a ;; builds spline w l'
  end.

(** cube number k as it reads now *)
Definition the_cube (w : world) (k : nat) : option cube :=
  match nth_error (w_cubes w) k, w_now w with
  | Some c, Some s => Some (see c s)
  | _, _ => None
  end.
