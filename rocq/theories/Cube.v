(** * Cube: the IFU datacube grid, popkinmocks/ifu_cube.py.

    The attributes of the SSP object that components use are the fields of
    [ssps]; how they are computed is modelled in Ssps.v. *)
From Coq Require Import Reals List Bool Arith ZArith String Ascii.
From Verif Require Import Num Arr PyStr.
Import ListNotations.
Local Open Scope string_scope.

(** a numpy complex number *)
Definition cnum := (num * num)%type.

(** Attributes of model_grids.milesSSPs read by cubes and components
    (model_grids.py lines 136-183, 257-261, 270-281, 289-293). *)
Record ssps := Ssps {
  par_edges_z : arr num;  (* par_edges[0] *)
  par_edges_t : arr num;  (* par_edges[1] *)
  par_cents_z : arr num;  (* par_cents[0] *)
  par_cents_t : arr num;  (* par_cents[1] *)
  delta_t : arr num;
  delta_z : arr num;
  par_dims : nat * nat;   (* (nz, nt) *)
  light_weights : arr num;
  ssp_dv : num;
  Xw : arr num;
  FXw : arr cnum;
  n_fft : nat
}.

(** Attributes of IFUCube (ifu_cube.py lines 31-50). *)
Record cube := Cube {
  c_ssps : ssps;
  c_nx : nat;
  c_ny : nat;
  c_x1rng : num * num;
  c_x2rng : num * num;
  c_dx : num;
  c_dy : num;
  c_x : arr num;
  c_y : arr num;
  c_xx : arr num;
  c_yy : arr num;
  c_nv : nat;
  c_v_edg : arr num
}.

(** [a / 2.0], [(a + b) / 2.0] on arrays of equal shape *)
Definition halve (a : arr num) : arr num := amap (fun x => ndiv x (Fin 2)) a.

(** IFUCube.__init__, ifu_cube.py lines 31-47, given the already resampled SSPs
    (lines 48-50 are [resample] in Ssps.v).  np.linspace(a, b, n+1).
    IndexError from x_edge[1] when nx1 = 0. *)
Definition cube_init (s : ssps) (nx1 nx2 nv : nat) (x1rng x2rng vrng : R * R) : res cube :=
  let x_edge := linspace (fst x1rng) (snd x1rng) (nx1 + 1) in
  e1 <- getitem [IInt 1] x_edge ;;
  e0 <- getitem [IInt 0] x_edge ;;
  let dx := nsub (ent e1 []) (ent e0 []) in
  x <- bop nadd (init0 x_edge) (scal (ndiv dx (Fin 2))) ;;
  let y_edge := linspace (fst x2rng) (snd x2rng) (nx2 + 1) in
  f1 <- getitem [IInt 1] y_edge ;;
  f0 <- getitem [IInt 0] y_edge ;;
  let dy := nsub (ent f1 []) (ent f0 []) in
  y <- bop nadd (init0 y_edge) (scal (ndiv dy (Fin 2))) ;;
  (* np.meshgrid(x, y, indexing="ij") *)
  let xx := Arr [nx1; nx2] (fun idx => match idx with [i; j] => ent x [i] | _ => NaN end) in
  let yy := Arr [nx1; nx2] (fun idx => match idx with [i; j] => ent y [j] | _ => NaN end) in
  let v_edg := linspace (fst vrng) (snd vrng) (nv + 1) in
  _ <- getitem [IInt 1] v_edg ;;
  Ok (Cube s nx1 nx2 (Fin (fst x1rng), Fin (snd x1rng)) (Fin (fst x2rng), Fin (snd x2rng))
           dx dy x y xx yy nv v_edg).

(** construct_volume_element, ifu_cube.py lines 52-95.  [da] is the Python local
    of the same name: unbound (None) before the first known letter, and kept
    from the previous iteration when a letter is not recognised. *)
Definition vol_da (c : cube) (var : ascii) (da : option (arr num)) : res (option (arr num)) :=
  if Ascii.eqb var "t" then Ok (Some (delta_t (c_ssps c)))
  else if Ascii.eqb var "v" then
    d <- bop nsub (tail0 (c_v_edg c)) (init0 (c_v_edg c)) ;; Ok (Some d)
  else if Ascii.eqb var "x" then Ok (Some (arr1 [c_dx c] NaN))
  else if Ascii.eqb var "y" then Ok (Some (arr1 [c_dy c] NaN))
  else if Ascii.eqb var "z" then Ok (Some (delta_z (c_ssps c)))
  else Ok da.

Fixpoint vol_loop (c : cube) (ndim count : nat) (vars : list ascii)
         (da : option (arr num)) (dvol : arr num) : res (arr num) :=
  match vars with
  | [] => Ok dvol
  | var :: vars' =>
      da' <- vol_da c var da ;;
      match da' with
      | None => Err UnboundLocalError
      | Some d =>
          let idx := (repeat INew count ++ [IAll] ++ repeat INew (ndim - count - 1))%list in
          d' <- getitem idx d ;;
          dvol' <- bop nmul dvol d' ;;
          vol_loop c ndim (count + 1) vars' da' dvol'
      end
  end.

Definition construct_volume_element (c : cube) (which_dist : string) : res (arr num) :=
  let dist_is_conditional := has_char "_" which_dist in
  parts <- (if dist_is_conditional
            then match split "_" which_dist with
                 | [d; m] => Ok (d, Some (replace_char "x" ["x"%char; "y"%char] m))
                 | _ => Err ValueError
                 end
            else Ok (which_dist, None)) ;;
  let dist_string := replace_char "x" ["x"%char; "y"%char] (fst parts) in
  let ndim := String.length dist_string in
  let dvol := full (repeat 1 ndim) (Fin 1) in
  dvol <- vol_loop c ndim 0 (chars dist_string) None dvol ;;
  match snd parts with
  | None => getitem (repeat IAll (List.length (shp dvol))) dvol
  | Some m => getitem (repeat IAll (List.length (shp dvol)) ++ repeat INew (String.length m))%list dvol
  end.

(** get_variable_values, ifu_cube.py lines 97-120 *)
Definition get_variable_values (c : cube) (which_variable : string) : res (arr num) :=
  if String.eqb which_variable "t" then Ok (par_cents_t (c_ssps c))
  else if String.eqb which_variable "v" then
    s <- bop nadd (init0 (c_v_edg c)) (tail0 (c_v_edg c)) ;; Ok (halve s)
  else if String.eqb which_variable "z" then Ok (par_cents_z (c_ssps c))
  else if String.eqb which_variable "x1" then Ok (c_x c)
  else if String.eqb which_variable "x2" then Ok (c_y c)
  else Err ValueError.

(** np.concatenate([x - dx/2, [x[-1] + dx/2]]), ifu_cube.py lines 139, 141 *)
Definition pixel_edges (x : arr num) (dx : num) : res (arr num) :=
  lo <- bop nsub x (scal (ndiv dx (Fin 2))) ;;
  xl <- getitem [IInt (-1)] x ;;
  concat0 lo (arr1 [nadd (ent xl []) (ndiv dx (Fin 2))] NaN).

(** get_variable_edges, ifu_cube.py lines 122-144 *)
Definition get_variable_edges (c : cube) (which_variable : string) : res (arr num) :=
  if String.eqb which_variable "t" then Ok (par_edges_t (c_ssps c))
  else if String.eqb which_variable "v" then Ok (c_v_edg c)
  else if String.eqb which_variable "z" then Ok (par_edges_z (c_ssps c))
  else if String.eqb which_variable "x1" then pixel_edges (c_x c) (c_dx c)
  else if String.eqb which_variable "x2" then pixel_edges (c_y c) (c_dy c)
  else Err ValueError.

(** get_variable_size, ifu_cube.py lines 146-157 *)
Definition get_variable_size (c : cube) (which_variable : string) : res nat :=
  v <- get_variable_values c which_variable ;; Ok (len0 v).

(** get_distribution_shape, ifu_cube.py lines 159-179 *)
Fixpoint shape_loop (c : cube) (vars : list ascii) (shape : list nat) : res (list nat) :=
  match vars with
  | [] => Ok shape
  | var :: vars' =>
      if Ascii.eqb var "x" then
        nx1 <- get_variable_size c "x1" ;;
        nx2 <- get_variable_size c "x2" ;;
        shape_loop c vars' (shape ++ [nx1; nx2])%list
      else
        n <- get_variable_size c (str1 var) ;;
        shape_loop c vars' (shape ++ [n])%list
  end.
Definition get_distribution_shape (c : cube) (which_dist : string) : res (list nat) :=
  shape_loop c (chars (replace_char "_" [] which_dist)) [].

(** get_variable_extent, ifu_cube.py lines 234-258 *)
Definition ends (a : arr num) : res (num * num) :=
  lo <- getitem [IInt 0] a ;;
  hi <- getitem [IInt (-1)] a ;;
  Ok (ent lo [], ent hi []).
Definition get_variable_extent (c : cube) (which_variable : string) : res (num * num) :=
  if String.eqb which_variable "x1" then Ok (c_x1rng c)
  else if String.eqb which_variable "x2" then Ok (c_x2rng c)
  else if String.eqb which_variable "t" then ends (par_edges_t (c_ssps c))
  else if String.eqb which_variable "z" then ends (par_edges_z (c_ssps c))
  else if String.eqb which_variable "v" then ends (c_v_edg c)
  else Err ValueError.
