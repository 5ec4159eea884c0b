(** * Save: Component.dill_dump and save_numpy, components/base.py lines 1176-1225.

    Simplifications: the file system is the directories that exist and the files
    written; os.mkdir always succeeds; names are not resolved further than
    direc + fname; the attribute ssps.w and the number u_edg computed in
    save_numpy but not used are omitted. *)
From Coq Require Import Reals List Bool Arith ZArith String Ascii.
From Verif Require Import Num Arr PyStr Cube Base Moments Ssps Noise Mixture.
Import ListNotations.
Local Open Scope string_scope.

(** the arrays given to np.savez, lines 1211-1225 *)
Record npz := Npz {
  z_yobs : option (arr num);
  z_nx1 : nat;  z_nx2 : nat;
  z_x1rng : num * num;  z_x2rng : num * num;
  z_S : arr num;
  z_z_bin_edges : arr num;  z_t_bin_edges : arr num;
  z_ybar : arr num;
  z_v_edg : arr num;
  z_f_xvtz : arr num
}.

(** a component for saving: its cube, its ybar if evaluated, the argument names
    of its method get_p and get_p itself as a function of which_dist,
    collapse_cmps, density and light_weighted *)
Record saved := Saved {
  sv_cube : cube;
  sv_ybar : option (arr num);
  sv_params : list string;
  sv_get_p : string -> bool -> bool -> bool -> res (arr num)
}.

(** any component that inherits Component.get_p, base.py line 33 *)
Definition plain_saved (c : cube) (ybar : option (arr num)) (p : string -> bool -> bool -> res (arr num)) : saved :=
  Saved c ybar ["which_dist"; "density"; "light_weighted"] (fun w _ d lw => p w d lw).
(** a Mixture, mixture.py line 50 *)
Definition mixture_saved (self : mixture) (ybar : option (arr num)) : saved :=
  Saved (mx_cube self) ybar ["which_dist"; "collapse_cmps"; "density"; "light_weighted"] (mix_get_p self).

(** a call with keyword arguments: TypeError for a name that is no parameter *)
Definition check_keywords (params kws : list string) : res unit :=
  if forallb (fun k => existsb (String.eqb k) params) kws then Ok tt else Err TypeError.

(** files: what was written under which name *)
Inductive file := FDill (s : saved) | FNpz (n : npz).
Record fs := Fs { fs_dirs : list string; fs_files : list (string * file) }.
Definition isdir (f : fs) (d : string) : bool := existsb (String.eqb d) (fs_dirs f).
Definition mkdir (f : fs) (d : string) : fs := if isdir f d then f else Fs (d :: fs_dirs f) (fs_files f).
Definition write (f : fs) (name : string) (x : file) : fs := Fs (fs_dirs f) ((name, x) :: fs_files f).

(** s.endswith(".npz") *)
Fixpoint ends_npz (s : string) : bool :=
  if String.eqb s ".npz" then true else match s with EmptyString => false | String _ s' => ends_npz s' end.
(** np.savez appends the extension *)
Definition npz_name (s : string) : string := if ends_npz s then s else s ++ ".npz".

(** dill_dump, lines 1176-1190.  os.path.isdir(None) raises TypeError. *)
Definition dill_dump (f : fs) (self : saved) (fname : string) (direc : option string) : fs * res unit :=
  match direc with
  | None => (f, Err TypeError)
  | Some d =>
      let f := mkdir f d in
      (write f (d ++ fname) (FDill self), Ok tt)
  end.

(** the arguments of np.savez, lines 1205-1225 *)
Definition npz_args (self : saved) (yobs : option (arr num)) : res npz :=
  let c := sv_cube self in
  let s := c_ssps c in
  _ <- check_keywords (sv_params self) ["collapse_cmps"; "density"] ;;
  p_tvxz <- sv_get_p self "tvxz" true true false ;;
  f_xvtz <- moveaxis p_tvxz [0; 1; 2; 3; 4]%Z [4; 2; 0; 1; 3]%Z ;;
  S <- reshape3 (Xw s) (fst (par_dims s)) (snd (par_dims s)) ;;
  y <- attr (sv_ybar self) ;;
  Ok (Npz yobs (c_nx c) (c_ny c) (c_x1rng c) (c_x2rng c) S (par_edges_z s) (par_edges_t s) y (c_v_edg c) f_xvtz).

(** save_numpy, lines 1192-1225 *)
Definition save_numpy (f : fs) (self : saved) (fname : string) (yobs : option (arr num)) (direc : option string)
  : fs * res unit :=
  match direc with
  | None => (f, Err TypeError)
  | Some d =>
      let f := mkdir f d in
      match npz_args self yobs with
      | Ok n => (write f (npz_name (d ++ fname)) (FNpz n), Ok tt)
      | Err e => (f, Err e)
      end
  end.
