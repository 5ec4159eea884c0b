(** * Datacube: Component.evaluate_ybar (components/base.py lines 789-882) and
    Mixture.evaluate_ybar (components/mixture.py lines 35-48).

    Simplification: scipy's interp1d(kind="cubic") over equally spaced knots is
    any fixed linear interpolation: [W m M k j] is the weight of knot j in the
    value at point k of np.linspace(0, 1, M), for knots np.linspace(0, 1, m). *)
From Coq Require Import Reals List Bool Arith ZArith String Ascii.
From Verif Require Import Num Arr PyStr Cube Base Fft Ssps Noise.
Import ListNotations.
Local Open Scope string_scope.

(** ** Fourier transforms along a given axis *)
Fixpoint set_nth (ax : nat) (x : nat) (l : list nat) : list nat :=
  match l, ax with
  | [], _ => []
  | _ :: r, O => x :: r
  | y :: r, S ax' => y :: set_nth ax' x r
  end.
(** np.fft.rfft(a, axis=ax): length as the axis; ValueError for an empty axis *)
Definition rfft_ax (a : arr num) (ax : nat) : res (arr cnum) :=
  match nth_error (shp a) ax with
  | None => Err IndexError
  | Some O => Err ValueError
  | Some d => Ok (Arr (set_nth ax (d / 2 + 1) (shp a))
                      (fun idx => dft d d (fun j => ent a (set_nth ax j idx)) (nth ax idx O)))
  end.
(** np.fft.irfft(a, n, axis=ax) *)
Definition irfft_ax (a : arr cnum) (n ax : nat) : res (arr num) :=
  match nth_error (shp a) ax with
  | None => Err IndexError
  | Some d =>
      if Nat.eqb n 0 then Err ValueError
      else Ok (Arr (set_nth ax n (shp a))
                   (fun idx => idft n d (fun k => ent a (set_nth ax k idx)) (nth ax idx O)))
  end.

(** interp1d(np.linspace(0, 1, m), a, axis=ax, kind="cubic")(np.linspace(0, 1, M)):
    a cubic spline needs four knots *)
Definition weights := nat -> nat -> nat -> nat -> R.
Definition interp_ax (W : weights) (a : arr cnum) (M ax : nat) : res (arr cnum) :=
  match nth_error (shp a) ax with
  | None => Err IndexError
  | Some m =>
      if Nat.ltb m 4 then Err ValueError
      else Ok (Arr (set_nth ax M (shp a))
                   (fun idx => csum (map (fun j => cscale (Fin (W m M (nth ax idx O) j)) (ent a (set_nth ax j idx))) (seq 0 m))))
  end.

(** ** validate_v_edg, lines 810-834 *)
(** np.sort: increasing, nan last *)
Definition sort_le (a b : num) : bool := (nle a b || is_nan b)%bool.
Fixpoint insert_num (a : num) (l : list num) : list num :=
  match l with
  | [] => [a]
  | b :: r => if sort_le a b then a :: l else b :: insert_num a r
  end.
Definition np_sort (l : list num) : list num := fold_right insert_num [] l.
(** np.where(np.isclose(v, 0.0))[0][0] *)
Fixpoint first_index (f : num -> bool) (l : list num) (i : nat) : res nat :=
  match l with
  | [] => Err IndexError
  | a :: r => if f a then Ok i else first_index f r (S i)
  end.
Definition v_mids (v_edg : arr num) : res (arr num) :=
  s <- bop nadd (init0 v_edg) (tail0 v_edg) ;; Ok (halve s).
Definition validate_v_edg (v_edg : arr num) (dv : num) : res unit :=
  d <- bop nsub (tail0 v_edg) (init0 v_edg) ;;
  check1 <- allclose d (scal dv) ;;
  v <- v_mids v_edg ;;
  let l := to_list v in
  let check2 := forallb (fun ab => neqb (fst ab) (snd ab)) (combine (np_sort l) l) in
  v0_idx <- first_index (fun a => isclose a (Fin 0)) l 0 ;;
  let size := List.length l in
  let check3 := if Nat.eqb (size mod 2) 1 then Nat.eqb (2 * v0_idx) (size - 1) else Nat.eqb (2 * v0_idx) size in
  if (check1 && check2 && check3)%bool then Ok tt else Err ValueError.

(** ** evaluate_ybar *)
(** np.reshape(a, (-1, nz, nt)) *)
Definition reshape3c (x : arr cnum) (nz nt : nat) : res (arr cnum) :=
  let size := size_of (shp x) in
  if Nat.eqb (nz * nt) 0 then Err ValueError
  else if Nat.eqb (size mod (nz * nt)) 0
       then reshape x [(size / (nz * nt))%nat; nz; nt] else Err ValueError.

(** the transforms of the templates, [t, w, z], lines 838-839 *)
Definition template_spectra (s : ssps) : res (arr cnum) :=
  F <- reshape3c (FXw s) (fst (par_dims s)) (snd (par_dims s)) ;;
  moveaxis F [-1]%Z [0]%Z.

(** the transform of the velocity distributions at the template frequencies,
    lines 841-855 *)
Definition velocity_spectra (W : weights) (s : ssps) (v_edg p_tvxz : arr num) (M : nat) : res (arr cnum) :=
  v <- v_mids v_edg ;;
  v0_idx <- first_index (fun a => isclose a (Fin 0)) (to_list v) 0 ;;
  let p_tvxz := roll p_tvxz (nth 1 (shp p_tvxz) O - v0_idx) 1 in
  F <- rfft_ax p_tvxz 1 ;;
  let F := amap (cscale (ssp_dv s)) F in
  interp_ax W F M 1.

(** a * self.cube.dx * self.cube.dy *)
Definition times_area (c : cube) (a : arr num) : arr num := amap (fun y => nmul (nmul y (c_dx c)) (c_dy c)) a.

(** lines 856-861 *)
Definition ybar_none (c : cube) (Fs Fp : arr cnum) : res (arr num) :=
  let s := c_ssps c in
  dt <- getitem [IAll; INew; INew; INew; INew] (delta_t s) ;;
  dz <- getitem [INew; INew; INew; INew; IAll] (delta_z s) ;;
  dtz <- bop nmul dt dz ;;
  Fs <- getitem [IAll; IAll; INew; INew; IAll] Fs ;;
  F_y <- bop cmul Fs Fp ;;
  y <- irfft_ax F_y (n_fft s) 1 ;;
  y <- bop nmul y dtz ;;
  y <- asum [0; 4]%Z y ;;
  Ok (times_area c y).

(** lines 862-870; the assigned columns are broadcast to (nl, nx) *)
Definition ybar_column (c : cube) (Fs Fp : arr cnum) : res (arr num) :=
  let s := c_ssps c in
  let nl := nth 0 (shp (Xw s)) O in
  dt <- getitem [IAll; INew; INew; INew] (delta_t s) ;;
  dz <- getitem [INew; INew; INew; IAll] (delta_z s) ;;
  dtz <- bop nmul dt dz ;;
  Fs <- getitem [IAll; IAll; INew; IAll] Fs ;;
  cols <- map_res (fun i =>
    Fp_i <- getitem [IAll; IAll; IAll; IInt (Z.of_nat i); IAll] Fp ;;
    F_y_i <- bop cmul Fs Fp_i ;;
    y_i <- irfft_ax F_y_i (n_fft s) 1 ;;
    y_i <- bop nmul y_i dtz ;;
    y_i <- asum [0; 3]%Z y_i ;;
    broadcast_to (times_area c y_i) [nl; c_nx c]) (seq 0 (c_ny c)) ;;
  Ok (Arr [nl; c_nx c; c_ny c] (fun idx => match idx with
    | [w; i; j] => match nth_error cols j with Some y_j => ent y_j [w; i] | None => Fin 0 end
    | _ => NaN end)).

(** lines 871-881 *)
Definition ybar_spaxel (c : cube) (Fs Fp : arr cnum) : res (arr num) :=
  let s := c_ssps c in
  let nl := nth 0 (shp (Xw s)) O in
  dt <- getitem [IAll; INew; INew] (delta_t s) ;;
  dz <- getitem [INew; INew; IAll] (delta_z s) ;;
  dtz <- bop nmul dt dz ;;
  rows <- map_res (fun i => map_res (fun j =>
    Fp_ij <- getitem [IAll; IAll; IInt (Z.of_nat i); IInt (Z.of_nat j); IAll] Fp ;;
    F_y_ij <- bop cmul Fs Fp_ij ;;
    y_ij <- irfft_ax F_y_ij (n_fft s) 1 ;;
    y_ij <- bop nmul y_ij dtz ;;
    y_ij <- asum [0; 2]%Z y_ij ;;
    broadcast_to (times_area c y_ij) [nl]) (seq 0 (c_ny c))) (seq 0 (c_nx c)) ;;
  Ok (Arr [nl; c_nx c; c_ny c] (fun idx => match idx with
    | [w; i; j] => match nth_error rows i with
                   | Some row => match nth_error row j with Some y_ij => ent y_ij [w] | None => Fin 0 end
                   | None => Fin 0 end
    | _ => NaN end)).

(** Component.evaluate_ybar: the value stored as self.ybar *)
Definition evaluate_ybar (W : weights) (self : component) (batch : string) : res (arr num) :=
  let c := comp_cube self in
  let s := c_ssps c in
  _ <- validate_v_edg (c_v_edg c) (ssp_dv s) ;;
  Fs <- template_spectra s ;;
  p_tvxz <- get_p self "tvxz" true false ;;
  Fp <- velocity_spectra W s (c_v_edg c) p_tvxz (nth 1 (shp Fs) O) ;;
  if String.eqb batch "none" then ybar_none c Fs Fp
  else if String.eqb batch "column" then ybar_column c Fs Fp
  else if String.eqb batch "spaxel" then ybar_spaxel c Fs Fp
  else Err ValueError.

(** Mixture.evaluate_ybar, mixture.py lines 35-48: [members] are the attributes
    ybar of the members *)
Fixpoint add_members (ybar : arr num) (l : list (option (arr num) * num)) : res (arr num) :=
  match l with
  | [] => Ok ybar
  | (m, weight) :: l' =>
      y <- attr m ;;
      ybar <- iop nadd ybar (amap (nmul weight) y) ;;
      add_members ybar l'
  end.
Definition mixture_ybar (members : list (option (arr num))) (ws : list num) : res (arr num) :=
  match members with
  | [] => Err IndexError
  | m :: _ =>
      y <- attr m ;;
      add_members (full (shp y) (Fin 0)) (combine members ws)
  end.
