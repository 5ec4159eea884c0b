(** * ParYbar: ParametricComponent.evaluate_ybar, components/parametric.py lines
    335-407, given P_txz = self.get_p("txz", density=False) (line 358). *)
From Coq Require Import Reals List Bool Arith ZArith String Ascii.
From Verif Require Import Num Arr PyStr Cube Fft Datacube.
Import ListNotations.
Local Open Scope string_scope.

(** np.exp of a complex number *)
Definition cexp (a : cnum) : cnum :=
  match cre a, cim a with
  | Fin x, Fin y => (Fin (exp x * cos y), Fin (exp x * sin y))
  | _, _ => (NaN, NaN)
  end.
Definition of_real (a : num) : cnum := (a, Fin 0).
Definition csub (a b : cnum) : cnum := (nsub (cre a) (cre b), nsub (cim a) (cim b)).

(** np.exp(-1j * mu_v * omega - 0.5 * (sig_v * omega) ** 2), lines 369-370, 380-384 and 396-400 *)
Definition transform (mu_v sig_v omega : arr num) : res (arr cnum) :=
  m <- bop (fun m o => cmul (cmul (Fin 0, Fin (-1)) (of_real m)) (of_real o)) mu_v omega ;;
  s <- bop nmul sig_v omega ;;
  e <- bop csub m (amap (fun x => of_real (nmul (Fin 0.5) (nmul x x))) s) ;;
  Ok (amap cexp e).

(** np.einsum over t and z of P[t,z] F[w,t] S[w,z,t]; the kept axes of P and F
    ("xy", "x" or none) are [s].  Operands with other dimensions raise ValueError
    (dimensions of length one are not broadcast here). *)
Definition einsum (s : list nat) (P : arr num) (F S : arr cnum) : res (arr cnum) :=
  match shp S with
  | [w; z; t] =>
      if (natlist_eqb (shp P) (t :: s ++ [z]) && natlist_eqb (shp F) (w :: t :: s))%bool
      then Ok (Arr (w :: s) (fun idx => match idx with
             | k :: r => csum (map (fun tz => match tz with
                 | [a; b] => cmul (cmul (of_real (ent P (a :: r ++ [b]))) (ent F (k :: a :: r))) (ent S [k; b; a])
                 | _ => czero end) (all_idx [t; z]))
             | _ => czero end))
      else Err ValueError
  | _ => Err ValueError
  end.

(** lines 367-373 *)
Definition par_none (c : cube) (P_txz mu_v sig_v omega : arr num) (F_s : arr cnum) : res (arr num) :=
  omega <- getitem [IAll; INew; INew; INew] omega ;;
  F_p <- transform mu_v sig_v omega ;;
  F_y <- einsum [c_nx c; c_ny c] P_txz F_p F_s ;;
  irfft_ax F_y (n_fft (c_ssps c)) 0.

(** lines 374-388 (without the print); each assigned column is broadcast to (nl, nx) *)
Definition par_column (c : cube) (P_txz mu_v sig_v omega : arr num) (F_s : arr cnum) : res (arr num) :=
  let nl := nth 0 (shp (Xw (c_ssps c))) O in
  omega <- getitem [IAll; INew; INew] omega ;;
  cols <- map_res (fun i =>
    mu_i <- getitem [IAll; IAll; IInt (Z.of_nat i)] mu_v ;;
    sig_i <- getitem [IAll; IAll; IInt (Z.of_nat i)] sig_v ;;
    F_p <- transform mu_i sig_i omega ;;
    P_i <- getitem [IAll; IAll; IInt (Z.of_nat i); IAll] P_txz ;;
    F_i <- einsum [c_nx c] P_i F_p F_s ;;
    y_i <- irfft_ax F_i (n_fft (c_ssps c)) 0 ;;
    broadcast_to y_i [nl; c_nx c]) (seq 0 (c_ny c)) ;;
  Ok (Arr [nl; c_nx c; c_ny c] (fun idx => match idx with
    | [w; i; j] => match nth_error cols j with Some y_j => ent y_j [w; i] | None => Fin 0 end
    | _ => NaN end)).

(** lines 389-404 (without the print) *)
Definition par_spaxel (c : cube) (P_txz mu_v sig_v omega : arr num) (F_s : arr cnum) : res (arr num) :=
  let nl := nth 0 (shp (Xw (c_ssps c))) O in
  omega <- getitem [IAll; INew] omega ;;
  rows <- map_res (fun i => map_res (fun j =>
    mu_ij <- getitem [IAll; IInt (Z.of_nat i); IInt (Z.of_nat j)] mu_v ;;
    sig_ij <- getitem [IAll; IInt (Z.of_nat i); IInt (Z.of_nat j)] sig_v ;;
    F_p <- transform mu_ij sig_ij omega ;;
    P_ij <- getitem [IAll; IInt (Z.of_nat i); IInt (Z.of_nat j); IAll] P_txz ;;
    F_ij <- einsum [] P_ij F_p F_s ;;
    y_ij <- irfft_ax F_ij (n_fft (c_ssps c)) 0 ;;
    broadcast_to y_ij [nl]) (seq 0 (c_ny c))) (seq 0 (c_nx c)) ;;
  Ok (Arr [nl; c_nx c; c_ny c] (fun idx => match idx with
    | [w; i; j] => match nth_error rows i with
                   | Some row => match nth_error row j with Some y_ij => ent y_ij [w] | None => Fin 0 end
                   | None => Fin 0 end
    | _ => NaN end)).

(** the value stored as self.ybar *)
Definition par_evaluate (c : cube) (P_txz mu_v sig_v : arr num) (batch : string) : res (arr num) :=
  let s := c_ssps c in
  let omega := amap (fun x => ndiv x (ssp_dv s)) (linspace 0 PI (nth 0 (shp (FXw s)) O)) in
  F_s <- reshape3c (FXw s) (fst (par_dims s)) (snd (par_dims s)) ;;
  if String.eqb batch "none" then par_none c P_txz mu_v sig_v omega F_s
  else if String.eqb batch "column" then par_column c P_txz mu_v sig_v omega F_s
  else if String.eqb batch "spaxel" then par_spaxel c P_txz mu_v sig_v omega F_s
  else Err ValueError.
