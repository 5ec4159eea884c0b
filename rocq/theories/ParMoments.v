(** * ParMoments: popkinmocks/components/parametric.py, velocity moments
    (lines 746-1228).

    [f2m1] is the value of scipy.special.factorial2(-1): 1 in scipy before
    1.11 and 0 from then on.  The package does not restrict the version. *)
From Coq Require Import Reals List Bool Arith ZArith String Ascii.
From Verif Require Import Num Arr PyStr Cube Base Moments Parametric Mixture.
Import ListNotations.
Local Open Scope string_scope.

(** scipy.special.comb(j, k) for 0 <= k <= j *)
Fixpoint binom (n k : nat) : nat :=
  match n, k with
  | _, O => 1
  | O, S _ => 0
  | S n', S k' => binom n' k' + binom n' k
  end.

(** scipy.special.factorial2(j - 1) for even j *)
Definition factorial2_even (f2m1 : num) (j : nat) : num :=
  match j with O => f2m1 | _ => Fin (INR (odd_factorial2 (Nat.div2 j))) end.

(** get_central_moment_v_tx, lines 746-763 *)
Definition central_v_tx (f2m1 : num) (self : par) (j : nat) : res (arr num) :=
  sig_v <- attr (pa_sig_v self) ;;
  if Nat.even j then Ok (amap (fun s => nmul (npow s j) (factorial2_even f2m1 j)) sig_v)
  else Ok (full (shp sig_v) (Fin 0)).

(** np.moveaxis(np.broadcast_to(a, (nz,) + a.shape), 0, -1), lines 980-982,
    1002-1004, 1187-1190 *)
Definition add_z_axis (self : par) (a : arr num) : res (arr num) :=
  let nz := hd 0%nat (shp (delta_z (c_ssps (pa_cube self)))) in
  b <- broadcast_to a (nz :: shp a) ;;
  moveaxis b [0]%Z [-1]%Z.

(** get_central_moment_v_txz, lines 984-1004 *)
Definition central_v_txz (f2m1 : num) (self : par) (j : nat) : res (arr num) :=
  m <- central_v_tx f2m1 self j ;; add_z_axis self m.

(** get_mean_v_tx, lines 1133-1140; light_weighted is not used *)
Definition mean_v_tx (self : par) : res (arr num) := attr (pa_mu_v self).
(** get_mean_v_txz, lines 1179-1190 *)
Definition mean_v_txz (self : par) : res (arr num) :=
  m <- mean_v_tx self ;; add_z_axis self m.

(** __get_noncentral_moment_v__, lines 765-815 *)
Definition moment_v (f2m1 : num) (self : par) (axes_to_sum : list Z) (z_in_conditioners : bool)
           (P_int : arr num) (j : nat) (mu : arr num) : res (arr num) :=
  let k := seq 0 (S j) in
  let j_choose_k := arr1 (map (fun i => Fin (INR (binom j i))) k) NaN in
  let j_less_k := arr1 (map (fun i => (j - i)%nat) k) 0%nat in
  let add := (if z_in_conditioners then [IAll; IAll; IAll; IAll; INew] else [IAll; IAll; IAll; INew]) in
  E_v <- (if z_in_conditioners then mean_v_txz self else mean_v_tx self) ;;
  j_minus_k <- broadcast_to j_less_k (shp E_v ++ [S j]) ;;
  del_mu <- bop nsub E_v mu ;;
  del_mu <- getitem add del_mu ;;
  P_int <- getitem add P_int ;;
  l <- map_res (fun k0 => if z_in_conditioners then central_v_txz f2m1 self k0 else central_v_tx f2m1 self k0) k ;;
  cent_moms <- stack l NaN ;;
  cent_moms <- moveaxis cent_moms [0]%Z [-1]%Z ;;
  pw <- bop npow del_mu j_minus_k ;;
  integrand <- bop nmul pw cent_moms ;;
  integrand <- bop nmul integrand P_int ;;
  integral <- asum axes_to_sum integrand ;;
  a <- bop nmul j_choose_k integral ;;
  asum [-1]%Z a.

Section Methods.
Context (L : stats_lib) (f2m1 : num) (self : par).

(** get_noncentral_moment_v_tx, lines 817-837 *)
Definition noncentral_v_tx (j : nat) (mu : arr num) (light_weighted : bool) : res (arr num) :=
  dtx <- construct_volume_element (pa_cube self) "tx" ;;
  let P_int := full (shp dtx) (Fin 1) in
  moment_v f2m1 self [] false P_int j mu.
(** get_noncentral_moment_v_x, lines 839-858 *)
Definition noncentral_v_x (j : nat) (mu : arr num) (light_weighted : bool) : res (arr num) :=
  P_int <- par_get_p L self "t_x" false light_weighted ;;
  moment_v f2m1 self [0]%Z false P_int j mu.
(** get_noncentral_moment_v_t, lines 878-900 *)
Definition noncentral_v_t (j : nat) (mu : arr num) (light_weighted : bool) : res (arr num) :=
  P_int <- par_get_p L self "x_t" false light_weighted ;;
  P_int <- moveaxis P_int [-1]%Z [0]%Z ;;
  mu <- getitem [IAll; INew; INew] mu ;;
  moment_v f2m1 self [1; 2]%Z false P_int j mu.
(** get_noncentral_moment_v, lines 921-940 *)
Definition noncentral_v (j : nat) (mu : arr num) (light_weighted : bool) : res (arr num) :=
  P_int <- par_get_p L self "tx" false light_weighted ;;
  moment_v f2m1 self [0; 1; 2]%Z false P_int j mu.
(** get_noncentral_moment_v_txz, lines 960-982 *)
Definition noncentral_v_txz (j : nat) (mu : arr num) (light_weighted : bool) : res (arr num) :=
  mu <- getitem [IAll; IAll; IAll; IInt 0] mu ;;
  m <- noncentral_v_tx j mu light_weighted ;;
  add_z_axis self m.
(** get_noncentral_moment_v_tz, lines 1006-1028 *)
Definition noncentral_v_tz (j : nat) (mu : arr num) (light_weighted : bool) : res (arr num) :=
  P_int <- par_get_p L self "x_tz" false light_weighted ;;
  P_int <- moveaxis P_int [-2]%Z [0]%Z ;;
  mu <- getitem [IAll; INew; INew; IAll] mu ;;
  moment_v f2m1 self [1; 2]%Z true P_int j mu.
(** get_noncentral_moment_v_xz, lines 1050-1070 *)
Definition noncentral_v_xz (j : nat) (mu : arr num) (light_weighted : bool) : res (arr num) :=
  P_int <- par_get_p L self "t_xz" false light_weighted ;;
  mu <- getitem [INew] mu ;;
  moment_v f2m1 self [0]%Z true P_int j mu.
(** get_noncentral_moment_v_z, lines 1092-1113 *)
Definition noncentral_v_z (j : nat) (mu : arr num) (light_weighted : bool) : res (arr num) :=
  P_int <- par_get_p L self "tx_z" false light_weighted ;;
  mu <- getitem [INew; INew; INew] mu ;;
  moment_v f2m1 self [0; 1; 2]%Z true P_int j mu.

(** get_mean_v_x, lines 1142-1152 *)
Definition mean_v_x (light_weighted : bool) : res (arr num) :=
  E_v_tx <- mean_v_tx self ;;
  P <- par_get_p L self "t_x" false light_weighted ;;
  a <- bop nmul E_v_tx P ;; asum [0]%Z a.
(** get_mean_v_t, lines 1154-1165 *)
Definition mean_v_t (light_weighted : bool) : res (arr num) :=
  E_v_tx <- mean_v_tx self ;;
  P <- par_get_p L self "x_t" false light_weighted ;;
  E_v_tx <- moveaxis E_v_tx [0]%Z [-1]%Z ;;
  a <- bop nmul E_v_tx P ;; asum [0; 1]%Z a.
(** get_mean_v, lines 1167-1177 *)
Definition mean_v (light_weighted : bool) : res (arr num) :=
  E_v_tx <- mean_v_tx self ;;
  P <- par_get_p L self "tx" false light_weighted ;;
  a <- bop nmul E_v_tx P ;; Ok (asum_all a).
(** get_mean_v_tz, lines 1192-1204 *)
Definition mean_v_tz (light_weighted : bool) : res (arr num) :=
  E_v_txz <- mean_v_txz self ;;
  P <- par_get_p L self "x_tz" false light_weighted ;;
  E_v_txz <- moveaxis E_v_txz [0]%Z [2]%Z ;;
  a <- bop nmul E_v_txz P ;; asum [0; 1]%Z a.
(** get_mean_v_xz, lines 1206-1216 *)
Definition mean_v_xz (light_weighted : bool) : res (arr num) :=
  E_v_txz <- mean_v_txz self ;;
  P <- par_get_p L self "t_xz" false light_weighted ;;
  a <- bop nmul E_v_txz P ;; asum [0]%Z a.
(** get_mean_v_z, lines 1218-1228 *)
Definition mean_v_z (light_weighted : bool) : res (arr num) :=
  E_v_txz <- mean_v_txz self ;;
  P <- par_get_p L self "tx_z" false light_weighted ;;
  a <- bop nmul E_v_txz P ;; asum [0; 1; 2]%Z a.

(** get_central_moment_v_x, v_t, v, v_tz, v_xz and v_z (lines 860-876, 902-919,
    942-958, 1030-1048, 1072-1090, 1115-1131): the noncentral moment about the
    mean.  The last four have a further argument mu which is not used. *)
Definition central_v_x (j : nat) (light_weighted : bool) : res (arr num) :=
  E <- mean_v_x light_weighted ;; noncentral_v_x j E light_weighted.
Definition central_v_t (j : nat) (light_weighted : bool) : res (arr num) :=
  E <- mean_v_t light_weighted ;; noncentral_v_t j E light_weighted.
Definition central_v (j : nat) (mu : arr num) (light_weighted : bool) : res (arr num) :=
  E <- mean_v light_weighted ;; noncentral_v j E light_weighted.
Definition central_v_tz (j : nat) (mu : arr num) (light_weighted : bool) : res (arr num) :=
  E <- mean_v_tz light_weighted ;; noncentral_v_tz j E light_weighted.
Definition central_v_xz (j : nat) (mu : arr num) (light_weighted : bool) : res (arr num) :=
  E <- mean_v_xz light_weighted ;; noncentral_v_xz j E light_weighted.
Definition central_v_z (j : nat) (mu : arr num) (light_weighted : bool) : res (arr num) :=
  E <- mean_v_z light_weighted ;; noncentral_v_z j E light_weighted.

(** the attributes "get_mean_<dist>" and "get_noncentral_moment_<dist>" *)
Definition par_means : string -> option (bool -> res (arr num)) :=
  lookup [ ("v_tx", fun _ => mean_v_tx self); ("v_x", mean_v_x); ("v_t", mean_v_t); ("v", mean_v);
           ("v_txz", fun _ => mean_v_txz self); ("v_tz", mean_v_tz); ("v_xz", mean_v_xz); ("v_z", mean_v_z) ].
Definition par_moments : string -> option (nat -> arr num -> bool -> res (arr num)) :=
  lookup [ ("v_tx", noncentral_v_tx); ("v_x", noncentral_v_x); ("v_t", noncentral_v_t); ("v", noncentral_v);
           ("v_txz", noncentral_v_txz); ("v_tz", noncentral_v_tz); ("v_xz", noncentral_v_xz); ("v_z", noncentral_v_z) ].

(** get_mean, get_noncentral_moment and the other moment methods inherited from
    Component *)
Definition par_obj : obj := Obj (pa_cube self) (par_get_p L self) par_means par_moments.

(** a parametric component as a member of a mixture *)
Definition par_member : member :=
  Member (par_table L self) (par_get_p L self) (get_mean par_obj) (get_noncentral_moment par_obj).
End Methods.
