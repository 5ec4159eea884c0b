(** * HeapParMom: the velocity moments of parametric.py (lines 746-1228) on the
    heap of Heap.v; the methods are those of ParMoments.v. *)
From Coq Require Import Reals List Bool Arith ZArith String Ascii.
From Verif Require Import Num Arr PyStr Cube Base Moments Parametric ParMoments Heap HeapPar HeapMom.
Import ListNotations.
Local Open Scope string_scope.

(** get_central_moment_v_tx, lines 746-763 *)
Definition h_central_v_tx (f2m1 : num) (self : hpar) (j : nat) : prog nda :=
  sig_v <~ lift (attr (hp_sig_v self)) ;;
  if Nat.even j then h_map (fun s => nmul (npow s j) (factorial2_even f2m1 j)) sig_v
  else alloc (full (na_shp sig_v) (Fin 0)).

(** np.moveaxis(np.broadcast_to(a, (nz,) + a.shape), 0, -1), lines 980-982,
    1002-1004, 1187-1190: a view of a *)
Definition h_add_z_axis (self : hpar) (a : nda) : prog nda :=
  let nz := hd 0%nat (na_shp (hq_delta_z (hp_cube self))) in
  b <~ h_broadcast a (nz :: na_shp a) ;;
  h_moveaxis b [0]%Z [-1]%Z.

(** get_central_moment_v_txz, lines 984-1004 *)
Definition h_central_v_txz (f2m1 : num) (self : hpar) (j : nat) : prog nda :=
  m <~ h_central_v_tx f2m1 self j ;; h_add_z_axis self m.

(** get_mean_v_tx, lines 1133-1140: the attribute itself *)
Definition h_mean_v_tx (self : hpar) : prog nda := lift (attr (hp_mu_v self)).
(** get_mean_v_txz, lines 1179-1190 *)
Definition h_mean_v_txz (self : hpar) : prog nda :=
  m <~ h_mean_v_tx self ;; h_add_z_axis self m.

(** __get_noncentral_moment_v__, lines 765-815 *)
Definition h_moment_v (f2m1 : num) (self : hpar) (axes_to_sum : list Z) (z_in_conditioners : bool)
           (P_int : nda) (j : nat) (mu : nda) : prog nda :=
  let k := seq 0 (S j) in
  j_choose_k <~ alloc (arr1 (map (fun i => Fin (INR (binom j i))) k) NaN) ;;
  let j_less_k := arr1 (map (fun i => (j - i)%nat) k) 0%nat in
  let add := (if z_in_conditioners then [IAll; IAll; IAll; IAll; INew] else [IAll; IAll; IAll; INew]) in
  E_v <~ (if z_in_conditioners then h_mean_v_txz self else h_mean_v_tx self) ;;
  j_minus_k <~ lift (broadcast_to j_less_k (na_shp E_v ++ [S j])) ;;
  del_mu <~ h_bop nsub E_v mu ;;
  del_mu <~ h_getitem add del_mu ;;
  P_int <~ h_getitem add P_int ;;
  l <~ h_list (fun k0 => if z_in_conditioners then h_central_v_txz f2m1 self k0 else h_central_v_tx f2m1 self k0) k ;;
  cent_moms <~ h_stack l ;;
  cent_moms <~ h_moveaxis cent_moms [0]%Z [-1]%Z ;;
  pw <~ new (fun h => bop npow (value h del_mu) j_minus_k) ;;
  integrand <~ h_bop nmul pw cent_moms ;;
  integrand <~ h_bop nmul integrand P_int ;;
  integral <~ h_sum axes_to_sum integrand ;;
  a <~ h_bop nmul j_choose_k integral ;;
  h_sum [-1]%Z a.

Section Methods.
Context (L : stats_lib) (f2m1 : num) (self : hpar).
Notation get_p := (h_par_get_p L self).

(** get_noncentral_moment_v_tx, lines 817-837 *)
Definition h_noncentral_v_tx (j : nat) (mu : nda) (light_weighted : bool) : prog nda :=
  dtx <~ h_volume (hp_cube self) "tx" ;;
  P_int <~ alloc (full (na_shp dtx) (Fin 1)) ;;
  h_moment_v f2m1 self [] false P_int j mu.
(** get_noncentral_moment_v_x, lines 839-858 *)
Definition h_noncentral_v_x (j : nat) (mu : nda) (light_weighted : bool) : prog nda :=
  P_int <~ get_p "t_x" false light_weighted ;;
  h_moment_v f2m1 self [0]%Z false P_int j mu.
(** get_noncentral_moment_v_t, lines 878-900 *)
Definition h_noncentral_v_t (j : nat) (mu : nda) (light_weighted : bool) : prog nda :=
  P_int <~ get_p "x_t" false light_weighted ;;
  P_int <~ h_moveaxis P_int [-1]%Z [0]%Z ;;
  mu <~ h_getitem [IAll; INew; INew] mu ;;
  h_moment_v f2m1 self [1; 2]%Z false P_int j mu.
(** get_noncentral_moment_v, lines 921-940 *)
Definition h_noncentral_v (j : nat) (mu : nda) (light_weighted : bool) : prog nda :=
  P_int <~ get_p "tx" false light_weighted ;;
  h_moment_v f2m1 self [0; 1; 2]%Z false P_int j mu.
(** get_noncentral_moment_v_txz, lines 960-982 *)
Definition h_noncentral_v_txz (j : nat) (mu : nda) (light_weighted : bool) : prog nda :=
  mu <~ h_getitem [IAll; IAll; IAll; IInt 0] mu ;;
  m <~ h_noncentral_v_tx j mu light_weighted ;;
  h_add_z_axis self m.
(** get_noncentral_moment_v_tz, lines 1006-1028 *)
Definition h_noncentral_v_tz (j : nat) (mu : nda) (light_weighted : bool) : prog nda :=
  P_int <~ get_p "x_tz" false light_weighted ;;
  P_int <~ h_moveaxis P_int [-2]%Z [0]%Z ;;
  mu <~ h_getitem [IAll; INew; INew; IAll] mu ;;
  h_moment_v f2m1 self [1; 2]%Z true P_int j mu.
(** get_noncentral_moment_v_xz, lines 1050-1070 *)
Definition h_noncentral_v_xz (j : nat) (mu : nda) (light_weighted : bool) : prog nda :=
  P_int <~ get_p "t_xz" false light_weighted ;;
  mu <~ h_getitem [INew] mu ;;
  h_moment_v f2m1 self [0]%Z true P_int j mu.
(** get_noncentral_moment_v_z, lines 1092-1113 *)
Definition h_noncentral_v_z (j : nat) (mu : nda) (light_weighted : bool) : prog nda :=
  P_int <~ get_p "tx_z" false light_weighted ;;
  mu <~ h_getitem [INew; INew; INew] mu ;;
  h_moment_v f2m1 self [0; 1; 2]%Z true P_int j mu.

(** get_mean_v_x, lines 1142-1152 *)
Definition h_mean_v_x (light_weighted : bool) : prog nda :=
  E_v_tx <~ h_mean_v_tx self ;;
  P <~ get_p "t_x" false light_weighted ;;
  a <~ h_bop nmul E_v_tx P ;; h_sum [0]%Z a.
(** get_mean_v_t, lines 1154-1165 *)
Definition h_mean_v_t (light_weighted : bool) : prog nda :=
  E_v_tx <~ h_mean_v_tx self ;;
  P <~ get_p "x_t" false light_weighted ;;
  E_v_tx <~ h_moveaxis E_v_tx [0]%Z [-1]%Z ;;
  a <~ h_bop nmul E_v_tx P ;; h_sum [0; 1]%Z a.
(** get_mean_v, lines 1167-1177 *)
Definition h_mean_v (light_weighted : bool) : prog nda :=
  E_v_tx <~ h_mean_v_tx self ;;
  P <~ get_p "tx" false light_weighted ;;
  a <~ h_bop nmul E_v_tx P ;; h_sum_all a.
(** get_mean_v_tz, lines 1192-1204 *)
Definition h_mean_v_tz (light_weighted : bool) : prog nda :=
  E_v_txz <~ h_mean_v_txz self ;;
  P <~ get_p "x_tz" false light_weighted ;;
  E_v_txz <~ h_moveaxis E_v_txz [0]%Z [2]%Z ;;
  a <~ h_bop nmul E_v_txz P ;; h_sum [0; 1]%Z a.
(** get_mean_v_xz, lines 1206-1216 *)
Definition h_mean_v_xz (light_weighted : bool) : prog nda :=
  E_v_txz <~ h_mean_v_txz self ;;
  P <~ get_p "t_xz" false light_weighted ;;
  a <~ h_bop nmul E_v_txz P ;; h_sum [0]%Z a.
(** get_mean_v_z, lines 1218-1228 *)
Definition h_mean_v_z (light_weighted : bool) : prog nda :=
  E_v_txz <~ h_mean_v_txz self ;;
  P <~ get_p "tx_z" false light_weighted ;;
  a <~ h_bop nmul E_v_txz P ;; h_sum [0; 1; 2]%Z a.

(** the attributes "get_mean_<dist>" and "get_noncentral_moment_<dist>" *)
Definition h_par_means : string -> option (bool -> prog nda) :=
  lookup [ ("v_tx", fun _ => h_mean_v_tx self); ("v_x", h_mean_v_x); ("v_t", h_mean_v_t); ("v", h_mean_v);
           ("v_txz", fun _ => h_mean_v_txz self); ("v_tz", h_mean_v_tz); ("v_xz", h_mean_v_xz); ("v_z", h_mean_v_z) ].
Definition h_par_moments : string -> option (nat -> nda -> bool -> prog nda) :=
  lookup [ ("v_tx", h_noncentral_v_tx); ("v_x", h_noncentral_v_x); ("v_t", h_noncentral_v_t); ("v", h_noncentral_v);
           ("v_txz", h_noncentral_v_txz); ("v_tz", h_noncentral_v_tz); ("v_xz", h_noncentral_v_xz); ("v_z", h_noncentral_v_z) ].

(** [g]: the cube of the component with the arrays that its moments use *)
Definition h_par_obj (g : hgrid) : hobj := HObj g get_p h_par_means h_par_moments.
End Methods.
