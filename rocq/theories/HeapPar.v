(** * HeapPar: the distributions of parametric.py on the heap of Heap.v.

    The methods are those of Parametric.v with array objects for values: [.T],
    indexing and np.moveaxis give views, [+=] writes in place. *)
From Coq Require Import Reals List Bool Arith ZArith String Ascii.
From Verif Require Import Num Arr PyStr Cube Base Parametric Heap.
Import ListNotations.
Local Open Scope string_scope.

(** the arrays of a parametric component which its distributions read *)
Record hpar := HPar {
  hp_cube : hcube;
  hp_log_p_t : option nda;
  hp_log_p_x_t : option nda;
  hp_log_p_z_tx : option nda;
  hp_mu_v : option nda;
  hp_sig_v : option nda
}.

Definition h_log_vol (self : hpar) (s : string) : prog nda :=
  v <~ h_volume (hp_cube self) s ;; h_map nlog v.
Definition h_log_dxdy (self : hpar) : prog nda :=
  alloc (scal (nadd (nlog (hq_dx (hp_cube self))) (nlog (hq_dy (hp_cube self))))).

(** stats.norm(loc, scale).logcdf(x) makes a new array *)
Definition h_norm_logcdf (L : stats_lib) (loc scale x : nda) : prog nda :=
  new (fun h => norm_logcdf L (value h loc) (value h scale) (value h x)).
(** special.logsumexp(np.array([hi, lo]).T, -1, b=[1, -1]).T: the transpose of a
    new array, here the new array *)
Definition h_logdiffexp (hi lo : nda) : prog nda :=
  new (fun h => logdiffexp (value h hi) (value h lo)).

(** parametric.py lines 151-152, 160-162 *)
Definition h_x_t_mw (self : hpar) (density : bool) : prog nda :=
  a <~ lift (attr (hp_log_p_x_t self)) ;;
  lp <~ h_copy a ;;
  if density then ret lp else d <~ h_log_dxdy self ;; h_iop nadd lp d.
(** lines 422-423, 428-430 *)
Definition h_t_mw (self : hpar) (density : bool) : prog nda :=
  a <~ lift (attr (hp_log_p_t self)) ;;
  lp <~ h_copy a ;;
  if density then ret lp else ldt <~ h_log_vol self "t" ;; h_iop nadd lp ldt.
(** lines 464-468 *)
Definition h_tx_mw (self : hpar) (density : bool) : prog nda :=
  log_p_x_t <~ h_x_t_mw self density ;;
  log_p_t <~ h_t_mw self density ;;
  lp <~ h_bop nadd log_p_x_t log_p_t ;;
  h_moveaxis lp [-1]%Z [0]%Z.
(** lines 322-323, 330-333 *)
Definition h_z_tx_mw (self : hpar) (density : bool) : prog nda :=
  a <~ lift (attr (hp_log_p_z_tx self)) ;;
  lp <~ h_copy a ;;
  if density then ret lp
  else ldz <~ h_log_vol self "z" ;; r <~ h_bop nadd (v_T lp) ldz ;; ret (v_T r).
(** lines 554-557 *)
Definition h_txz_mw (self : hpar) (density : bool) : prog nda :=
  log_p_tx <~ h_tx_mw self density ;;
  log_p_z_tx <~ h_z_tx_mw self density ;;
  a <~ h_getitem [IAll; IAll; IAll; INew] log_p_tx ;;
  b <~ h_moveaxis log_p_z_tx [0]%Z [-1]%Z ;;
  h_bop nadd a b.
(** lines 541-567 *)
Definition h_p_txz (self : hpar) : h_method := fun density light_weighted =>
  log_p_txz <~ h_txz_mw self density ;;
  if light_weighted then
    log_P_mw <~ h_txz_mw self false ;;
    lw <~ h_getitem [IAll; INew; INew; IAll] (hq_light_weights (hp_cube self)) ;;
    log_lw <~ h_map nlog lw ;;
    log_P_lw <~ h_bop nadd log_P_mw log_lw ;;
    log_normalisation <~ h_lse_all log_P_lw ;;
    s <~ h_bop nadd log_p_txz log_lw ;;
    h_bop nsub s log_normalisation
  else ret log_p_txz.
(** log_p += np.log(dx) + np.log(dy), when density *)
Definition h_add_dxdy (self : hpar) (density : bool) (lp : nda) : prog nda :=
  if density then d <~ h_log_dxdy self ;; h_iop nadd lp d else ret lp.
(** log_p += np.log(construct_volume_element(s)), when density *)
Definition h_add_vol (self : hpar) (s : string) (density : bool) (lp : nda) : prog nda :=
  if density then d <~ h_log_vol self s ;; h_iop nadd lp d else ret lp.
(** log_p = (log_p.T + np.log(construct_volume_element("t"))).T *)
Definition h_add_log_dt (self : hpar) (lp : nda) : prog nda :=
  ldt <~ h_log_vol self "t" ;; r <~ h_bop nadd (v_T lp) ldt ;; ret (v_T r).
Definition h_add_dt (self : hpar) (density : bool) (lp : nda) : prog nda :=
  if density then h_add_log_dt self lp else ret lp.
(** lines 476-493 *)
Definition h_p_tz (self : hpar) : h_method := fun density light_weighted =>
  lp <~ h_p_txz self density light_weighted ;;
  lp <~ h_add_dxdy self density lp ;;
  h_lse lp [1; 2]%Z.
(** lines 409-430 *)
Definition h_p_t (self : hpar) : h_method := fun density light_weighted =>
  if light_weighted then
    log_p_tz <~ h_p_tz self true true ;;
    ldz <~ h_log_vol self "z" ;;
    s <~ h_bop nadd log_p_tz ldz ;;
    lp <~ h_lse s [1]%Z ;;
    if density then ret lp else ldt <~ h_log_vol self "t" ;; h_iop nadd lp ldt
  else h_t_mw self density.
(** lines 138-162 *)
Definition h_p_x_t (self : hpar) : h_method := fun density light_weighted =>
  if light_weighted then
    log_p_txz <~ h_p_txz self true true ;;
    ldz <~ h_log_vol self "z" ;;
    s <~ h_bop nadd log_p_txz ldz ;;
    log_p_tx <~ h_lse s [-1]%Z ;;
    log_p_t <~ h_p_t self true true ;;
    d <~ h_bop nsub (v_T log_p_tx) log_p_t ;;
    lp <~ h_moveaxis (v_T d) [0]%Z [-1]%Z ;;
    if density then ret lp else e <~ h_log_dxdy self ;; h_iop nadd lp e
  else h_x_t_mw self density.
(** lines 451-474 *)
Definition h_p_tx (self : hpar) : h_method := fun density light_weighted =>
  if light_weighted then
    lp <~ h_p_txz self density true ;;
    lp <~ h_add_vol self "z" density lp ;;
    h_lse lp [-1]%Z
  else h_tx_mw self density.
(** lines 309-333 *)
Definition h_p_z_tx (self : hpar) : h_method := fun density light_weighted =>
  if light_weighted then
    log_p_txz <~ h_p_txz self true true ;;
    ldz <~ h_log_vol self "z" ;;
    s <~ h_bop nadd log_p_txz ldz ;;
    log_p_tx <~ h_lse s [-1]%Z ;;
    d <~ h_bop nsub (v_T log_p_txz) (v_T log_p_tx) ;;
    lp <~ h_moveaxis (v_T d) [-1]%Z [0]%Z ;;
    if density then ret lp
    else ldz <~ h_log_vol self "z" ;; r <~ h_bop nadd (v_T lp) ldz ;; ret (v_T r)
  else h_z_tx_mw self density.
(** log_p = (log_p.T - np.log(construct_volume_element("v"))).T, when density *)
Definition h_sub_dv (self : hpar) (density : bool) (lp : nda) : prog nda :=
  if density then ldv <~ h_log_vol self "v" ;; r <~ h_bop nsub (v_T lp) ldv ;; ret (v_T r) else ret lp.
(** lines 193-200, 208-211 *)
Definition h_v_tx_mw (L : stats_lib) (self : hpar) (density : bool) : prog nda :=
  v_edg <~ h_getitem [IAll; INew; INew; INew] (hq_v_edg (hp_cube self)) ;;
  mu <~ lift (attr (hp_mu_v self)) ;;
  sig <~ lift (attr (hp_sig_v self)) ;;
  log_cdf_0 <~ h_norm_logcdf L mu sig (v_init0 v_edg) ;;
  log_cdf_1 <~ h_norm_logcdf L mu sig (v_tail0 v_edg) ;;
  lp <~ h_logdiffexp log_cdf_1 log_cdf_0 ;;
  h_sub_dv self density lp.
(** lines 582-586 *)
Definition h_tvxz_mw (L : stats_lib) (self : hpar) (density : bool) : prog nda :=
  log_p_txz <~ h_txz_mw self density ;;
  log_p_v_tx <~ h_v_tx_mw L self density ;;
  a <~ h_getitem [IAll; IAll; IAll; IAll; INew] log_p_v_tx ;;
  a <~ h_moveaxis a [0]%Z [1]%Z ;;
  b <~ h_getitem [IAll; INew; IAll; IAll; IAll] log_p_txz ;;
  h_bop nadd a b.
(** lines 569-596 *)
Definition h_p_tvxz (L : stats_lib) (self : hpar) : h_method := fun density light_weighted =>
  log_p_tvxz <~ h_tvxz_mw L self density ;;
  if light_weighted then
    log_P_mw <~ h_tvxz_mw L self false ;;
    lw <~ h_getitem [IAll; INew; INew; INew; IAll] (hq_light_weights (hp_cube self)) ;;
    log_lw <~ h_map nlog lw ;;
    log_P_lw <~ h_bop nadd log_P_mw log_lw ;;
    log_normalisation <~ h_lse_all log_P_lw ;;
    s <~ h_bop nadd log_p_tvxz log_lw ;;
    h_bop nsub s log_normalisation
  else ret log_p_tvxz.
(** lines 180-211 *)
Definition h_p_v_tx (L : stats_lib) (self : hpar) : h_method := fun density light_weighted =>
  if light_weighted then
    log_p_tvxz <~ h_p_tvxz L self false true ;;
    log_p_tvx <~ h_lse log_p_tvxz [-1]%Z ;;
    log_p_tx <~ h_lse log_p_tvx [1]%Z ;;
    b <~ h_getitem [IAll; INew; IAll; IAll] log_p_tx ;;
    d <~ h_bop nsub log_p_tvx b ;;
    lp <~ h_moveaxis d [0]%Z [1]%Z ;;
    h_sub_dv self density lp
  else h_v_tx_mw L self density.
(** lines 495-518 *)
Definition h_p_tvx (L : stats_lib) (self : hpar) : h_method := fun density light_weighted =>
  if light_weighted then
    lp <~ h_p_tvxz L self density true ;;
    lp <~ h_add_vol self "z" density lp ;;
    h_lse lp [-1]%Z
  else
    log_p_tx <~ h_tx_mw self density ;;
    log_p_v_tx <~ h_v_tx_mw L self density ;;
    a <~ h_getitem [IAll; INew; IAll; IAll] log_p_tx ;;
    b <~ h_moveaxis log_p_v_tx [0]%Z [1]%Z ;;
    h_bop nadd a b.
(** lines 432-449 *)
Definition h_p_tv (L : stats_lib) (self : hpar) : h_method := fun density light_weighted =>
  lp <~ h_p_tvx L self density light_weighted ;;
  lp <~ h_add_dxdy self density lp ;;
  h_lse lp [-1; -2]%Z.
(** lines 520-539 *)
Definition h_p_tvz (L : stats_lib) (self : hpar) : h_method := fun density light_weighted =>
  lp <~ h_p_tvxz L self density light_weighted ;;
  lp <~ h_add_dxdy self density lp ;;
  h_lse lp [2; 3]%Z.
(** lines 598-617 *)
Definition h_p_v (L : stats_lib) (self : hpar) : h_method := fun density light_weighted =>
  lp <~ h_p_tvx L self density light_weighted ;;
  lp <~ (if density then lp <~ h_add_log_dt self lp ;; h_add_dxdy self true lp else ret lp) ;;
  h_lse lp [0; 2; 3]%Z.
(** lines 619-637 *)
Definition h_p_vx (L : stats_lib) (self : hpar) : h_method := fun density light_weighted =>
  lp <~ h_p_tvx L self density light_weighted ;;
  lp <~ h_add_dt self density lp ;;
  h_lse lp [0]%Z.
(** lines 658-678 *)
Definition h_p_vxz (L : stats_lib) (self : hpar) : h_method := fun density light_weighted =>
  lp <~ h_p_tvxz L self density light_weighted ;;
  lp <~ h_add_dt self density lp ;;
  h_lse lp [0]%Z.
(** lines 639-656 *)
Definition h_p_vz (L : stats_lib) (self : hpar) : h_method := fun density light_weighted =>
  lp <~ h_p_vxz L self density light_weighted ;;
  lp <~ h_add_dxdy self density lp ;;
  h_lse lp [1; 2]%Z.
(** lines 680-704 *)
Definition h_p_x (self : hpar) : h_method := fun density light_weighted =>
  if light_weighted then
    lp <~ h_p_txz self density true ;;
    lp <~ (if density then
             ldtdz <~ h_log_vol self "tz" ;;
             ldtdz <~ h_getitem [IAll; INew; INew; IAll] ldtdz ;;
             h_iop nadd lp ldtdz
           else ret lp) ;;
    h_lse lp [0; 3]%Z
  else
    log_p_x_t <~ h_x_t_mw self density ;;
    log_P_t <~ h_t_mw self false ;;
    s <~ h_bop nadd log_p_x_t log_P_t ;;
    h_lse s [-1]%Z.
(** lines 706-724 *)
Definition h_p_xz (self : hpar) : h_method := fun density light_weighted =>
  lp <~ h_p_txz self density light_weighted ;;
  lp <~ h_add_dt self density lp ;;
  h_lse lp [0]%Z.
(** lines 726-744 *)
Definition h_p_z (self : hpar) : h_method := fun density light_weighted =>
  lp <~ h_p_tz self density light_weighted ;;
  lp <~ h_add_dt self density lp ;;
  h_lse lp [0]%Z.

(** the attributes "_get_log_p_*" *)
Definition h_par_table (L : stats_lib) (self : hpar) : string -> option h_method :=
  lookup
    [ ("t", h_p_t self); ("tv", h_p_tv L self); ("tx", h_p_tx self);
      ("tz", h_p_tz self); ("tvx", h_p_tvx L self); ("tvz", h_p_tvz L self);
      ("txz", h_p_txz self); ("tvxz", h_p_tvxz L self); ("v", h_p_v L self);
      ("vx", h_p_vx L self); ("vz", h_p_vz L self); ("vxz", h_p_vxz L self);
      ("x", h_p_x self); ("xz", h_p_xz self); ("z", h_p_z self);
      ("x_t", h_p_x_t self); ("v_tx", h_p_v_tx L self); ("z_tx", h_p_z_tx self) ].

(** get_log_p and get_p *)
Definition h_par_get_log_p (L : stats_lib) (self : hpar) := h_get_log_p_of (hp_cube self) (h_par_table L self).
Definition h_par_get_p (L : stats_lib) (self : hpar) := h_get_p_of (hp_cube self) (h_par_table L self).

(** get_mean("v_tx"): Component.get_mean (base.py lines 179-232) finds the method
    get_mean_v_tx, parametric.py lines 1133-1140, which returns self.mu_v *)
Definition h_get_mean_v_tx (self : hpar) : prog nda := lift (attr (hp_mu_v self)).
