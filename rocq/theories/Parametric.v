(** * Parametric: popkinmocks/components/parametric.py, except the moments
    (ParMoments.v) and evaluate_ybar (ParYbar.v).

    Attributes which setters create are [option]s: reading one that is not there
    raises AttributeError.  The attributes p_t, p_x_t and p_z_tx (exponentials of
    log_p_t, log_p_x_t and log_p_z_tx, never read by the package) and the
    dictionaries of parameters kept for the record are in Recs.v. *)
From Coq Require Import Reals List Bool Arith ZArith String Ascii.
From Verif Require Import Num Arr PyStr Cube Base.
Import ListNotations.
Local Open Scope string_scope.

(** The functions of scipy.stats which the code calls, as functions of standard
    arguments: the normal cdf at x, the beta(a,b) cdf at x in [0,1] and its
    inverse.  They are parameters; claims state what they assume of them. *)
Record stats_lib := StatsLib {
  norm_cdf : R -> R;
  beta_cdf : R -> R -> R -> R;
  beta_ppf : R -> R -> R -> R
}.

(** x ** y with a real exponent; a negative base gives nan (numpy agrees unless
    the exponent is an integer; the code only has bases >= 0) *)
Definition npowr (a b : num) : num :=
  match a, b with
  | NaN, Fin y => if Req_EM_T y 0 then Fin 1 else NaN
  | Fin x, Fin y =>
      if Rlt_dec 0 x then Fin (Rpower x y)
      else if Req_EM_T x 0 then
        (if Req_EM_T y 0 then Fin 1 else if Rlt_dec 0 y then Fin 0 else PInf)
      else NaN
  | PInf, Fin y => if Req_EM_T y 0 then Fin 1 else if Rlt_dec 0 y then PInf else Fin 0
  | _, _ => NaN
  end.

(** stats.norm(loc, scale).logcdf(x): nan unless the scale is positive.  An infinite
    location, for which scipy gives -inf or 0, is left out (nan here). *)
Definition norm_logcdf1 (L : stats_lib) (loc scale x : num) : num :=
  match loc, scale, x with
  | Fin m, Fin s, Fin x => if Rlt_dec 0 s then nlog (Fin (norm_cdf L ((x - m) / s))) else NaN
  | _, _, _ => NaN
  end.
(** the same on arrays which broadcast together *)
Definition norm_logcdf (L : stats_lib) (loc scale x : arr num) : res (arr num) :=
  ls <- bop pair loc scale ;;
  bop (fun x ls => norm_logcdf1 L (fst ls) (snd ls) x) x ls.

(** special.logsumexp(np.array([hi, lo]).T, -1, b=[1, -1]).T for equally shaped
    arrays: log(exp(hi) - exp(lo)) *)
Definition logdiffexp (hi lo : arr num) : res (arr num) :=
  bop (fun h l => lse_b [(h, Fin 1); (l, Fin (-1))]) hi lo.

(** self.z_t_interp_grid (the entries "z" and "t_dep") *)
Record z_grid := ZGrid { zg_z : arr num; zg_t_dep : arr num }.
(** self.t_pars (the entries "t_start", "t_end" and "delta_t") *)
Record t_pars := TPars { tp_start : num; tp_end : num; tp_delta : num }.

Record par := Par {
  pa_cube : cube;
  pa_xxp : arr num;
  pa_yyp : arr num;
  pa_zgrid : z_grid;
  pa_t_pars : option t_pars;
  pa_log_p_t : option (arr num);
  pa_log_p_x_t : option (arr num);
  pa_t_dep : option (arr num);
  pa_log_p_z_tx : option (arr num);
  pa_mu_v : option (arr num);
  pa_sig_v : option (arr num);
  pa_theta_lims : option (R * R)   (* of a Stream *)
}.

(** self.<attribute> *)
Definition attr {A} (o : option A) : res A := match o with Some a => Ok a | None => Err AttributeError end.

(** ** construction *)

(** np.interp(x, xp, fp) for [n] increasing points xp 0 < ... < xp (n-1) *)
Fixpoint last_le (xp : nat -> R) (x : R) (k : nat) : nat :=
  match k with O => O | S k' => if Rleb (xp k) x then k else last_le xp x k' end.
Definition np_interp (n : nat) (xp fp : nat -> R) (x : R) : R :=
  if Rltb x (xp O) then fp O
  else if Rltb (xp (n - 1)%nat) x then fp (n - 1)%nat
  else let j := last_le xp x (n - 1) in
       if Nat.eqb j (n - 1) then fp j
       else ((fp (S j) - fp j) / (xp (S j) - xp j) * (x - xp j) + fp j)%R.

(** lines 222-228 *)
Definition ahat : R := Rpower 10 (- (689 / 1000)).
Definition bhat : R := (1899 / 1000 - 1)%R.
Definition z_max : R := (Rpower ahat (- 1 / bhat) * (9999 / 10000))%R.
Definition n_grid : nat := 1000.
(** np.logspace(log10(0.1), log10(10), n), lines 230-231 *)
Definition grid_t_dep (n i : nat) : R := Rpower 10 (-1 + INR i * ((1 - -1) / INR (n - 1)))%R.
(** np.linspace(z_max, 0, n, n), lines 232-233 (the fourth argument is endpoint) *)
Definition grid_z (n i : nat) : R := (z_max + INR i * ((0 - z_max) / INR (n - 1)))%R.
(** zz ** bhat for zz >= 0 *)
Definition rpow (x y : R) : R := if Rlt_dec 0 x then Rpower x y else 0%R.
(** line 235 *)
Definition grid_t (t_H t_dep z : R) : R := (t_H - t_dep * z / (1 - ahat * rpow z bhat))%R.

(** get_z_interpolation_grid, lines 213-242, with its default arguments except
    for the number [n] of steps of both grids (1000) *)
Definition z_interpolation_grid (n : nat) (c : cube) : res z_grid :=
  t_H <- getitem [IInt (-1)] (par_edges_t (c_ssps c)) ;;
  let t_ssps := par_cents_t (c_ssps c) in
  Ok (ZGrid (Arr [n; len0 t_ssps] (fun idx => match idx with
        | [i; j] => match ent t_H [], ent t_ssps [j] with
                    | Fin h, Fin t => Fin (np_interp n (fun k => grid_t h (grid_t_dep n i) (grid_z n k)) (grid_z n) t)
                    | _, _ => NaN end
        | _ => NaN end))
      (Arr [n] (fun idx => match idx with [i] => Fin (grid_t_dep n i) | _ => NaN end))).

(** __init__, lines 35-46.  np.einsum("kl,ijk", rot, xxyy) has entries
    sum_k rot[k,l] * xxyy[i,j,k] with rot = [[cos, sin], [-sin, cos]]. *)
Definition par_init (c : cube) (center : R * R) (rotation : R) : res par :=
  let costh := Fin (cos rotation) in
  let sinth := Fin (sin rotation) in
  x <- bop nsub (c_xx c) (scal (Fin (fst center))) ;;
  y <- bop nsub (c_yy c) (scal (Fin (snd center))) ;;
  xxp <- bop (fun x y => nadd (nmul costh x) (nmul (nneg sinth) y)) x y ;;
  yyp <- bop (fun x y => nadd (nmul sinth x) (nmul costh y)) x y ;;
  zg <- z_interpolation_grid n_grid c ;;
  Ok (Par c xxp yyp zg None None None None None None None None).

(** linear_interpolate_t, lines 63-81 *)
Definition linear_interpolate_t (self : par) (f_end f_start : num) : res (arr num) :=
  let t := par_cents_t (c_ssps (pa_cube self)) in
  p <- attr (pa_t_pars self) ;;
  let delta_f := nsub f_start f_end in
  Ok (amap (fun t =>
    if nlt (tp_end p) t then f_start
    else if nlt t (tp_start p) then f_end
    else nadd f_end (nmul (ndiv delta_f (tp_delta p)) (nsub t (tp_start p)))) t).

(** stats.beta(a, b, loc, scale).logcdf(x) and .ppf(q) *)
Definition beta_ok (a b : R) (scale : num) : bool :=
  (Rltb 0 a && Rltb 0 b && nlt (Fin 0) scale)%bool.
Definition beta_logcdf (L : stats_lib) (a b : R) (loc scale x : num) : num :=
  if beta_ok a b scale then
    match loc, scale, x with
    | Fin l, Fin s, Fin x => nlog (Fin (beta_cdf L a b ((x - l) / s)))
    | _, _, _ => NaN
    end
  else NaN.
Definition beta_ppf_ (L : stats_lib) (a b : R) (loc scale : num) (q : R) : num :=
  if (beta_ok a b scale && Rleb 0 q && Rleb q 1)%bool
  then nadd (nmul (Fin (beta_ppf L a b q)) scale) loc else NaN.

(** get_beta_a_b_from_lmd_phi and set_p_t, lines 48-61 and 83-126 (np.digitize, whose result is only recorded, is in Recs.v) *)
Definition set_p_t (L : stats_lib) (self : par) (lmd phi : R) (cdf_start_end : R * R) : res par :=
  let c := pa_cube self in
  let a := (lmd * phi)%R in
  let b := (lmd * (1 - phi))%R in
  if negb (Rltb 1 a || Rltb 1 b) then Err ValueError else
  let edges := par_edges_t (c_ssps c) in
  e0 <- getitem [IInt 0] edges ;;
  e1 <- getitem [IInt (-1)] edges ;;
  let age_loc := ent e0 [] in
  let age_scale := nsub (ent e1 []) (ent e0 []) in
  let t_start := beta_ppf_ L a b age_loc age_scale (fst cdf_start_end) in
  let t_end := beta_ppf_ L a b age_loc age_scale (snd cdf_start_end) in
  let log_cdf_t := amap (beta_logcdf L a b age_loc age_scale) edges in
  tmp <- logdiffexp (tail0 log_cdf_t) (init0 log_cdf_t) ;;
  dt <- construct_volume_element c "t" ;;
  log_p_t <- bop nsub tmp (amap nlog dt) ;;
  Ok (Par c (pa_xxp self) (pa_yyp self) (pa_zgrid self)
        (Some (TPars t_start t_end (nsub t_end t_start))) (Some log_p_t)
        (pa_log_p_x_t self) (pa_t_dep self) (pa_log_p_z_tx self) (pa_mu_v self) (pa_sig_v self)
        (pa_theta_lims self)).

(** np.argmin of a list: the first smallest entry, nan counting as smallest *)
Fixpoint argmin_from (best : num) (bi i : nat) (l : list num) : nat :=
  match l with
  | [] => bi
  | a :: l' => if is_nan best then bi
               else if (is_nan a || nlt a best)%bool then argmin_from a i (S i) l'
               else argmin_from best bi (S i) l'
  end.
Definition argmin (l : list num) : nat :=
  match l with [] => O | a :: l' => argmin_from a 0 1 l' end.

(** lines 262-264 for one pixel: the index of the tabulated depletion time *)
Definition idx_t_dep (zg : z_grid) (t_dep : num) : nat :=
  argmin (map (fun a => nabs (nsub t_dep a)) (to_list (zg_t_dep zg))).

(** evaluate_chemical_enrichment_model_base, lines 254-281: log p(z|t,x).  A map
    of depletion times that is not of the shape of the image is ValueError. *)
Definition enrichment_base (L : stats_lib) (self : par) (t_dep : arr num) : res (arr num) :=
  let c := pa_cube self in
  let zg := pa_zgrid self in
  if negb (natlist_eqb (shp t_dep) [c_nx c; c_ny c]) then Err ValueError else
  let z_mu := Arr (nth 1 (shp (zg_z zg)) O :: shp t_dep)
                  (fun idx => match idx with
                              | [t; x; y] => ent (zg_z zg) [idx_t_dep zg (ent t_dep [x; y]); t]
                              | _ => NaN end) in
  let z_sig2 := amap (fun z => nmul (Fin ahat) (npowr z (Fin bhat))) z_mu in
  let lin_z_edg := amap (fun e => npowr (Fin 10) e) (par_edges_z (c_ssps c)) in
  lin_z_edg <- getitem [IAll; INew; INew; INew] lin_z_edg ;;
  log_cdf <- norm_logcdf L z_mu (amap nsqrt z_sig2) lin_z_edg ;;
  tmp <- logdiffexp (tail0 log_cdf) (init0 log_cdf) ;;
  dz <- construct_volume_element c "z" ;;
  w <- bop nadd (T tmp) (amap nlog dz) ;;
  log_norm <- logsumexp w [-1]%Z ;;
  bop nsub tmp (T log_norm).

(** set_p_z_tx, lines 283-293, called at the end of every set_t_dep with the
    new map of depletion times *)
Definition set_p_z_tx (L : stats_lib) (self : par) (t_dep : arr num) : res par :=
  log_p_z_tx <- enrichment_base L self t_dep ;;
  Ok (Par (pa_cube self) (pa_xxp self) (pa_yyp self) (pa_zgrid self) (pa_t_pars self) (pa_log_p_t self)
        (pa_log_p_x_t self) (Some t_dep) (Some log_p_z_tx) (pa_mu_v self) (pa_sig_v self)
        (pa_theta_lims self)).

(** evaluate_chemical_enrichment_model, lines 295-307 *)
Definition enrichment_model (L : stats_lib) (self : par) (t_dep : R) : res (arr num) :=
  log_p <- enrichment_base L self (full [c_nx (pa_cube self); c_ny (pa_cube self)] (Fin t_dep)) ;;
  getitem [IAll; IAll; IInt 0; IInt 0] (amap nexp log_p).

(** what the final assignments of the subclasses' setters do *)
Definition put_log_p_x_t (self : par) (a : arr num) : par :=
  Par (pa_cube self) (pa_xxp self) (pa_yyp self) (pa_zgrid self) (pa_t_pars self) (pa_log_p_t self)
      (Some a) (pa_t_dep self) (pa_log_p_z_tx self) (pa_mu_v self) (pa_sig_v self) (pa_theta_lims self).
Definition put_mu_v (self : par) (a : arr num) : par :=
  Par (pa_cube self) (pa_xxp self) (pa_yyp self) (pa_zgrid self) (pa_t_pars self) (pa_log_p_t self)
      (pa_log_p_x_t self) (pa_t_dep self) (pa_log_p_z_tx self) (Some a) (pa_sig_v self) (pa_theta_lims self).
Definition put_sig_v (self : par) (a : arr num) : par :=
  Par (pa_cube self) (pa_xxp self) (pa_yyp self) (pa_zgrid self) (pa_t_pars self) (pa_log_p_t self)
      (pa_log_p_x_t self) (pa_t_dep self) (pa_log_p_z_tx self) (pa_mu_v self) (Some a) (pa_theta_lims self).
Definition put_theta_lims (self : par) (th : R * R) : par :=
  Par (pa_cube self) (pa_xxp self) (pa_yyp self) (pa_zgrid self) (pa_t_pars self) (pa_log_p_t self)
      (pa_log_p_x_t self) (pa_t_dep self) (pa_log_p_z_tx self) (pa_mu_v self) (pa_sig_v self) (Some th).

(** ** distributions: the methods "_get_log_p_<key>"

    The mutual recursion of the Python methods is unrolled: a method called with
    light_weighted=False never calls one with light_weighted=True.  In-place
    additions act on arrays made by the same call (Heap.v). *)

(** np.log(self.cube.construct_volume_element(s)) *)
Definition log_vol (self : par) (s : string) : res (arr num) :=
  v <- construct_volume_element (pa_cube self) s ;; Ok (amap nlog v).
(** np.log(self.cube.dx) + np.log(self.cube.dy) *)
Definition log_dxdy (self : par) : arr num :=
  scal (nadd (nlog (c_dx (pa_cube self))) (nlog (c_dy (pa_cube self)))).

(** _get_log_p_x_t with light_weighted=False, lines 151-152 and 160-162 *)
Definition x_t_mw (self : par) (density : bool) : res (arr num) :=
  lp <- attr (pa_log_p_x_t self) ;;
  if density then Ok lp else iop nadd lp (log_dxdy self).

(** _get_log_p_t with light_weighted=False, lines 422-423 and 428-430 *)
Definition t_mw (self : par) (density : bool) : res (arr num) :=
  lp <- attr (pa_log_p_t self) ;;
  if density then Ok lp else ldt <- log_vol self "t" ;; iop nadd lp ldt.

(** _get_log_p_tx with light_weighted=False, lines 464-468 *)
Definition tx_mw (self : par) (density : bool) : res (arr num) :=
  log_p_x_t <- x_t_mw self density ;;
  log_p_t <- t_mw self density ;;
  lp <- bop nadd log_p_x_t log_p_t ;;
  moveaxis lp [-1]%Z [0]%Z.

(** _get_log_p_z_tx with light_weighted=False, lines 322-323 and 330-333 *)
Definition z_tx_mw (self : par) (density : bool) : res (arr num) :=
  lp <- attr (pa_log_p_z_tx self) ;;
  if density then Ok lp
  else ldz <- log_vol self "z" ;; r <- bop nadd (T lp) ldz ;; Ok (T r).

(** _get_log_p_txz with light_weighted=False, lines 554-557 *)
Definition txz_mw (self : par) (density : bool) : res (arr num) :=
  log_p_tx <- tx_mw self density ;;
  log_p_z_tx <- z_tx_mw self density ;;
  a <- getitem [IAll; IAll; IAll; INew] log_p_tx ;;
  b <- moveaxis log_p_z_tx [0]%Z [-1]%Z ;;
  bop nadd a b.

(** _get_log_p_txz, lines 541-567 *)
Definition p_txz (self : par) : log_p_method := fun density light_weighted =>
  log_p_txz <- txz_mw self density ;;
  if light_weighted then
    log_P_mw <- txz_mw self false ;;
    lw <- getitem [IAll; INew; INew; IAll] (light_weights (c_ssps (pa_cube self))) ;;
    let log_lw := amap nlog lw in
    log_P_lw <- bop nadd log_P_mw log_lw ;;
    log_normalisation <- logsumexp_all log_P_lw ;;
    s <- bop nadd log_p_txz log_lw ;;
    bop nsub s log_normalisation
  else Ok log_p_txz.

(** _get_log_p_tz, lines 476-493 *)
Definition p_tz (self : par) : log_p_method := fun density light_weighted =>
  lp <- p_txz self density light_weighted ;;
  lp <- (if density then iop nadd lp (log_dxdy self) else Ok lp) ;;
  logsumexp lp [1; 2]%Z.

(** _get_log_p_t, lines 409-430 *)
Definition p_t (self : par) : log_p_method := fun density light_weighted =>
  if light_weighted then
    log_p_tz <- p_tz self true true ;;
    ldz <- log_vol self "z" ;;
    s <- bop nadd log_p_tz ldz ;;
    lp <- logsumexp s [1]%Z ;;
    if density then Ok lp else ldt <- log_vol self "t" ;; iop nadd lp ldt
  else t_mw self density.

(** _get_log_p_x_t, lines 138-162 *)
Definition p_x_t (self : par) : log_p_method := fun density light_weighted =>
  if light_weighted then
    log_p_txz <- p_txz self true true ;;
    ldz <- log_vol self "z" ;;
    s <- bop nadd log_p_txz ldz ;;
    log_p_tx <- logsumexp s [-1]%Z ;;
    log_p_t <- p_t self true true ;;
    d <- bop nsub (T log_p_tx) log_p_t ;;
    lp <- moveaxis (T d) [0]%Z [-1]%Z ;;
    if density then Ok lp else iop nadd lp (log_dxdy self)
  else x_t_mw self density.

(** _get_log_p_tx, lines 451-474 *)
Definition p_tx (self : par) : log_p_method := fun density light_weighted =>
  if light_weighted then
    lp <- p_txz self density true ;;
    lp <- (if density then ldz <- log_vol self "z" ;; iop nadd lp ldz else Ok lp) ;;
    logsumexp lp [-1]%Z
  else tx_mw self density.

(** _get_log_p_z_tx, lines 309-333 *)
Definition p_z_tx (self : par) : log_p_method := fun density light_weighted =>
  if light_weighted then
    log_p_txz <- p_txz self true true ;;
    ldz <- log_vol self "z" ;;
    s <- bop nadd log_p_txz ldz ;;
    log_p_tx <- logsumexp s [-1]%Z ;;
    d <- bop nsub (T log_p_txz) (T log_p_tx) ;;
    lp <- moveaxis (T d) [-1]%Z [0]%Z ;;
    if density then Ok lp
    else ldz <- log_vol self "z" ;; r <- bop nadd (T lp) ldz ;; Ok (T r)
  else z_tx_mw self density.

(** _get_log_p_v_tx with light_weighted=False, lines 193-200 and 208-211 *)
Definition v_tx_mw (L : stats_lib) (self : par) (density : bool) : res (arr num) :=
  v_edg <- getitem [IAll; INew; INew; INew] (c_v_edg (pa_cube self)) ;;
  mu <- attr (pa_mu_v self) ;;
  sig <- attr (pa_sig_v self) ;;
  log_cdf_0 <- norm_logcdf L mu sig (init0 v_edg) ;;
  log_cdf_1 <- norm_logcdf L mu sig (tail0 v_edg) ;;
  lp <- logdiffexp log_cdf_1 log_cdf_0 ;;
  if density then ldv <- log_vol self "v" ;; r <- bop nsub (T lp) ldv ;; Ok (T r) else Ok lp.

(** _get_log_p_tvxz with light_weighted=False, lines 582-586 *)
Definition tvxz_mw (L : stats_lib) (self : par) (density : bool) : res (arr num) :=
  log_p_txz <- txz_mw self density ;;
  log_p_v_tx <- v_tx_mw L self density ;;
  a <- getitem [IAll; IAll; IAll; IAll; INew] log_p_v_tx ;;
  a <- moveaxis a [0]%Z [1]%Z ;;
  b <- getitem [IAll; INew; IAll; IAll; IAll] log_p_txz ;;
  bop nadd a b.

(** _get_log_p_tvxz, lines 569-596 *)
Definition p_tvxz (L : stats_lib) (self : par) : log_p_method := fun density light_weighted =>
  log_p_tvxz <- tvxz_mw L self density ;;
  if light_weighted then
    log_P_mw <- tvxz_mw L self false ;;
    lw <- getitem [IAll; INew; INew; INew; IAll] (light_weights (c_ssps (pa_cube self))) ;;
    let log_lw := amap nlog lw in
    log_P_lw <- bop nadd log_P_mw log_lw ;;
    log_normalisation <- logsumexp_all log_P_lw ;;
    s <- bop nadd log_p_tvxz log_lw ;;
    bop nsub s log_normalisation
  else Ok log_p_tvxz.

(** _get_log_p_v_tx, lines 180-211 *)
Definition p_v_tx (L : stats_lib) (self : par) : log_p_method := fun density light_weighted =>
  if light_weighted then
    log_p_tvxz <- p_tvxz L self false true ;;
    log_p_tvx <- logsumexp log_p_tvxz [-1]%Z ;;
    log_p_tx <- logsumexp log_p_tvx [1]%Z ;;
    b <- getitem [IAll; INew; IAll; IAll] log_p_tx ;;
    d <- bop nsub log_p_tvx b ;;
    lp <- moveaxis d [0]%Z [1]%Z ;;
    if density then ldv <- log_vol self "v" ;; r <- bop nsub (T lp) ldv ;; Ok (T r) else Ok lp
  else v_tx_mw L self density.

(** _get_log_p_tvx, lines 495-518 *)
Definition p_tvx (L : stats_lib) (self : par) : log_p_method := fun density light_weighted =>
  if light_weighted then
    lp <- p_tvxz L self density true ;;
    lp <- (if density then ldz <- log_vol self "z" ;; iop nadd lp ldz else Ok lp) ;;
    logsumexp lp [-1]%Z
  else
    log_p_tx <- tx_mw self density ;;
    log_p_v_tx <- v_tx_mw L self density ;;
    a <- getitem [IAll; INew; IAll; IAll] log_p_tx ;;
    b <- moveaxis log_p_v_tx [0]%Z [1]%Z ;;
    bop nadd a b.

(** _get_log_p_tv, lines 432-449 *)
Definition p_tv (L : stats_lib) (self : par) : log_p_method := fun density light_weighted =>
  lp <- p_tvx L self density light_weighted ;;
  lp <- (if density then iop nadd lp (log_dxdy self) else Ok lp) ;;
  logsumexp lp [-1; -2]%Z.

(** _get_log_p_tvz, lines 520-539 *)
Definition p_tvz (L : stats_lib) (self : par) : log_p_method := fun density light_weighted =>
  lp <- p_tvxz L self density light_weighted ;;
  lp <- (if density then iop nadd lp (log_dxdy self) else Ok lp) ;;
  logsumexp lp [2; 3]%Z.

(** (log_p.T + np.log(self.cube.construct_volume_element("t"))).T *)
Definition add_log_dt (self : par) (lp : arr num) : res (arr num) :=
  ldt <- log_vol self "t" ;; r <- bop nadd (T lp) ldt ;; Ok (T r).

(** _get_log_p_v, lines 598-617 *)
Definition p_v (L : stats_lib) (self : par) : log_p_method := fun density light_weighted =>
  lp <- p_tvx L self density light_weighted ;;
  lp <- (if density then lp <- add_log_dt self lp ;; iop nadd lp (log_dxdy self) else Ok lp) ;;
  logsumexp lp [0; 2; 3]%Z.

(** _get_log_p_vx, lines 619-637 *)
Definition p_vx (L : stats_lib) (self : par) : log_p_method := fun density light_weighted =>
  lp <- p_tvx L self density light_weighted ;;
  lp <- (if density then add_log_dt self lp else Ok lp) ;;
  logsumexp lp [0]%Z.

(** _get_log_p_vxz, lines 658-678 *)
Definition p_vxz (L : stats_lib) (self : par) : log_p_method := fun density light_weighted =>
  lp <- p_tvxz L self density light_weighted ;;
  lp <- (if density then add_log_dt self lp else Ok lp) ;;
  logsumexp lp [0]%Z.

(** _get_log_p_vz, lines 639-656 *)
Definition p_vz (L : stats_lib) (self : par) : log_p_method := fun density light_weighted =>
  lp <- p_vxz L self density light_weighted ;;
  lp <- (if density then iop nadd lp (log_dxdy self) else Ok lp) ;;
  logsumexp lp [1; 2]%Z.

(** _get_log_p_x, lines 680-704 *)
Definition p_x (self : par) : log_p_method := fun density light_weighted =>
  if light_weighted then
    lp <- p_txz self density true ;;
    lp <- (if density then
             ldtdz <- log_vol self "tz" ;;
             ldtdz <- getitem [IAll; INew; INew; IAll] ldtdz ;;
             iop nadd lp ldtdz
           else Ok lp) ;;
    logsumexp lp [0; 3]%Z
  else
    log_p_x_t <- x_t_mw self density ;;
    log_P_t <- t_mw self false ;;
    s <- bop nadd log_p_x_t log_P_t ;;
    logsumexp s [-1]%Z.

(** _get_log_p_xz, lines 706-724 *)
Definition p_xz (self : par) : log_p_method := fun density light_weighted =>
  lp <- p_txz self density light_weighted ;;
  lp <- (if density then add_log_dt self lp else Ok lp) ;;
  logsumexp lp [0]%Z.

(** _get_log_p_z, lines 726-744 *)
Definition p_z (self : par) : log_p_method := fun density light_weighted =>
  lp <- p_tz self density light_weighted ;;
  lp <- (if density then add_log_dt self lp else Ok lp) ;;
  logsumexp lp [0]%Z.

(** the attributes "_get_log_p_*" of a parametric component: the 15 marginals,
    which all override those of Component, and three conditionals *)
Definition par_table (L : stats_lib) (self : par) : log_p_table :=
  lookup
    [ ("t", p_t self); ("tv", p_tv L self); ("tx", p_tx self);
      ("tz", p_tz self); ("tvx", p_tvx L self); ("tvz", p_tvz L self);
      ("txz", p_txz self); ("tvxz", p_tvxz L self); ("v", p_v L self);
      ("vx", p_vx L self); ("vz", p_vz L self); ("vxz", p_vxz L self);
      ("x", p_x self); ("xz", p_xz self); ("z", p_z self);
      ("x_t", p_x_t self); ("v_tx", p_v_tx L self); ("z_tx", p_z_tx self) ].

(** get_log_p and get_p inherited from Component (base.py lines 33-177) *)
Definition par_get_log_p (L : stats_lib) (self : par) := get_log_p_of (pa_cube self) (par_table L self).
Definition par_get_p (L : stats_lib) (self : par) := get_p_of (pa_cube self) (par_table L self).
