(** * Ssps: model of popkinmocks/model_grids.py (class milesSSPs and the parts of
    modelGrid it inherits).

    Simplifications: finite numbers are exact reals; the rebin factors are
    natural numbers; the attributes that only hold text (par_string,
    par_pltsym), the unused par_lims and the all-False par_mask are omitted;
    [modelGrid.__init__] is never used by the package and not modelled. *)
From Coq Require Import Reals List Bool Arith ZArith String.
From Verif Require Import Num Arr PyStr Cube ReadMiles Fft.
Import ListNotations.
Local Open Scope R_scope.

(** ** numpy helpers *)
(** np.isclose with the default tolerances *)
Definition isclose (a b : num) : bool :=
  match a, b with
  | Fin x, Fin y => Rleb (Rabs (x - y)) (1 / 100000000 + 1 / 100000 * Rabs y)
  | PInf, PInf | NInf, NInf => true
  | _, _ => false
  end.
(** np.allclose *)
Definition allclose (a b : arr num) : res bool :=
  c <- bop isclose a b ;; Ok (forallb (ent c) (all_idx (shp c))).

(** a[0], a[-1] of a 1-d array as scalars *)
Definition first (a : arr num) : res num := b <- getitem [IInt 0] a ;; Ok (ent b []).
Definition last_ (a : arr num) : res num := b <- getitem [IInt (-1)] a ;; Ok (ent b []).
(** a[::k] along the only axis *)
Definition stride0 (k : nat) (a : arr num) : res (arr num) :=
  match k with
  | O => Err ValueError
  | _ => Ok (Arr [stride_len (len0 a) k]
                 (fun idx => match idx with [i] => ent a [(i * k)%nat] | _ => NaN end))
  end.

(** np.interp(x, xp, fp) for increasing xp: constant outside, linear between
    knots.  (numpy finds the interval by bisection.) *)
Fixpoint interp_aux (x : R) (xp fp : list R) : R :=
  match xp, fp with
  | x0 :: ((x1 :: _) as xs), f0 :: ((f1 :: _) as fs) =>
      if Rltb x x1 then f0 + (x - x0) * ((f1 - f0) / (x1 - x0)) else interp_aux x xs fs
  | _ :: _, f0 :: _ => f0
  | _, _ => 0
  end.
Definition interp (x : R) (xp fp : list R) : R :=
  match xp, fp with
  | x0 :: _, f0 :: _ => if Rltb x x0 then f0 else interp_aux x xp fp
  | _, _ => 0
  end.

(** the real entries of a 1-d array (all arrays it is used on are finite) *)
Definition reals (a : arr num) : list R :=
  map (fun v => match v with Fin x => x | _ => 0 end) (to_list a).

(** ** the object *)
Record mgrid := MGrid {
  g_n : nat;
  g_lmd : list R;
  g_edges_z : arr num;  g_edges_t : arr num;    (* par_edges *)
  g_cents_z : arr num;  g_cents_t : arr num;    (* par_cents *)
  g_dims : nat * nat;                           (* par_dims = (nz, nt) *)
  g_par_idx : list (nat * nat);                 (* columns of par_idx *)
  g_p : nat;
  g_delta_z : arr num;  g_delta_t : arr num;
  g_X : arr num;
  g_t_ticks : list R;  g_z_ticks : list R;
  g_img_t_ticks : list R;  g_img_z_ticks : list R
}.

(** _get_par_edge_lims, lines 185-195 *)
Definition get_par_edge_lims (x_cnt : arr num) : res (arr num) :=
  dx <- bop nsub (tail0 x_cnt) (init0 x_cnt) ;;
  x_edg_lo <- bop nsub (tail0 x_cnt) (halve dx) ;;
  x_edg_hi <- bop nadd (init0 x_cnt) (halve dx) ;;
  x0 <- first x_cnt ;;
  d0 <- first dx ;;
  x_edg_lo <- concat0 (arr1 [nsub x0 (ndiv d0 (Fin 2))] NaN) x_edg_lo ;;
  xl <- last_ x_cnt ;;
  dl <- last_ dx ;;
  x_edg_hi <- concat0 x_edg_hi (arr1 [nadd xl (ndiv dl (Fin 2))] NaN) ;;
  ok <- allclose (tail0 x_edg_lo) (init0 x_edg_hi) ;;
  _ <- py_assert ok ;;
  l0 <- first x_edg_lo ;;
  let x_edg_lo :=
    if nlt (nabs l0) (Fin 0.011)
    then Arr (shp x_edg_lo) (fun idx => match idx with [O] => Fin 0 | _ => ent x_edg_lo idx end)
    else x_edg_lo in
  hl <- last_ x_edg_hi ;;
  concat0 x_edg_lo (arr1 [hl] NaN).

(** edges[1:] - edges[:-1] and (edges[:-1] + edges[1:]) / 2., lines 53-54, 136-139 and 146-152 *)
Definition diffs (e : arr num) : res (arr num) := bop nsub (tail0 e) (init0 e).
Definition mids (e : arr num) : res (arr num) := s <- bop nadd (tail0 e) (init0 e) ;; Ok (halve s).

(** the flattened meshgrid of index pairs, indexing="ij", lines 55-66 *)
Definition index_table (nz nt : nat) : list (nat * nat) :=
  flat_map (fun i => map (fun j => (i, j)) (seq 0 nt)) (seq 0 nz).

(** set_tick_positions, lines 197-238; [None] means the argument is None, and
    [old] is the stored attribute if the object already has it *)
Definition kept_ticks (req old : option (list R)) (dflt : list R) (lims : arr num) : res (list R) :=
  let ticks := match req, old with
               | Some t, _ => t
               | None, Some t => t
               | None, None => dflt
               end in
  lo <- first lims ;;
  hi <- last_ lims ;;
  Ok (filter (fun x => nlt lo (Fin x) && nlt (Fin x) hi)%bool ticks).
(** positions in image units, lines 235-238 *)
Definition img_ticks (ticks : list R) (edges : arr num) (n : nat) : list R :=
  map (fun x => interp x (reals edges) (reals (linspace 0 1 (n + 1)))) ticks.
Definition set_tick_positions (g : mgrid) (t_ticks z_ticks : option (list R)) : res mgrid :=
  tt <- kept_ticks t_ticks (Some (g_t_ticks g)) [0.1; 1; 5; 13] (g_edges_t g) ;;
  zt <- kept_ticks z_ticks (Some (g_z_ticks g)) [-2; -1; 0] (g_edges_z g) ;;
  Ok (MGrid (g_n g) (g_lmd g) (g_edges_z g) (g_edges_t g) (g_cents_z g) (g_cents_t g) (g_dims g)
        (g_par_idx g) (g_p g) (g_delta_z g) (g_delta_t g) (g_X g) tt zt
        (img_ticks tt (g_edges_t g) (snd (g_dims g))) (img_ticks zt (g_edges_z g) (fst (g_dims g)))).

(** new edges of _rebin_par_grid, lines 143-150 *)
Definition rebin_edges (k : nat) (edges : arr num) : res (arr num) :=
  e <- stride0 k edges ;;
  a <- last_ e ;;
  b <- last_ edges ;;
  if negb (neqb a b) then concat0 e (arr1 [b] NaN) else Ok e.

(** slice(k*i, None if the new upper edge is the last old edge else k*(i+1)) of
    an axis of length n, as the list of its indices, lines 163-174 *)
Definition bin_slice (k n i : nat) (new_edges old_edges : arr num) : res (list nat) :=
  b <- last_ old_edges ;;
  let stop := if neqb (ent new_edges [S i]) b then n else Nat.min n (S i * k) in
  Ok (seq (i * k) (stop - i * k)).

(** X.reshape((-1, nz, nt)), line 156: the first dimension is inferred *)
Definition reshape3 (x : arr num) (nz nt : nat) : res (arr num) :=
  let size := size_of (shp x) in
  if Nat.eqb (nz * nt) 0 then Err ValueError
  else if Nat.eqb (size mod (nz * nt)) 0
       then reshape x [(size / (nz * nt))%nat; nz; nt] else Err ValueError.

(** _rebin_par_grid, lines 142-183.  Slicing all of (z_slc, t_slc) and summing is
    a sum over the listed indices. *)
Definition rebin_par_grid (age_rebin z_rebin : nat) (g : mgrid) : res mgrid :=
  new_z <- rebin_edges z_rebin (g_edges_z g) ;;
  new_zc <- mids new_z ;;
  new_dz <- diffs new_z ;;
  new_t <- rebin_edges age_rebin (g_edges_t g) ;;
  new_tc <- mids new_t ;;
  new_dt <- diffs new_t ;;
  let nz' := len0 new_zc in
  let nt' := len0 new_tc in
  X <- reshape3 (g_X g) (fst (g_dims g)) (snd (g_dims g)) ;;
  dz <- getitem [IAll; INew] (g_delta_z g) ;;
  dt <- getitem [INew; IAll] (g_delta_t g) ;;
  dzdt <- bop nmul dz dt ;;
  Xdzdt <- bop nmul X dzdt ;;
  zs <- map_res (fun i => bin_slice z_rebin (nth 1 (shp Xdzdt) O) i new_z (g_edges_z g)) (seq 0 nz') ;;
  ts <- map_res (fun j => bin_slice age_rebin (nth 2 (shp Xdzdt) O) j new_t (g_edges_t g)) (seq 0 nt') ;;
  let new_X := Arr [len0 X; nz'; nt'] (fun idx => match idx with
    | [l; i; j] =>
        ndiv (nsum (flat_map (fun a => map (fun b => ent Xdzdt [l; a; b]) (nth j ts [])) (nth i zs [])))
             (nsum (flat_map (fun a => map (fun b => ent dzdt [a; b]) (nth j ts [])) (nth i zs [])))
    | _ => NaN
    end) in
  new_X <- reshape new_X [len0 X; (nz' * nt')%nat] ;;
  Ok (MGrid (g_n g) (g_lmd g) new_z new_t new_zc new_tc (nz', nt') (g_par_idx g) (g_p g)
        new_dz new_dt new_X (g_t_ticks g) (g_z_ticks g) (g_img_t_ticks g) (g_img_z_ticks g)).

(** milesSSPs.__init__ after truncation, lines 109-139 (with _check_par_input 26-39 and _get_par_grid 41-79), up to rebinning *)
Definition grid_of_templates (s : miles) : res mgrid :=
  x <- get_X s ;;
  _ <- item (lmd s) 0 ;;                               (* ssps.lmd[0], ssps.lmd[-1] *)
  t_edg <- get_par_edge_lims (arr1 (map Fin (t_unq s)) NaN) ;;
  z_edg <- get_par_edge_lims (arr1 (map Fin (z_unq s)) NaN) ;;
  if Z.ltb 100000 (Z.of_nat (m_nz s) * Z.of_nat (m_nt s)) then Err ValueError     (* _check_par_input *)
  else
    zc <- mids z_edg ;;
    tc <- mids t_edg ;;
    dz <- diffs z_edg ;;
    dt <- diffs t_edg ;;
    (* boolean indexing of the (2, nz*nt) tables by a mask of length prod(par_dims) *)
    if negb (Nat.eqb (len0 zc * len0 tc) (m_nz s * m_nt s)) then Err IndexError
    else
      tt <- kept_ticks None None [0.1; 1; 5; 13] t_edg ;;
      zt <- kept_ticks None None [-2; -1; 0] z_edg ;;
      Ok (MGrid (len0 x) (lmd s) z_edg t_edg zc tc (m_nz s, m_nt s) (index_table (len0 zc) (len0 tc))
            (len0 zc * len0 tc) dz dt x tt zt (img_ticks tt t_edg (m_nt s)) (img_ticks zt z_edg (m_nz s))).

(** milesSSPs.__init__, lines 98-140 *)
Definition miles_ssps (d : disk) (lmd_min lmd_max : option R) (age_lim z_lim : option (R * R))
    (age_rebin z_rebin : nat) : disk * res mgrid :=
  let '(d', r) := init d (Some "MILES_BASTI_CH_baseFe"%string) age_lim z_lim 1 1 in
  (d', s <- r ;; s <- truncate_wavelengths s lmd_min lmd_max ;;
       g <- grid_of_templates s ;; rebin_par_grid age_rebin z_rebin g).

(** get_light_weights, lines 283-293 *)
Definition get_light_weights (g : mgrid) : res (arr num) :=
  s <- asum [0%Z] (g_X g) ;;
  s <- reshape s [fst (g_dims g); snd (g_dims g)] ;;
  Ok (T s).

(** get_ssp, lines 295-313 (spacing = "wavelength" or "log-wavelength"; [xw] is
    self.Xw); [ssp_id] >= 0 *)
Definition get_ssp (g : mgrid) (xw : arr num) (ssp_id : nat) (spacing : string) : res (num * num * arr num) :=
  zt <- item (g_par_idx g) ssp_id ;;
  z <- getitem [IInt (Z.of_nat (fst zt))] (g_cents_z g) ;;
  t <- getitem [IInt (Z.of_nat (snd zt))] (g_cents_t g) ;;
  sp <- (if String.eqb spacing "wavelength" then getitem [IAll; IInt (Z.of_nat ssp_id)] (g_X g)
         else if String.eqb spacing "log-wavelength" then getitem [IAll; IInt (Z.of_nat ssp_id)] xw
         else Err ValueError) ;;
  Ok (ent t [], ent z [], sp).

(** _logarithmically_resample, lines 240-261, and _calculate_fourier_transform
    with pad=False, lines 263-281, and get_light_weights, as called by IFUCube
    (ifu_cube.py lines 48-50).  [spline knots values w] stands for
    interp1d(kind="cubic") evaluated at w, which needs at least four knots; all w
    lie within the knots, so the fill value is not used.  Wavelengths are positive, so np.log is ln. *)
Definition speed_of_light : R := 299792.
Definition resample (spline : list R -> list num -> R -> num) (dv : R) (g : mgrid) : res ssps :=
  let dw := dv / speed_of_light in
  let w_in := map ln (g_lmd g) in
  lo <- np_min w_in ;;
  hi <- np_max w_in ;;
  if Nat.ltb (List.length w_in) 4 then Err ValueError
  else if Reqb dw 0 then Err ZeroDivisionError
  else
    let w := arange lo hi dw in
    let xw := Arr [List.length w; len0 (T (g_X g))] (fun idx => match idx with
      | [i; j] => spline w_in (map (fun k => ent (g_X g) [k; j]) (seq 0 (len0 (g_X g)))) (nth i w 0)
      | _ => NaN
      end) in
    let n_fft := List.length w in
    fxw <- rfft (T xw) n_fft ;;
    lw <- get_light_weights g ;;
    Ok (Ssps (g_edges_z g) (g_edges_t g) (g_cents_z g) (g_cents_t g) (g_delta_t g) (g_delta_z g)
          (g_dims g) lw (Fin dv) xw (T fxw) n_fft).
