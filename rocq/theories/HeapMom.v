(** * HeapMom: the cube's variables and the moments of base.py on the heap of
    Heap.v.

    The methods are those of Cube.v and Moments.v with array objects for values.
    What numpy returns as a scalar is here an array of no dimensions. *)
From Coq Require Import Reals List Bool Arith ZArith String Ascii.
From Verif Require Import Num Arr PyStr Cube Base Moments NormalL Heap.
Import ListNotations.
Local Open Scope string_scope.

(** np.sum(a, axes), np.sum(a), np.array([..]), np.cumsum(a, 0), np.concatenate:
    new arrays *)
Definition h_sum (axes : list Z) (a : nda) : prog nda := new (fun h => asum axes (value h a)).
Definition h_sum_all (a : nda) : prog nda := new (fun h => Ok (asum_all (value h a))).
Definition h_stack (l : list nda) : prog nda := new (fun h => stack (map (value h) l) NaN).
Definition h_cumsum0 (a : nda) : prog nda := new (fun h => Ok (cumsum0 (value h a))).
Definition h_concat0 (a b : nda) : prog nda := new (fun h => concat0 (value h a) (value h b)).
(** np.broadcast_to(a, s): a view, in which several entries may be one cell (the
    view is read-only) *)
Definition v_broadcast (a : nda) (s : list nat) : res nda :=
  match bshape (na_shp a) s with
  | None => Err ValueError
  | Some s' => if natlist_eqb s' s
               then Ok (Nda (na_addr a) s (fun idx => na_idx a (bidx (na_shp a) idx)))
               else Err ValueError
  end.
Definition h_broadcast (a : nda) (s : list nat) : prog nda := lift (v_broadcast a s).
(** [f(x) for x in l] *)
Fixpoint h_list {A} (f : A -> prog nda) (l : list A) : prog (list nda) :=
  match l with
  | [] => ret []
  | x :: l' => r <~ f x ;; rs <~ h_list f l' ;; ret (r :: rs)
  end.

(** ** the cube *)

(** the arrays that Heap.v leaves out: cube.x, cube.y, and the centres and edges
    of the SSP grid *)
Record hgrid := HGrid {
  hg_cube : hcube;
  hg_x : nda; hg_y : nda;
  hg_cents_t : nda; hg_cents_z : nda; hg_edges_t : nda; hg_edges_z : nda
}.

(** get_variable_values, ifu_cube.py lines 97-120 *)
Definition h_values (g : hgrid) (which_variable : string) : prog nda :=
  if String.eqb which_variable "t" then ret (hg_cents_t g)
  else if String.eqb which_variable "v" then
    let v_edg := hq_v_edg (hg_cube g) in
    s <~ h_bop nadd (v_init0 v_edg) (v_tail0 v_edg) ;; h_map (fun x => ndiv x (Fin 2)) s
  else if String.eqb which_variable "z" then ret (hg_cents_z g)
  else if String.eqb which_variable "x1" then ret (hg_x g)
  else if String.eqb which_variable "x2" then ret (hg_y g)
  else lift (Err ValueError).

(** ifu_cube.py lines 139, 141 *)
Definition h_pixel_edges (x : nda) (dx : num) : prog nda :=
  d <~ alloc (scal (ndiv dx (Fin 2))) ;;
  lo <~ h_bop nsub x d ;;
  xl <~ h_getitem [IInt (-1)] x ;;
  hi <~ new (fun h => Ok (arr1 [nadd (ent (value h xl) []) (ndiv dx (Fin 2))] NaN)) ;;
  h_concat0 lo hi.

(** get_variable_edges, ifu_cube.py lines 122-144 *)
Definition h_edges (g : hgrid) (which_variable : string) : prog nda :=
  if String.eqb which_variable "t" then ret (hg_edges_t g)
  else if String.eqb which_variable "v" then ret (hq_v_edg (hg_cube g))
  else if String.eqb which_variable "z" then ret (hg_edges_z g)
  else if String.eqb which_variable "x1" then h_pixel_edges (hg_x g) (hq_dx (hg_cube g))
  else if String.eqb which_variable "x2" then h_pixel_edges (hg_y g) (hq_dy (hg_cube g))
  else lift (Err ValueError).

(** get_variable_size, ifu_cube.py lines 146-157 *)
Definition h_size (g : hgrid) (which_variable : string) : prog nat :=
  v <~ h_values g which_variable ;; ret (hd 0 (na_shp v)).

(** get_distribution_shape, ifu_cube.py lines 159-179 *)
Fixpoint h_shape_loop (g : hgrid) (vars : list ascii) (shape : list nat) : prog (list nat) :=
  match vars with
  | [] => ret shape
  | var :: vars' =>
      if Ascii.eqb var "x" then
        nx1 <~ h_size g "x1" ;;
        nx2 <~ h_size g "x2" ;;
        h_shape_loop g vars' (shape ++ [nx1; nx2])%list
      else
        n <~ h_size g (str1 var) ;;
        h_shape_loop g vars' (shape ++ [n])%list
  end.
Definition h_shape (g : hgrid) (which_dist : string) : prog (list nat) :=
  h_shape_loop g (chars (replace_char "_" [] which_dist)) [].

(** ** moments of any component *)

(** as [obj] of Moments.v *)
Record hobj := HObj {
  hb_grid : hgrid;
  hb_get_p : string -> h_method;
  hb_mean : string -> option (bool -> prog nda);
  hb_moment : string -> option (nat -> nda -> bool -> prog nda)
}.
(** a base component *)
Definition h_base_obj (g : hgrid) (s : hcomp) : hobj := HObj g (h_get_p s) (fun _ => None) (fun _ => None).

(** the local function get_mean, base.py lines 208-225 *)
Definition h_default_mean (o : hobj) (which_dist : string) (light_weighted : bool) : prog nda :=
  let variable_to_mean := part0 which_dist in
  p <~ hb_get_p o which_dist false light_weighted ;;
  if is_tvz variable_to_mean then
    var <~ h_values (hb_grid o) variable_to_mean ;;
    vp <~ h_bop nmul (v_T var) (v_T p) ;;
    h_sum [0]%Z (v_T vp)
  else
    _ <~ lift (py_assert (String.eqb variable_to_mean "x")) ;;
    p1 <~ h_sum [1]%Z p ;;
    p2 <~ h_sum [0]%Z p ;;
    xp <~ h_bop nmul (hg_x (hb_grid o)) (v_T p1) ;;
    m1 <~ h_sum [-1]%Z xp ;;
    yp <~ h_bop nmul (hg_y (hb_grid o)) (v_T p2) ;;
    m2 <~ h_sum [-1]%Z yp ;;
    h_stack [v_T m1; v_T m2].

(** get_mean, base.py lines 179-231 *)
Definition h_get_mean (o : hobj) (which_dist : string) (light_weighted : bool) : prog nda :=
  _ <~ lift (py_assert (Nat.eqb (String.length (part0 which_dist)) 1)) ;;
  match hb_mean o which_dist with
  | Some f => f light_weighted
  | None => h_default_mean o which_dist light_weighted
  end.

(** np.power(x - mu[na].T, j), base.py lines 259, 271, 272 *)
Definition h_powers (x mu : nda) (j : nat) : prog nda :=
  mu' <~ h_getitem [INew] mu ;;
  d <~ h_bop nsub x (v_T mu') ;;
  h_map (fun a => npow a j) d.

(** a, b = m: TypeError for a scalar, ValueError unless of length two *)
Definition pair_check (shape : list nat) : res unit :=
  match shape with
  | [] => Err TypeError
  | n :: _ => if Nat.eqb n 2 then Ok tt else Err ValueError
  end.

(** the local function get_moment, base.py lines 254-274 *)
Definition h_default_moment (o : hobj) (which_dist : string) (j : nat) (mu : nda) (light_weighted : bool) : prog nda :=
  let variable_to_mean := part0 which_dist in
  p <~ hb_get_p o which_dist false light_weighted ;;
  if is_tvz variable_to_mean then
    val <~ h_values (hb_grid o) variable_to_mean ;;
    pw <~ h_powers val mu j ;;
    tmp <~ h_bop nmul pw (v_T p) ;;
    h_sum [0]%Z (v_T tmp)
  else
    _ <~ lift (py_assert (String.eqb variable_to_mean "x")) ;;
    p1 <~ h_sum [1]%Z p ;;
    p2 <~ h_sum [0]%Z p ;;
    _ <~ lift (pair_check (na_shp mu)) ;;
    mu1 <~ h_getitem [IInt 0] mu ;;
    mu2 <~ h_getitem [IInt 1] mu ;;
    pw1 <~ h_powers (hg_x (hb_grid o)) mu1 j ;;
    pw2 <~ h_powers (hg_y (hb_grid o)) mu2 j ;;
    q1 <~ h_bop nmul (v_T pw1) p1 ;;
    m1 <~ h_sum [0]%Z q1 ;;
    q2 <~ h_bop nmul (v_T pw2) p2 ;;
    m2 <~ h_sum [0]%Z q2 ;;
    h_stack [m1; m2].

(** get_noncentral_moment, base.py lines 233-282 *)
Definition h_noncentral (o : hobj) (which_dist : string) (j : nat) (mu : nda) (light_weighted : bool) : prog nda :=
  _ <~ lift (py_assert (Nat.eqb (String.length (part0 which_dist)) 1)) ;;
  match hb_moment o which_dist with
  | Some f => f j mu light_weighted
  | None => h_default_moment o which_dist j mu light_weighted
  end.

(** get_central_moment, base.py lines 284-315 *)
Definition h_central (o : hobj) (which_dist : string) (j : nat) (light_weighted : bool) : prog nda :=
  let variable_to_mean := part0 which_dist in
  _ <~ lift (py_assert (Nat.eqb (String.length variable_to_mean) 1)) ;;
  mu <~ (if is_tvz variable_to_mean then h_get_mean o which_dist light_weighted
         else
           _ <~ lift (py_assert (String.eqb variable_to_mean "x")) ;;
           m <~ h_get_mean o which_dist light_weighted ;;
           _ <~ lift (pair_check (na_shp m)) ;;
           mu1 <~ h_getitem [IInt 0] m ;;
           mu2 <~ h_getitem [IInt 1] m ;;
           h_stack [mu1; mu2]) ;;
  _ <~ (if has_char "_" which_dist then
          conditioners <~ lift (part1 which_dist) ;;
          dc <~ h_volume (hg_cube (hb_grid o)) conditioners ;; ret tt
        else ret tt) ;;
  h_noncentral o which_dist j mu light_weighted.

(** get_dispersion, base.py lines 335-352 *)
Definition h_dispersion (o : hobj) (which_dist : string) (light_weighted : bool) : prog nda :=
  variance <~ h_central o which_dist 2 light_weighted ;;
  h_map nsqrt variance.

(** get_normalised_central_moment, base.py lines 354-377; get_skewness and
    get_kurtosis (lines 394-432) are those of order 3 and 4 *)
Definition h_normalised (o : hobj) (which_dist : string) (j : nat) (light_weighted : bool) : prog nda :=
  central_moment <~ h_central o which_dist j light_weighted ;;
  dispersion <~ h_dispersion o which_dist light_weighted ;;
  d <~ h_map (fun d => npow d j) dispersion ;;
  h_bop ndiv central_moment d.

(** get_excess_central_moment, base.py lines 386-392; get_excess_kurtosis (lines
    434-452) is that of order 4 *)
Definition h_excess (f2m1 : num) (o : hobj) (which_dist : string) (j : nat) (light_weighted : bool) : prog nda :=
  nrm_central_moment <~ h_normalised o which_dist j light_weighted ;;
  n <~ alloc (scal (get_normalised_central_moment_normal f2m1 j)) ;;
  h_bop nsub nrm_central_moment n.

(** (values - mean[na].T).T, base.py lines 502-503, 509-511 *)
Definition h_deltas (values mean : nda) : prog nda :=
  m' <~ h_getitem [INew] mean ;;
  d <~ h_bop nsub values (v_T m') ;;
  ret (v_T d).

(** base.py lines 494-499 *)
Definition h_var_values (g : hgrid) (dvar : ascii) : prog (nda * option nda) :=
  if negb (Ascii.eqb dvar "x") then
    v <~ h_values g (str1 dvar) ;; ret (v, None)
  else
    x1 <~ h_values g "x1" ;;
    x2 <~ h_values g "x2" ;; ret (x1, Some x2).

(** lines 504-506 *)
Definition h_double_sum (p d0 d1 : nda) : prog nda :=
  d0' <~ h_getitem [IAll; INew] d0 ;;
  q <~ h_bop nmul p d0' ;;
  d1' <~ h_getitem [INew; IAll] d1 ;;
  q <~ h_bop nmul q d1' ;;
  h_sum [0; 1]%Z q.
(** lines 516-519 *)
Definition h_double_sum' (p dx dn : nda) : prog nda :=
  dx' <~ h_getitem [INew; IAll] dx ;;
  q <~ h_bop nmul p dx' ;;
  dn' <~ h_getitem [IAll; INew] dn ;;
  q <~ h_bop nmul q dn' ;;
  h_sum [0; 1]%Z q.

(** get_covariance, base.py lines 454-523 *)
Definition h_covariance (o : hobj) (which_dist : string) (light_weighted : bool) : prog nda :=
  parts <~ lift (dep_parts which_dist) ;;
  let dependent_vars := fst parts in
  let conditioners := snd parts in
  match chars dependent_vars with
  | [a; b] =>
      mean0 <~ h_get_mean o (one_dist a conditioners) light_weighted ;;
      values0 <~ h_var_values (hb_grid o) a ;;
      mean1 <~ h_get_mean o (one_dist b conditioners) light_weighted ;;
      values1 <~ h_var_values (hb_grid o) b ;;
      p <~ hb_get_p o which_dist false light_weighted ;;
      if negb (has_char "x" dependent_vars) then
        d0 <~ h_deltas (fst values0) mean0 ;;
        d1 <~ h_deltas (fst values1) mean1 ;;
        h_double_sum p d0 d1
      else
        let idx_x_is_0 := Ascii.eqb a "x" in
        let meanx := if idx_x_is_0 then mean0 else mean1 in
        let meann := if idx_x_is_0 then mean1 else mean0 in
        let valx := if idx_x_is_0 then values0 else values1 in
        let valn := if idx_x_is_0 then values1 else values0 in
        x2 <~ lift (match snd valx with Some x2 => Ok x2 | None => Err TypeError end) ;;
        mx1 <~ h_getitem [IInt 0] meanx ;;
        delta_x1 <~ h_deltas (fst valx) mx1 ;;
        mx2 <~ h_getitem [IInt 1] meanx ;;
        delta_x2 <~ h_deltas x2 mx2 ;;
        _ <~ lift (match snd valn with Some _ => Err TypeError | None => Ok tt end) ;;
        delta_notx <~ h_deltas (fst valn) meann ;;
        if idx_x_is_0 then
          q1 <~ h_sum [1]%Z p ;;
          c1 <~ h_double_sum q1 delta_x1 delta_notx ;;
          q2 <~ h_sum [0]%Z p ;;
          c2 <~ h_double_sum q2 delta_x2 delta_notx ;;
          h_stack [c1; c2]
        else
          q1 <~ h_sum [2]%Z p ;;
          c1 <~ h_double_sum' q1 delta_x1 delta_notx ;;
          q2 <~ h_sum [1]%Z p ;;
          c2 <~ h_double_sum' q2 delta_x2 delta_notx ;;
          h_stack [c1; c2]
  | _ => lift (Err ValueError)
  end.

(** get_correlation, base.py lines 525-558 *)
Definition h_correlation (o : hobj) (which_dist : string) (light_weighted : bool) : prog nda :=
  parts <~ lift (dep_parts which_dist) ;;
  match chars (fst parts) with
  | [a; b] =>
      covariance <~ h_covariance o which_dist light_weighted ;;
      variance0 <~ h_central o (one_dist a (snd parts)) 2 light_weighted ;;
      variance1 <~ h_central o (one_dist b (snd parts)) 2 light_weighted ;;
      v <~ h_bop nmul variance0 variance1 ;;
      s <~ h_map nsqrt v ;;
      h_bop ndiv covariance s
  | _ => lift (Err ValueError)
  end.

(** get_l_moment, base.py lines 560-602 *)
Definition h_l_moment (o : hobj) (which_dist : string) (j : nat) (light_weighted : bool) : prog nda :=
  let var := part0 which_dist in
  _ <~ lift (py_assert (Nat.eqb (String.length var) 1)) ;;
  let marginal := Nat.eqb (String.length which_dist) 1 in
  conditioners <~ lift (if marginal then Ok "" else part1 which_dist) ;;
  p <~ hb_get_p o which_dist false light_weighted ;;
  F <~ h_cumsum0 p ;;
  initial_zero <~ (if marginal then alloc (arr1 [Fin 0] NaN)
                   else cond_shape <~ h_shape (hb_grid o) conditioners ;;
                        alloc (full (1 :: cond_shape) (Fin 0))) ;;
  F <~ h_concat0 initial_zero F ;;
  dF <~ h_bop nsub (v_tail0 F) (v_init0 F) ;;
  match j with
  | O => lift (Err ValueError)
  | S n =>
      g <~ h_map (fun a => npoly n (nsub (nmul (Fin 2) a) (Fin 1))) F ;;
      x <~ h_edges (hb_grid o) var ;;
      y <~ h_bop nmul x (v_T g) ;;
      s <~ h_bop nadd (v_init0 (v_T y)) (v_tail0 (v_T y)) ;;
      s2 <~ h_map (fun x => ndiv x (Fin 2)) s ;;
      q <~ h_bop nmul s2 dF ;;
      h_sum [0]%Z q
  end.

(** get_normalised_l_moment, base.py lines 646-671; get_l_mean, get_l_dispersion
    (lines 604-644) are get_l_moment of order 1 and 2, get_l_skewness and
    get_l_kurtosis (lines 735-769) the normalised ones of order 3 and 4 *)
Definition h_normalised_l (o : hobj) (which_dist : string) (j : nat) (light_weighted : bool) : prog nda :=
  l_dispersion <~ h_l_moment o which_dist 2 light_weighted ;;
  lambda_j <~ h_l_moment o which_dist j light_weighted ;;
  h_bop ndiv lambda_j l_dispersion.

(** get_excess_l_moment, base.py lines 710-733; get_excess_l_kurtosis (lines
    771-787) is that of order 4 *)
Definition h_excess_l (ppf : R -> R) (o : hobj) (which_dist : string) (j : nat) (light_weighted : bool) : prog nda :=
  l_moment <~ h_normalised_l o which_dist j light_weighted ;;
  l_moment_normal <~ lift (get_normalised_l_moment_normal ppf j) ;;
  n <~ alloc (scal l_moment_normal) ;;
  h_bop nsub l_moment n.
