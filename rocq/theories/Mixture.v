(** * Mixture: popkinmocks/components/mixture.py, except evaluate_ybar (in
    Datacube.v).

    Optional arguments are in the order collapse_cmps, density,
    light_weighted. *)
From Coq Require Import Reals List Bool Arith ZArith String Ascii.
From Verif Require Import Num Arr PyStr Cube Base Moments.
Import ListNotations.
Local Open Scope string_scope.

(** what a mixture uses of its members: the attributes "_get_log_p_<dist>" and
    the methods get_p(which_dist, density, light_weighted), get_mean and
    get_noncentral_moment *)
Record member := Member {
  mb_table : log_p_table;
  mb_get_p : string -> bool -> bool -> res (arr num);
  mb_mean : string -> bool -> res (arr num);
  mb_noncentral : string -> nat -> arr num -> bool -> res (arr num)
}.

(** a base component as a member *)
Definition comp_member (self : component) : member :=
  Member (base_table self) (get_p self) (get_mean (base_obj self)) (get_noncentral_moment (base_obj self)).

Record mixture := Mixture { mx_cube : cube; mx_members : list member; mx_weights : list num }.

(** np.isclose(a, 1.0): |a - 1| <= atol + rtol * 1, atol = 1e-8, rtol = 1e-5 *)
Definition isclose1 (a : num) : bool :=
  match a with Fin r => Rleb (Rabs (r - 1)) (1 / 100000000 + 1 / 100000) | _ => false end.

(** Mixture.__init__, mixture.py lines 25-33 *)
Definition mixture_init (c : cube) (component_list : list member) (weights : list num) : res mixture :=
  _ <- py_assert (Nat.eqb (List.length component_list) (List.length weights)) ;;
  _ <- py_assert (forallb (fun w => nlt (Fin 0) w) weights) ;;
  _ <- py_assert (isclose1 (nsum weights)) ;;
  Ok (Mixture c component_list weights).

(** np.log(w) + log_p_func(density=density, light_weighted=False), lines 154-155 *)
Definition weighted_log_p (which_dist : string) (density : bool) (mw : member * num) : res (arr num) :=
  log_p_func <- getattr_log_p (mb_table (fst mw)) which_dist ;;
  lp <- log_p_func density false ;;
  Ok (amap (fun a => nadd (nlog (snd mw)) a) lp).

(** the assignments log_p[i] = log_pi into an array of rows of shape [s] *)
Fixpoint rows (which_dist : string) (density : bool) (s : list nat) (l : list (member * num)) : res (list (arr num)) :=
  match l with
  | [] => Ok []
  | mw :: l' =>
      log_pi <- weighted_log_p which_dist density mw ;;
      r <- broadcast_to log_pi s ;;
      rest <- rows which_dist density s l' ;;
      Ok (r :: rest)
  end.

(** _get_log_marginal_distribution_mass_wtd, lines 137-160.  The array is
    allocated with the shape of the first term. *)
Definition mix_mass_wtd (self : mixture) (which_dist : string) (density : bool) : res (arr num) :=
  let zipped_cmp_wts := combine (mx_members self) (mx_weights self) in
  match zipped_cmp_wts with
  | [] => Err UnboundLocalError
  | mw :: _ =>
      log_p0 <- weighted_log_p which_dist density mw ;;
      r <- rows which_dist density (shp log_p0) zipped_cmp_wts ;;
      stack r NaN
  end.

(** _get_log_marginal_distribution_light_wtd, lines 162-200 *)
Definition mix_light_wtd (self : mixture) (which_dist : string) (density : bool) : res (arr num) :=
  let light := light_weights (c_ssps (mx_cube self)) in
  let with_v := has_char "v" which_dist in
  let current_dist := if with_v then "tvxz" else "txz" in
  lw <- (if with_v then getitem [INew; IAll; INew; INew; INew; IAll] light
         else getitem [INew; IAll; INew; INew; IAll] light) ;;
  log_P_mw <- mix_mass_wtd self current_dist false ;;
  log_P_lw <- bop nadd log_P_mw (amap nlog lw) ;;
  log_normalisation <- logsumexp_all log_P_lw ;;
  log_P_lw <- iop nsub log_P_lw log_normalisation ;;
  log_P_lw <- (if has_char "t" which_dist then Ok log_P_lw else logsumexp log_P_lw [1]%Z) ;;
  log_P_lw <- (if has_char "x" which_dist then Ok log_P_lw else logsumexp log_P_lw [-3; -2]%Z) ;;
  log_P_lw <- (if has_char "z" which_dist then Ok log_P_lw else logsumexp log_P_lw [-1]%Z) ;;
  if density then
    volume_element <- construct_volume_element (mx_cube self) which_dist ;;
    iop nsub log_P_lw (amap nlog volume_element)
  else Ok log_P_lw.

(** the marginal branch of get_log_p, lines 125-135 *)
Definition mix_marginal (self : mixture) (which_dist : string) (collapse density light_weighted : bool) : res (arr num) :=
  log_p <- (if light_weighted then mix_light_wtd self which_dist density else mix_mass_wtd self which_dist density) ;;
  if collapse then logsumexp log_p [0]%Z else Ok log_p.

(** _get_log_conditional_distribution, lines 202-244.  The recursive calls of
    get_log_p are on strings without "_" *)
Definition mix_conditional (self : mixture) (which_dist : string) (density light_weighted : bool) : res (arr num) :=
  _ <- py_assert (has_char "_" which_dist) ;;
  match split "_" which_dist with
  | [dist; marginal] =>
      let joint := sorted_str (dist ++ marginal) in
      log_p_joint <- mix_marginal self joint false false light_weighted ;;
      log_p_marginal <- mix_marginal self marginal true false light_weighted ;;
      let joint := replace_char "x" ["x"%char; "y"%char] joint in
      let marginal := replace_char "x" ["x"%char; "y"%char] marginal in
      let joint := "i" ++ joint in
      let old_pos := map (find joint) (chars marginal) in
      let new_pos := neg_positions (String.length marginal) in
      log_p_joint <- moveaxis log_p_joint old_pos new_pos ;;
      log_p_conditional <- bop nsub log_p_joint log_p_marginal ;;
      if density then
        dvol <- construct_volume_element (mx_cube self) which_dist ;;
        bop nsub log_p_conditional (amap nlog dvol)
      else Ok log_p_conditional
  | _ => Err ValueError
  end.

(** get_log_p, lines 88-135 *)
Definition mix_get_log_p (self : mixture) (which_dist : string) (collapse density light_weighted : bool) : res (arr num) :=
  if has_char "_" which_dist then
    log_p <- mix_conditional self which_dist density light_weighted ;;
    if collapse then logsumexp log_p [0]%Z else Ok log_p
  else mix_marginal self which_dist collapse density light_weighted.

(** get_p, lines 50-86 *)
Definition mix_get_p (self : mixture) (which_dist : string) (collapse density light_weighted : bool) : res (arr num) :=
  log_p <- mix_get_log_p self which_dist collapse density light_weighted ;;
  Ok (amap nexp log_p).

(** np.array([f(cmp) for cmp in component_list]) *)
Definition per_member (self : mixture) (f : member -> res (arr num)) : res (arr num) :=
  l <- map_res f (mx_members self) ;; stack l NaN.

(** self.weights, an array *)
Definition mx_w (self : mixture) : arr num := arr1 (mx_weights self) NaN.

(** _get_light_reweightings, lines 308-319 *)
Definition mix_reweightings (self : mixture) : res (arr num) :=
  p_tz <- mix_get_p self "tz" true false false ;;
  p_tz_i <- per_member self (fun m => mb_get_p m "tz" false false) ;;
  let lw := light_weights (c_ssps (mx_cube self)) in
  a <- bop nmul lw p_tz_i ;;
  num <- asum [1; 2]%Z a ;;
  b <- bop nmul lw p_tz ;;
  bop ndiv num (asum_all b).

(** get_mean, lines 246-306 *)
Definition mix_mean (self : mixture) (which_dist : string) (light_weighted : bool) : res (arr num) :=
  mu_i <- per_member self (fun m => mb_mean m which_dist light_weighted) ;;
  rw <- (if light_weighted then mix_reweightings self
         else Ok (full [List.length (mx_members self)] (Fin 1))) ;;
  if negb (has_char "_" which_dist) then
    a <- bop nmul (mx_w self) rw ;;
    b <- bop nmul a (T mu_i) ;;
    s <- asum [-1]%Z b ;;
    Ok (T s)
  else
    let variable_to_mean := part0 which_dist in
    conditioners <- part1 which_dist ;;
    w_p_cond <- per_member self (fun m => mb_get_p m conditioners true light_weighted) ;;
    w_p_cond <- bop nmul (T w_p_cond) (mx_w self) ;;
    let w_p_cond := T w_p_cond in
    w_p_cond <- (if String.eqb variable_to_mean "x" then getitem [IAll; INew] w_p_cond else Ok w_p_cond) ;;
    denom <- mix_get_p self conditioners true true light_weighted ;;
    a <- bop nmul (T w_p_cond) rw ;;
    b <- bop nmul a (T mu_i) ;;
    s <- asum [-1]%Z b ;;
    bop ndiv (T s) denom.

(** get_central_moment, lines 321-367 *)
Definition mix_central_moment (self : mixture) (which_dist : string) (j : nat) (light_weighted : bool) : res (arr num) :=
  mu <- mix_mean self which_dist light_weighted ;;
  mu_i <- per_member self (fun m => mb_noncentral m which_dist j mu light_weighted) ;;
  if negb (has_char "_" which_dist) then
    mu_i <- moveaxis mu_i [0]%Z [-1]%Z ;;
    if light_weighted then
      rw <- mix_reweightings self ;;
      a <- bop nmul (mx_w self) rw ;;
      b <- bop nmul a mu_i ;;
      asum [-1]%Z b
    else
      b <- bop nmul (mx_w self) mu_i ;;
      asum [-1]%Z b
  else
    let variable_to_mean := part0 which_dist in
    conditioners <- part1 which_dist ;;
    w_p_cond <- mix_get_p self conditioners false true light_weighted ;;
    w_p_cond <- (if String.eqb variable_to_mean "x" then getitem [IAll; INew] w_p_cond else Ok w_p_cond) ;;
    a <- bop nmul w_p_cond mu_i ;;
    num <- asum [0]%Z a ;;
    den <- asum [0]%Z w_p_cond ;;
    bop ndiv num den.

(** The methods "_get_log_p_<dist>" that Mixture inherits from Component: each
    first evaluates self.log_p_tvxz (base.py line 1030), which a Mixture does
    not have. *)
Definition mixture_table : log_p_table :=
  lookup (map (fun k => (k, (fun _ _ => Err AttributeError) : log_p_method))
    ["t"; "tv"; "tx"; "tz"; "tvx"; "tvz"; "txz"; "tvxz"; "v"; "vx"; "vz"; "vxz"; "x"; "xz"; "z"]).

(** a mixture used as a component: get_p with collapse_cmps=True, its own
    get_mean, and the inherited default of get_noncentral_moment *)
Definition mix_obj (self : mixture) : obj :=
  Obj (mx_cube self) (fun w density lw => mix_get_p self w true density lw) (fun _ => None) (fun _ => None).
Definition mixture_member (self : mixture) : member :=
  Member mixture_table (fun w density lw => mix_get_p self w true density lw)
         (mix_mean self) (get_noncentral_moment (mix_obj self)).
