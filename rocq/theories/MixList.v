(** * MixList: popkinmocks/components/mixture.py once more, for a mixture whose
    list of components has changed length.

    Mixture.__init__ keeps the caller's list and, separately, n_cmps and the
    array of weights (mixture.py lines 28-33), so that later the list need not
    have n_cmps members.  In Mixture.v it always has. *)
From Coq Require Import Reals List Bool Arith ZArith String Ascii.
From Verif Require Import Num Arr PyStr Cube Base Moments Mixture Datacube.
Import ListNotations.
Local Open Scope string_scope.

(** self.cube, self.component_list as it is now, self.n_cmps, self.weights *)
Record lmix := LMix { lm_cube : cube; lm_list : list member; lm_n : nat; lm_weights : list num }.

(** Mixture.__init__, lines 25-33 *)
Definition lmix_init (c : cube) (component_list : list member) (weights : list num) : res lmix :=
  _ <- py_assert (Nat.eqb (List.length component_list) (List.length weights)) ;;
  _ <- py_assert (forallb (fun w => nlt (Fin 0) w) weights) ;;
  _ <- py_assert (isclose1 (nsum weights)) ;;
  Ok (LMix c component_list (List.length component_list) weights).
(** the caller changes its list *)
Definition edit_list (self : lmix) (component_list : list member) : lmix :=
  LMix (lm_cube self) component_list (lm_n self) (lm_weights self).

(** _get_log_marginal_distribution_mass_wtd, lines 137-160: n_cmps rows of zeros
    with the shape of the first term; the rows of the members in the list are
    overwritten.  zip ends with the shorter of list and weights, and there are
    n_cmps weights, so the index i is always valid. *)
Definition l_mass_wtd (self : lmix) (which_dist : string) (density : bool) : res (arr num) :=
  let zipped_cmp_wts := combine (lm_list self) (lm_weights self) in
  match zipped_cmp_wts with
  | [] => Err UnboundLocalError
  | mw :: _ =>
      log_p0 <- weighted_log_p which_dist density mw ;;
      r <- rows which_dist density (shp log_p0) zipped_cmp_wts ;;
      stack (r ++ repeat (full (shp log_p0) (Fin 0%R)) (lm_n self - List.length r))%list NaN
  end.

(** _get_log_marginal_distribution_light_wtd, lines 162-200 *)
Definition l_light_wtd (self : lmix) (which_dist : string) (density : bool) : res (arr num) :=
  let light := light_weights (c_ssps (lm_cube self)) in
  let with_v := has_char "v" which_dist in
  let current_dist := if with_v then "tvxz" else "txz" in
  lw <- (if with_v then getitem [INew; IAll; INew; INew; INew; IAll] light
         else getitem [INew; IAll; INew; INew; IAll] light) ;;
  log_P_mw <- l_mass_wtd self current_dist false ;;
  log_P_lw <- bop nadd log_P_mw (amap nlog lw) ;;
  log_normalisation <- logsumexp_all log_P_lw ;;
  log_P_lw <- iop nsub log_P_lw log_normalisation ;;
  log_P_lw <- (if has_char "t" which_dist then Ok log_P_lw else logsumexp log_P_lw [1]%Z) ;;
  log_P_lw <- (if has_char "x" which_dist then Ok log_P_lw else logsumexp log_P_lw [-3; -2]%Z) ;;
  log_P_lw <- (if has_char "z" which_dist then Ok log_P_lw else logsumexp log_P_lw [-1]%Z) ;;
  if density then
    volume_element <- construct_volume_element (lm_cube self) which_dist ;;
    iop nsub log_P_lw (amap nlog volume_element)
  else Ok log_P_lw.

(** the marginal branch of get_log_p, lines 125-135 *)
Definition l_marginal (self : lmix) (which_dist : string) (collapse density light_weighted : bool) : res (arr num) :=
  log_p <- (if light_weighted then l_light_wtd self which_dist density else l_mass_wtd self which_dist density) ;;
  if collapse then logsumexp log_p [0]%Z else Ok log_p.

(** _get_log_conditional_distribution, lines 202-244 *)
Definition l_conditional (self : lmix) (which_dist : string) (density light_weighted : bool) : res (arr num) :=
  _ <- py_assert (has_char "_" which_dist) ;;
  match split "_" which_dist with
  | [dist; marginal] =>
      let joint := sorted_str (dist ++ marginal) in
      log_p_joint <- l_marginal self joint false false light_weighted ;;
      log_p_marginal <- l_marginal self marginal true false light_weighted ;;
      let joint := replace_char "x" ["x"%char; "y"%char] joint in
      let marginal := replace_char "x" ["x"%char; "y"%char] marginal in
      let joint := "i" ++ joint in
      let old_pos := map (find joint) (chars marginal) in
      let new_pos := neg_positions (String.length marginal) in
      log_p_joint <- moveaxis log_p_joint old_pos new_pos ;;
      log_p_conditional <- bop nsub log_p_joint log_p_marginal ;;
      if density then
        dvol <- construct_volume_element (lm_cube self) which_dist ;;
        bop nsub log_p_conditional (amap nlog dvol)
      else Ok log_p_conditional
  | _ => Err ValueError
  end.

(** get_log_p, lines 88-135 *)
Definition l_get_log_p (self : lmix) (which_dist : string) (collapse density light_weighted : bool) : res (arr num) :=
  if has_char "_" which_dist then
    log_p <- l_conditional self which_dist density light_weighted ;;
    if collapse then logsumexp log_p [0]%Z else Ok log_p
  else l_marginal self which_dist collapse density light_weighted.

(** get_p, lines 50-86 *)
Definition l_get_p (self : lmix) (which_dist : string) (collapse density light_weighted : bool) : res (arr num) :=
  log_p <- l_get_log_p self which_dist collapse density light_weighted ;;
  Ok (amap nexp log_p).

(** np.array([f(cmp) for cmp in self.component_list]) *)
Definition l_per_member (self : lmix) (f : member -> res (arr num)) : res (arr num) :=
  l <- map_res f (lm_list self) ;; stack l NaN.

(** self.weights, an array *)
Definition lm_w (self : lmix) : arr num := arr1 (lm_weights self) NaN.

(** _get_light_reweightings, lines 308-319 *)
Definition l_reweightings (self : lmix) : res (arr num) :=
  p_tz <- l_get_p self "tz" true false false ;;
  p_tz_i <- l_per_member self (fun m => mb_get_p m "tz" false false) ;;
  let lw := light_weights (c_ssps (lm_cube self)) in
  a <- bop nmul lw p_tz_i ;;
  num <- asum [1; 2]%Z a ;;
  b <- bop nmul lw p_tz ;;
  bop ndiv num (asum_all b).

(** get_mean, lines 246-306 *)
Definition l_mean (self : lmix) (which_dist : string) (light_weighted : bool) : res (arr num) :=
  mu_i <- l_per_member self (fun m => mb_mean m which_dist light_weighted) ;;
  rw <- (if light_weighted then l_reweightings self else Ok (full [lm_n self] (Fin 1%R))) ;;
  if negb (has_char "_" which_dist) then
    a <- bop nmul (lm_w self) rw ;;
    b <- bop nmul a (T mu_i) ;;
    s <- asum [-1]%Z b ;;
    Ok (T s)
  else
    let variable_to_mean := part0 which_dist in
    conditioners <- part1 which_dist ;;
    w_p_cond <- l_per_member self (fun m => mb_get_p m conditioners true light_weighted) ;;
    w_p_cond <- bop nmul (T w_p_cond) (lm_w self) ;;
    let w_p_cond := T w_p_cond in
    w_p_cond <- (if String.eqb variable_to_mean "x" then getitem [IAll; INew] w_p_cond else Ok w_p_cond) ;;
    denom <- l_get_p self conditioners true true light_weighted ;;
    a <- bop nmul (T w_p_cond) rw ;;
    b <- bop nmul a (T mu_i) ;;
    s <- asum [-1]%Z b ;;
    bop ndiv (T s) denom.

(** get_central_moment, lines 321-367 *)
Definition l_central_moment (self : lmix) (which_dist : string) (j : nat) (light_weighted : bool) : res (arr num) :=
  mu <- l_mean self which_dist light_weighted ;;
  mu_i <- l_per_member self (fun m => mb_noncentral m which_dist j mu light_weighted) ;;
  if negb (has_char "_" which_dist) then
    mu_i <- moveaxis mu_i [0]%Z [-1]%Z ;;
    if light_weighted then
      rw <- l_reweightings self ;;
      a <- bop nmul (lm_w self) rw ;;
      b <- bop nmul a mu_i ;;
      asum [-1]%Z b
    else
      b <- bop nmul (lm_w self) mu_i ;;
      asum [-1]%Z b
  else
    let variable_to_mean := part0 which_dist in
    conditioners <- part1 which_dist ;;
    w_p_cond <- l_get_p self conditioners false true light_weighted ;;
    w_p_cond <- (if String.eqb variable_to_mean "x" then getitem [IAll; INew] w_p_cond else Ok w_p_cond) ;;
    a <- bop nmul w_p_cond mu_i ;;
    num <- asum [0]%Z a ;;
    den <- asum [0]%Z w_p_cond ;;
    bop ndiv num den.

(** evaluate_ybar, lines 35-48, from the datacubes of the members in the list:
    mixture_ybar of Datacube.v, where zip ends with the shorter argument *)
Definition l_ybar (ybars : list (option (arr num))) (weights : list num) : res (arr num) := mixture_ybar ybars weights.
