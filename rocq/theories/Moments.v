(** * Moments: popkinmocks/components/base.py, moments (lines 179-787).

    The moment methods of Component use only the cube, get_p, and the optional
    attributes "get_mean_<dist>" and "get_noncentral_moment_<dist>" which
    subclasses hard-code.  An [obj] carries exactly these, so the same
    definitions serve every class of component. *)
From Coq Require Import Reals List Bool Arith ZArith String Ascii.
From Verif Require Import Num Arr PyStr Cube Base.
Import ListNotations.
Local Open Scope string_scope.

Record obj := Obj {
  o_cube : cube;
  (* self.get_p(which_dist, density, light_weighted) *)
  o_get_p : string -> bool -> bool -> res (arr num);
  (* self.get_mean_<dist>(light_weighted), when the attribute exists *)
  o_mean : string -> option (bool -> res (arr num));
  (* self.get_noncentral_moment_<dist>(j, mu, light_weighted), idem *)
  o_moment : string -> option (nat -> arr num -> bool -> res (arr num))
}.

(** a base component has no hard-coded moments *)
Definition base_obj (self : component) : obj :=
  Obj (comp_cube self) (get_p self) (fun _ => None) (fun _ => None).

(** which_dist.split("_")[0], [..][1]; the first always exists *)
Definition part0 (w : string) : string := hd "" (split "_" w).
Definition part1 (w : string) : res string :=
  match nth_error (split "_" w) 1 with Some s => Ok s | None => Err IndexError end.

(** variable in ["t", "v", "z"] *)
Definition is_tvz (s : string) : bool := String.eqb s "t" || String.eqb s "v" || String.eqb s "z".

(** the local function get_mean, base.py lines 208-225 *)
Definition default_mean (o : obj) (which_dist : string) (light_weighted : bool) : res (arr num) :=
  let variable_to_mean := part0 which_dist in
  p <- o_get_p o which_dist false light_weighted ;;
  if is_tvz variable_to_mean then
    var <- get_variable_values (o_cube o) variable_to_mean ;;
    vp <- bop nmul (T var) (T p) ;;
    asum [0]%Z (T vp)
  else
    _ <- py_assert (String.eqb variable_to_mean "x") ;;
    p1 <- asum [1]%Z p ;;
    p2 <- asum [0]%Z p ;;
    xp <- bop nmul (c_x (o_cube o)) (T p1) ;;
    m1 <- asum [-1]%Z xp ;;
    yp <- bop nmul (c_y (o_cube o)) (T p2) ;;
    m2 <- asum [-1]%Z yp ;;
    stack [T m1; T m2] NaN.

(** get_mean, base.py lines 179-231 *)
Definition get_mean (o : obj) (which_dist : string) (light_weighted : bool) : res (arr num) :=
  _ <- py_assert (Nat.eqb (String.length (part0 which_dist)) 1) ;;
  match o_mean o which_dist with
  | Some f => f light_weighted
  | None => default_mean o which_dist light_weighted
  end.

(** np.power(x - mu[na].T, j) for 1-d values [x], base.py lines 259, 271, 272 *)
Definition powers (x mu : arr num) (j : nat) : res (arr num) :=
  mu' <- getitem [INew] mu ;;
  d <- bop nsub x (T mu') ;;
  Ok (amap (fun a => npow a j) d).

(** the local function get_moment, base.py lines 254-274.  [j] is a
    non-negative int. *)
Definition default_moment (o : obj) (which_dist : string) (j : nat) (mu : arr num)
           (light_weighted : bool) : res (arr num) :=
  let variable_to_mean := part0 which_dist in
  p <- o_get_p o which_dist false light_weighted ;;
  if is_tvz variable_to_mean then
    val <- get_variable_values (o_cube o) variable_to_mean ;;
    pw <- powers val mu j ;;
    tmp <- bop nmul pw (T p) ;;
    asum [0]%Z (T tmp)
  else
    _ <- py_assert (String.eqb variable_to_mean "x") ;;
    p1 <- asum [1]%Z p ;;
    p2 <- asum [0]%Z p ;;
    (* mu1, mu2 = mu : ValueError unless mu has length two *)
    _ <- (match shp mu with
          | [] => Err TypeError
          | n :: _ => if Nat.eqb n 2 then Ok tt else Err ValueError
          end) ;;
    mu1 <- getitem [IInt 0] mu ;;
    mu2 <- getitem [IInt 1] mu ;;
    pw1 <- powers (c_x (o_cube o)) mu1 j ;;
    pw2 <- powers (c_y (o_cube o)) mu2 j ;;
    q1 <- bop nmul (T pw1) p1 ;;
    m1 <- asum [0]%Z q1 ;;
    q2 <- bop nmul (T pw2) p2 ;;
    m2 <- asum [0]%Z q2 ;;
    stack [m1; m2] NaN.

(** get_noncentral_moment, base.py lines 233-282 *)
Definition get_noncentral_moment (o : obj) (which_dist : string) (j : nat) (mu : arr num)
           (light_weighted : bool) : res (arr num) :=
  _ <- py_assert (Nat.eqb (String.length (part0 which_dist)) 1) ;;
  match o_moment o which_dist with
  | Some f => f j mu light_weighted
  | None => default_moment o which_dist j mu light_weighted
  end.

(** get_central_moment, base.py lines 284-315.  For x, mu1, mu2 = mean and
    np.array([mu1, mu2]) rebuild the same array.  The volume element dc is
    computed but not used; it may raise. *)
Definition get_central_moment (o : obj) (which_dist : string) (j : nat) (light_weighted : bool)
  : res (arr num) :=
  let variable_to_mean := part0 which_dist in
  _ <- py_assert (Nat.eqb (String.length variable_to_mean) 1) ;;
  mu <- (if is_tvz variable_to_mean then get_mean o which_dist light_weighted
         else
           _ <- py_assert (String.eqb variable_to_mean "x") ;;
           m <- get_mean o which_dist light_weighted ;;
           _ <- (match shp m with
                 | [] => Err TypeError
                 | n :: _ => if Nat.eqb n 2 then Ok tt else Err ValueError
                 end) ;;
           mu1 <- getitem [IInt 0] m ;;
           mu2 <- getitem [IInt 1] m ;;
           stack [mu1; mu2] NaN) ;;
  _ <- (if has_char "_" which_dist then
          conditioners <- part1 which_dist ;;
          dc <- construct_volume_element (o_cube o) conditioners ;; Ok tt
        else Ok tt) ;;
  get_noncentral_moment o which_dist j mu light_weighted.

(** get_variance, base.py lines 317-333 *)
Definition get_variance (o : obj) (which_dist : string) (light_weighted : bool) :=
  get_central_moment o which_dist 2 light_weighted.

(** get_dispersion, base.py lines 335-352 *)
Definition get_dispersion (o : obj) (which_dist : string) (light_weighted : bool) : res (arr num) :=
  variance <- get_central_moment o which_dist 2 light_weighted ;;
  Ok (amap nsqrt variance).

(** get_normalised_central_moment, base.py lines 354-377 *)
Definition get_normalised_central_moment (o : obj) (which_dist : string) (j : nat)
           (light_weighted : bool) : res (arr num) :=
  central_moment <- get_central_moment o which_dist j light_weighted ;;
  dispersion <- get_dispersion o which_dist light_weighted ;;
  bop ndiv central_moment (amap (fun d => npow d j) dispersion).

(** scipy.special.factorial2 of an odd positive integer 2k-1 *)
Fixpoint odd_factorial2 (k : nat) : nat :=
  match k with O => 1 | S k' => (2 * k - 1) * odd_factorial2 k' end.

(** get_normalised_central_moment_normal, base.py lines 379-384.  The value of
    scipy.special.factorial2(-1), used for j = 0 only, depends on the scipy
    version and is the parameter [f2m1]. *)
Definition get_normalised_central_moment_normal (f2m1 : num) (j : nat) : num :=
  if Nat.even j then
    match j with O => f2m1 | _ => Fin (INR (odd_factorial2 (Nat.div2 j))) end
  else Fin 0.

(** get_excess_central_moment, base.py lines 386-392 *)
Definition get_excess_central_moment (f2m1 : num) (o : obj) (which_dist : string) (j : nat)
           (light_weighted : bool) : res (arr num) :=
  nrm_central_moment <- get_normalised_central_moment o which_dist j light_weighted ;;
  bop nsub nrm_central_moment (scal (get_normalised_central_moment_normal f2m1 j)).

(** get_skewness, base.py lines 394-412 *)
Definition get_skewness (o : obj) (which_dist : string) (light_weighted : bool) :=
  get_normalised_central_moment o which_dist 3 light_weighted.
(** get_kurtosis, base.py lines 414-432 *)
Definition get_kurtosis (o : obj) (which_dist : string) (light_weighted : bool) :=
  get_normalised_central_moment o which_dist 4 light_weighted.
(** get_excess_kurtosis, base.py lines 434-452 *)
Definition get_excess_kurtosis (f2m1 : num) (o : obj) (which_dist : string) (light_weighted : bool) :=
  get_excess_central_moment f2m1 o which_dist 4 light_weighted.

(** (values - mean[na].T).T, base.py lines 502-503, 509-511 *)
Definition deltas (values mean : arr num) : res (arr num) :=
  m' <- getitem [INew] mean ;;
  d <- bop nsub values (T m') ;;
  Ok (T d).

(** is_conditional / dependent_vars / conditioners, base.py lines 479-484 and
    541-546; more than one "_" raises ValueError when unpacking *)
Definition dep_parts (which_dist : string) : res (string * option string) :=
  if has_char "_" which_dist then
    match split "_" which_dist with
    | [d; m] => Ok (d, Some m)
    | _ => Err ValueError
    end
  else Ok (which_dist, None).

(** dependent_vars[i] followed by "_<conditioners>" if conditional *)
Definition one_dist (dvar : ascii) (conditioners : option string) : string :=
  match conditioners with
  | None => str1 dvar
  | Some m => str1 dvar ++ "_" ++ m
  end.

(** values of one dependent variable, base.py lines 494-499: one array, or the
    pair (x1, x2) *)
Definition var_values (c : cube) (dvar : ascii) : res (arr num * option (arr num)) :=
  if negb (Ascii.eqb dvar "x") then
    v <- get_variable_values c (str1 dvar) ;; Ok (v, None)
  else
    x1 <- get_variable_values c "x1" ;;
    x2 <- get_variable_values c "x2" ;; Ok (x1, Some x2).

(** integrand sum of lines 504-506: np.sum(p * d0[:, na] * d1[na, :], (0, 1)) *)
Definition double_sum (p d0 d1 : arr num) : res (arr num) :=
  d0' <- getitem [IAll; INew] d0 ;;
  q <- bop nmul p d0' ;;
  d1' <- getitem [INew; IAll] d1 ;;
  q <- bop nmul q d1' ;;
  asum [0; 1]%Z q.

(** np.sum(p * dx[na, :] * dn[:, na], (0, 1)), lines 516-519 *)
Definition double_sum' (p dx dn : arr num) : res (arr num) :=
  dx' <- getitem [INew; IAll] dx ;;
  q <- bop nmul p dx' ;;
  dn' <- getitem [IAll; INew] dn ;;
  q <- bop nmul q dn' ;;
  asum [0; 1]%Z q.

(** get_covariance, base.py lines 454-523.  The tuple-typed access
    values[idx_x][0] when both dependent variables are "x" cannot be reached:
    get_p raises on a repeated variable. *)
Definition get_covariance (o : obj) (which_dist : string) (light_weighted : bool) : res (arr num) :=
  parts <- dep_parts which_dist ;;
  let dependent_vars := fst parts in
  let conditioners := snd parts in
  match chars dependent_vars with
  | [a; b] =>
      mean0 <- get_mean o (one_dist a conditioners) light_weighted ;;
      values0 <- var_values (o_cube o) a ;;
      mean1 <- get_mean o (one_dist b conditioners) light_weighted ;;
      values1 <- var_values (o_cube o) b ;;
      p <- o_get_p o which_dist false light_weighted ;;
      if negb (has_char "x" dependent_vars) then
        d0 <- deltas (fst values0) mean0 ;;
        d1 <- deltas (fst values1) mean1 ;;
        double_sum p d0 d1
      else
        let idx_x_is_0 := Ascii.eqb a "x" in
        let meanx := if idx_x_is_0 then mean0 else mean1 in
        let meann := if idx_x_is_0 then mean1 else mean0 in
        let valx := if idx_x_is_0 then values0 else values1 in
        let valn := if idx_x_is_0 then values1 else values0 in
        x2 <- (match snd valx with Some x2 => Ok x2 | None => Err TypeError end) ;;
        mx1 <- getitem [IInt 0] meanx ;;
        delta_x1 <- deltas (fst valx) mx1 ;;
        mx2 <- getitem [IInt 1] meanx ;;
        delta_x2 <- deltas x2 mx2 ;;
        _ <- (match snd valn with Some _ => Err TypeError | None => Ok tt end) ;;
        delta_notx <- deltas (fst valn) meann ;;
        if idx_x_is_0 then
          q1 <- asum [1]%Z p ;;
          c1 <- double_sum q1 delta_x1 delta_notx ;;
          q2 <- asum [0]%Z p ;;
          c2 <- double_sum q2 delta_x2 delta_notx ;;
          stack [c1; c2] NaN
        else
          q1 <- asum [2]%Z p ;;
          c1 <- double_sum' q1 delta_x1 delta_notx ;;
          q2 <- asum [1]%Z p ;;
          c2 <- double_sum' q2 delta_x2 delta_notx ;;
          stack [c1; c2] NaN
  | _ => Err ValueError
  end.

(** get_correlation, base.py lines 525-558 *)
Definition get_correlation (o : obj) (which_dist : string) (light_weighted : bool) : res (arr num) :=
  parts <- dep_parts which_dist ;;
  match chars (fst parts) with
  | [a; b] =>
      covariance <- get_covariance o which_dist light_weighted ;;
      variance0 <- get_variance o (one_dist a (snd parts)) light_weighted ;;
      variance1 <- get_variance o (one_dist b (snd parts)) light_weighted ;;
      v <- bop nmul variance0 variance1 ;;
      bop ndiv covariance (amap nsqrt v)
  | _ => Err ValueError
  end.

(** Legendre polynomials by Bonnet's recurrence; scipy.special.legendre(n)
    evaluated at a real *)
Fixpoint legendre2 (n : nat) (x : R) : R * R :=  (* P_n, P_{n+1} *)
  match n with
  | O => (1, x)%R
  | S m => let (a, b) := legendre2 m x in
           (b, ((2 * INR m + 3) * x * b - (INR m + 1) * a) / (INR m + 2))%R
  end.
Definition legendre (n : nat) (x : R) : R := fst (legendre2 n x).

(** poly(a): Horner evaluation starts with 0*a, so non-finite input gives nan *)
Definition npoly (n : nat) (a : num) : num :=
  match a with Fin x => Fin (legendre n x) | _ => NaN end.

(** get_l_moment, base.py lines 560-602; special.legendre(-1) raises ValueError *)
Definition get_l_moment (o : obj) (which_dist : string) (j : nat) (light_weighted : bool) : res (arr num) :=
  let var := part0 which_dist in
  _ <- py_assert (Nat.eqb (String.length var) 1) ;;
  let marginal := Nat.eqb (String.length which_dist) 1 in
  conditioners <- (if marginal then Ok "" else part1 which_dist) ;;
  p <- o_get_p o which_dist false light_weighted ;;
  (* np.cumsum(axis=0) *)
  let F := cumsum0 p in
  initial_zero <- (if marginal then Ok (arr1 [Fin 0] NaN)
                   else cond_shape <- get_distribution_shape (o_cube o) conditioners ;;
                        Ok (full (1 :: cond_shape) (Fin 0))) ;;
  F <- concat0 initial_zero F ;;
  dF <- bop nsub (tail0 F) (init0 F) ;;
  match j with
  | O => Err ValueError
  | S n =>
      let g := amap (fun a => npoly n (nsub (nmul (Fin 2) a) (Fin 1))) F in
      x <- get_variable_edges (o_cube o) var ;;
      y <- bop nmul x (T g) ;;
      let y := T y in
      s <- bop nadd (init0 y) (tail0 y) ;;
      q <- bop nmul (halve s) dF ;;
      asum [0]%Z q
  end.

(** get_l_mean, base.py lines 604-623 *)
Definition get_l_mean (o : obj) (which_dist : string) (light_weighted : bool) :=
  get_l_moment o which_dist 1 light_weighted.
(** get_l_dispersion, base.py lines 625-644 *)
Definition get_l_dispersion (o : obj) (which_dist : string) (light_weighted : bool) :=
  get_l_moment o which_dist 2 light_weighted.
(** get_normalised_l_moment, base.py lines 646-671 *)
Definition get_normalised_l_moment (o : obj) (which_dist : string) (j : nat) (light_weighted : bool)
  : res (arr num) :=
  l_dispersion <- get_l_dispersion o which_dist light_weighted ;;
  lambda_j <- get_l_moment o which_dist j light_weighted ;;
  bop ndiv lambda_j l_dispersion.
(** get_l_skewness, base.py lines 735-751 *)
Definition get_l_skewness (o : obj) (which_dist : string) (light_weighted : bool) :=
  get_normalised_l_moment o which_dist 3 light_weighted.
(** get_l_kurtosis, base.py lines 753-769 *)
Definition get_l_kurtosis (o : obj) (which_dist : string) (light_weighted : bool) :=
  get_normalised_l_moment o which_dist 4 light_weighted.
