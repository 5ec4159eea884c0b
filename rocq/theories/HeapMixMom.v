(** * HeapMixMom: the moments of mixture.py (lines 246-367) on the heap of
    Heap.v; the methods are those of Mixture.v. *)
From Coq Require Import Reals List Bool Arith ZArith String Ascii.
From Verif Require Import Num Arr PyStr Cube Base Moments Mixture Heap HeapMix HeapMom.
Import ListNotations.
Local Open Scope string_scope.

(** what the moments of a mixture use of a component object, beside what its
    distributions use *)
Record hpart := HPart {
  hk_member : hmember;
  hk_get_p : string -> h_method;
  hk_mean : string -> bool -> prog nda;
  hk_noncentral : string -> nat -> nda -> bool -> prog nda
}.
(** a component with the methods of [o] *)
Definition obj_part (t : hmember) (o : hobj) : hpart := HPart t (hb_get_p o) (h_get_mean o) (h_noncentral o).
Definition hparts := list hpart.
Definition part_objects (ps : hparts) : objects := map hk_member ps.
Definition no_part : hpart :=
  HPart no_member (fun _ _ _ => lift (Err AttributeError)) (fun _ _ => lift (Err AttributeError))
        (fun _ _ _ _ => lift (Err AttributeError)).
Definition get_part (ps : hparts) (k : nat) : hpart := nth k ps no_part.

Section Methods.
Context (ps : hparts) (ls : lists) (self : hmix).
Notation mix_p := (h_mix_get_p (part_objects ps) ls self).

(** np.array([f(cmp) for cmp in self.component_list]) *)
Definition h_per_member (f : hpart -> prog nda) : prog nda :=
  l <~ h_list (fun k => f (get_part ps k)) (hx_members ls self) ;; h_stack l.

(** _get_light_reweightings, lines 308-319 *)
Definition h_reweightings : prog nda :=
  p_tz <~ mix_p "tz" true false false ;;
  p_tz_i <~ h_per_member (fun m => hk_get_p m "tz" false false) ;;
  let lw := hq_light_weights (hx_cube self) in
  a <~ h_bop nmul lw p_tz_i ;;
  num <~ h_sum [1; 2]%Z a ;;
  b <~ h_bop nmul lw p_tz ;;
  den <~ h_sum_all b ;;
  h_bop ndiv num den.

(** get_mean, lines 246-306 *)
Definition h_mix_mean (which_dist : string) (light_weighted : bool) : prog nda :=
  mu_i <~ h_per_member (fun m => hk_mean m which_dist light_weighted) ;;
  rw <~ (if light_weighted then h_reweightings else alloc (full [hx_n self] (Fin 1))) ;;
  if negb (has_char "_" which_dist) then
    a <~ h_bop nmul (hx_weights self) rw ;;
    b <~ h_bop nmul a (v_T mu_i) ;;
    s <~ h_sum [-1]%Z b ;;
    ret (v_T s)
  else
    let variable_to_mean := part0 which_dist in
    conditioners <~ lift (part1 which_dist) ;;
    w_p_cond <~ h_per_member (fun m => hk_get_p m conditioners true light_weighted) ;;
    w_p_cond <~ h_bop nmul (v_T w_p_cond) (hx_weights self) ;;
    w_p_cond <~ (if String.eqb variable_to_mean "x" then h_getitem [IAll; INew] (v_T w_p_cond) else ret (v_T w_p_cond)) ;;
    denom <~ mix_p conditioners true true light_weighted ;;
    a <~ h_bop nmul (v_T w_p_cond) rw ;;
    b <~ h_bop nmul a (v_T mu_i) ;;
    s <~ h_sum [-1]%Z b ;;
    h_bop ndiv (v_T s) denom.

(** get_central_moment, lines 321-367 *)
Definition h_mix_central (which_dist : string) (j : nat) (light_weighted : bool) : prog nda :=
  mu <~ h_mix_mean which_dist light_weighted ;;
  mu_i <~ h_per_member (fun m => hk_noncentral m which_dist j mu light_weighted) ;;
  if negb (has_char "_" which_dist) then
    mu_i <~ h_moveaxis mu_i [0]%Z [-1]%Z ;;
    if light_weighted then
      rw <~ h_reweightings ;;
      a <~ h_bop nmul (hx_weights self) rw ;;
      b <~ h_bop nmul a mu_i ;;
      h_sum [-1]%Z b
    else
      b <~ h_bop nmul (hx_weights self) mu_i ;;
      h_sum [-1]%Z b
  else
    let variable_to_mean := part0 which_dist in
    conditioners <~ lift (part1 which_dist) ;;
    w_p_cond <~ mix_p conditioners false true light_weighted ;;
    w_p_cond <~ (if String.eqb variable_to_mean "x" then h_getitem [IAll; INew] w_p_cond else ret w_p_cond) ;;
    a <~ h_bop nmul w_p_cond mu_i ;;
    num <~ h_sum [0]%Z a ;;
    den <~ h_sum [0]%Z w_p_cond ;;
    h_bop ndiv num den.

(** the statistics inherited from Component, as in MixStat.v: get_dispersion,
    get_normalised_central_moment and get_excess_central_moment (base.py lines
    335-392) call the mixture's own get_central_moment *)
Definition h_mix_dispersion (which_dist : string) (light_weighted : bool) : prog nda :=
  variance <~ h_mix_central which_dist 2 light_weighted ;;
  h_map nsqrt variance.
Definition h_mix_normalised (which_dist : string) (j : nat) (light_weighted : bool) : prog nda :=
  central_moment <~ h_mix_central which_dist j light_weighted ;;
  dispersion <~ h_mix_dispersion which_dist light_weighted ;;
  d <~ h_map (fun d => npow d j) dispersion ;;
  h_bop ndiv central_moment d.
Definition h_mix_excess (f2m1 : num) (which_dist : string) (j : nat) (light_weighted : bool) : prog nda :=
  nrm_central_moment <~ h_mix_normalised which_dist j light_weighted ;;
  n <~ alloc (scal (get_normalised_central_moment_normal f2m1 j)) ;;
  h_bop nsub nrm_central_moment n.
(** a mixture as seen by get_covariance, get_noncentral_moment and the L-moments;
    [g] is its cube *)
Definition h_mix_own (g : hgrid) : hobj :=
  HObj g (fun w density lw => mix_p w true density lw) (fun w => Some (h_mix_mean w)) (fun _ => None).
(** get_correlation, base.py lines 525-558 *)
Definition h_mix_correlation (g : hgrid) (which_dist : string) (light_weighted : bool) : prog nda :=
  parts <~ lift (dep_parts which_dist) ;;
  match chars (fst parts) with
  | [a; b] =>
      covariance <~ h_covariance (h_mix_own g) which_dist light_weighted ;;
      variance0 <~ h_mix_central (one_dist a (snd parts)) 2 light_weighted ;;
      variance1 <~ h_mix_central (one_dist b (snd parts)) 2 light_weighted ;;
      v <~ h_bop nmul variance0 variance1 ;;
      s <~ h_map nsqrt v ;;
      h_bop ndiv covariance s
  | _ => lift (Err ValueError)
  end.
End Methods.
