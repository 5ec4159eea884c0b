(** * HeapMix: mixtures with arrays and lists as objects
    (popkinmocks/components/mixture.py lines 25-244).

    A Python list holds references to components; the constructor keeps the list
    it is given, and copies the weights. *)
From Coq Require Import Reals List Bool Arith ZArith String Ascii.
From Verif Require Import Num Arr PyStr Cube Base Parametric Mixture Heap.
Import ListNotations.
Local Open Scope string_scope.

(** what a mixture uses of a component object: its methods "_get_log_p_<dist>"
    and its attribute ybar *)
Record hmember := HMember { hm_table : string -> option h_method; hm_ybar : option nda }.
(** the component objects in order of creation; the Python lists, each a list of
    component objects *)
Definition objects := list hmember.
Definition lists := list (list nat).
Definition no_member : hmember := HMember (fun _ => None) None.
Definition object (os : objects) (k : nat) : hmember := nth k os no_member.

(** self.cube, self.component_list, self.n_cmps, self.weights *)
Record hmix := HMix { hx_cube : hcube; hx_list : nat; hx_n : nat; hx_weights : nda }.
Definition hx_members (ls : lists) (self : hmix) : list nat := nth (hx_list self) ls [].

(** entry [i] of a 1-d array; all of them *)
Definition h_item (a : nda) (i : nat) : prog num := fun h => (h, Ok (ent (value h a) [i])).
Definition h_items (a : nda) : prog (list num) := fun h =>
  (h, Ok (map (fun i => ent (value h a) [i]) (seq 0 (hd 0 (na_shp a))))).

(** __init__, lines 25-33.  [weights] is an array; of a list of numbers
    np.array also makes a new array. *)
Definition h_mixture (c : hcube) (ls : lists) (component_list : nat) (weights : nda) : prog hmix :=
  let n := List.length (nth component_list ls []) in
  _ <~ lift (py_assert (Nat.eqb n (hd 0 (na_shp weights)))) ;;
  weights <~ h_copy weights ;;
  ws <~ h_items weights ;;
  _ <~ lift (py_assert (forallb (fun w => nlt (Fin 0) w) ws)) ;;
  _ <~ lift (py_assert (isclose1 (nsum ws))) ;;
  ret (HMix c component_list n weights).

(** a[i] = v *)
Definition h_setitem (a : nda) (i : nat) (v : nda) : prog unit := fun h =>
  match v_getitem [IInt (Z.of_nat i)] a with
  | Err e => (h, Err e)
  | Ok row =>
      match broadcast_to (value h v) (na_shp row) with
      | Err e => (h, Err e)
      | Ok w => (store h row w, Ok tt)
      end
  end.

(** np.log(w) + log_p_func(density=density, light_weighted=False), lines 154-155 *)
Definition h_weighted_log_p (os : objects) (weights : nda) (which_dist : string) (density : bool) (cmp i : nat) : prog nda :=
  w <~ h_item weights i ;;
  log_p_func <~ h_getattr (hm_table (object os cmp)) which_dist ;;
  lp <~ log_p_func density false ;;
  h_map (fun a => nadd (nlog w) a) lp.
(** the loop over enumerate(zip(self.component_list, self.weights)), lines
    152-159; [log_p] is not bound before the first turn *)
Fixpoint h_fill (os : objects) (n : nat) (weights : nda) (which_dist : string) (density : bool)
         (members : list nat) (i : nat) (log_p : option nda) : prog (option nda) :=
  match members with
  | [] => ret log_p
  | cmp :: members' =>
      if Nat.ltb i (hd 0 (na_shp weights)) then
        log_pi <~ h_weighted_log_p os weights which_dist density cmp i ;;
        a <~ match log_p with
             | None => alloc (full (n :: na_shp log_pi) (Fin 0))
             | Some a => ret a
             end ;;
        _ <~ h_setitem a i log_pi ;;
        h_fill os n weights which_dist density members' (S i) (Some a)
      else ret log_p
  end.

(** evaluate_ybar, lines 35-48: the loop of lines 46-47 *)
Fixpoint h_add_ybar (os : objects) (weights : nda) (members : list nat) (i : nat) (ybar : nda) : prog nda :=
  match members with
  | [] => ret ybar
  | comp :: members' =>
      if Nat.ltb i (hd 0 (na_shp weights)) then
        w <~ h_item weights i ;;
        y <~ lift (attr (hm_ybar (object os comp))) ;;
        t <~ h_map (nmul w) y ;;
        ybar <~ h_iop nadd ybar t ;;
        h_add_ybar os weights members' (S i) ybar
      else ret ybar
  end.

Section Methods.
Context (os : objects) (ls : lists) (self : hmix).

(** the array which becomes self.ybar *)
Definition h_mix_ybar : prog nda :=
  match hx_members ls self with
  | [] => lift (Err IndexError)
  | first :: _ =>
      y <~ lift (attr (hm_ybar (object os first))) ;;
      ybar <~ alloc (full (na_shp y) (Fin 0)) ;;
      h_add_ybar os (hx_weights self) (hx_members ls self) 0 ybar
  end.

(** _get_log_marginal_distribution_mass_wtd, lines 137-160 *)
Definition h_mass_wtd (which_dist : string) (density : bool) : prog nda :=
  log_p <~ h_fill os (hx_n self) (hx_weights self) which_dist density (hx_members ls self) 0 None ;;
  match log_p with Some a => ret a | None => lift (Err UnboundLocalError) end.

(** _get_log_marginal_distribution_light_wtd, lines 162-200 *)
Definition h_light_wtd (which_dist : string) (density : bool) : prog nda :=
  let light := hq_light_weights (hx_cube self) in
  let with_v := has_char "v" which_dist in
  let current_dist := if with_v then "tvxz" else "txz" in
  lw <~ (if with_v then h_getitem [INew; IAll; INew; INew; INew; IAll] light
         else h_getitem [INew; IAll; INew; INew; IAll] light) ;;
  log_P_mw <~ h_mass_wtd current_dist false ;;
  log_lw <~ h_map nlog lw ;;
  log_P_lw <~ h_bop nadd log_P_mw log_lw ;;
  log_normalisation <~ h_lse_all log_P_lw ;;
  log_P_lw <~ h_iop nsub log_P_lw log_normalisation ;;
  log_P_lw <~ (if has_char "t" which_dist then ret log_P_lw else h_lse log_P_lw [1]%Z) ;;
  log_P_lw <~ (if has_char "x" which_dist then ret log_P_lw else h_lse log_P_lw [-3; -2]%Z) ;;
  log_P_lw <~ (if has_char "z" which_dist then ret log_P_lw else h_lse log_P_lw [-1]%Z) ;;
  if density then
    volume_element <~ h_volume (hx_cube self) which_dist ;;
    log_vol <~ h_map nlog volume_element ;;
    h_iop nsub log_P_lw log_vol
  else ret log_P_lw.

(** the marginal branch of get_log_p, lines 125-135 *)
Definition h_mix_marginal (which_dist : string) (collapse density light_weighted : bool) : prog nda :=
  log_p <~ (if light_weighted then h_light_wtd which_dist density else h_mass_wtd which_dist density) ;;
  if collapse then h_lse log_p [0]%Z else ret log_p.

(** _get_log_conditional_distribution, lines 202-244 *)
Definition h_mix_conditional (which_dist : string) (density light_weighted : bool) : prog nda :=
  _ <~ lift (py_assert (has_char "_" which_dist)) ;;
  match split "_" which_dist with
  | [dist; marginal] =>
      let joint := sorted_str (dist ++ marginal) in
      log_p_joint <~ h_mix_marginal joint false false light_weighted ;;
      log_p_marginal <~ h_mix_marginal marginal true false light_weighted ;;
      let joint := replace_char "x" ["x"%char; "y"%char] joint in
      let marginal := replace_char "x" ["x"%char; "y"%char] marginal in
      let joint := "i" ++ joint in
      let old_pos := map (find joint) (chars marginal) in
      let new_pos := neg_positions (String.length marginal) in
      log_p_joint <~ h_moveaxis log_p_joint old_pos new_pos ;;
      log_p_conditional <~ h_bop nsub log_p_joint log_p_marginal ;;
      if density then
        dvol <~ h_volume (hx_cube self) which_dist ;;
        log_dvol <~ h_map nlog dvol ;;
        h_bop nsub log_p_conditional log_dvol
      else ret log_p_conditional
  | _ => lift (Err ValueError)
  end.

(** get_log_p, lines 88-135 *)
Definition h_mix_get_log_p (which_dist : string) (collapse density light_weighted : bool) : prog nda :=
  if has_char "_" which_dist then
    log_p <~ h_mix_conditional which_dist density light_weighted ;;
    if collapse then h_lse log_p [0]%Z else ret log_p
  else h_mix_marginal which_dist collapse density light_weighted.

(** get_p, lines 50-86 *)
Definition h_mix_get_p (which_dist : string) (collapse density light_weighted : bool) : prog nda :=
  log_p <~ h_mix_get_log_p which_dist collapse density light_weighted ;;
  h_map nexp log_p.
End Methods.
