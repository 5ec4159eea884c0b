(** * Base: popkinmocks/components/base.py, distributions.

    Methods are looked up by name as Python does.  A class is represented by
    its table of attribute names; [None] is AttributeError.  Boolean arguments
    are in the order density, light_weighted. *)
From Coq Require Import Reals List Bool Arith ZArith String Ascii.
From Verif Require Import Num Arr PyStr Cube.
Import ListNotations.
Local Open Scope string_scope.

(** bound method  density -> light_weighted -> array *)
Definition log_p_method := bool -> bool -> res (arr num).

(** the attributes "_get_log_p_<key>" of an object *)
Definition log_p_table := string -> option log_p_method.

(** getattr(self, "_get_log_p_" + key) *)
Definition getattr_log_p (M : log_p_table) (key : string) : res log_p_method :=
  match M key with Some m => Ok m | None => Err AttributeError end.

(** A base component: its cube and stored log density. *)
Record component := Component { comp_cube : cube; log_p_tvxz : arr num }.

(** Component.__init__, base.py lines 23-31 *)
Definition component_init (c : cube) (log_p : arr num) : res component :=
  shape_tvxz <- get_distribution_shape c "tvxz" ;;
  if natlist_eqb (shp log_p) shape_tvxz then Ok (Component c log_p) else Err ValueError.

(** _get_log_p_tvxz, base.py lines 1017-1041 (copy.copy makes the in-place
    updates local; aliasing is treated in Heap.v) *)
Definition log_p_tvxz_m (self : component) : log_p_method := fun density light_weighted =>
  let c := comp_cube self in
  let lp := log_p_tvxz self in
  vol <- construct_volume_element c "tvxz" ;;
  let log_dtvxz := amap nlog vol in
  lp <- iop nadd lp log_dtvxz ;;
  lp <- (if light_weighted then
           lw <- getitem [IAll; INew; INew; INew; IAll] (light_weights (c_ssps c)) ;;
           let log_lw := amap nlog lw in
           lp <- iop nadd lp log_lw ;;
           log_normalisation <- logsumexp_all lp ;;
           iop nsub lp log_normalisation
         else Ok lp) ;;
  if density then iop nsub lp log_dtvxz else Ok lp.

(** common shape of the marginal methods: logsumexp over [axes] of the joint
    bin probabilities, then optionally subtract the log volume element *)
Definition marginal_m (self : component) (axes : list Z) (volume : res (arr num)) : log_p_method :=
  fun density light_weighted =>
  lp <- log_p_tvxz_m self false light_weighted ;;
  lp <- logsumexp lp axes ;;
  if density then dvol <- volume ;; iop nsub lp (amap nlog dvol) else Ok lp.

Definition vol_el (self : component) (s : string) := construct_volume_element (comp_cube self) s.

(** base.py lines 884-901 *)
Definition log_p_t_m self := marginal_m self [1;2;3;4]%Z (Ok (delta_t (c_ssps (comp_cube self)))).
(** base.py lines 903-920 *)
Definition log_p_tv_m self := marginal_m self [2;3;4]%Z (vol_el self "tv").
(** base.py lines 922-939 *)
Definition log_p_tx_m self := marginal_m self [1;4]%Z (vol_el self "tx").
(** base.py lines 941-958 *)
Definition log_p_tz_m self := marginal_m self [1;2;3]%Z (vol_el self "tz").
(** base.py lines 960-977 *)
Definition log_p_tvx_m self := marginal_m self [4]%Z (vol_el self "tvx").
(** base.py lines 979-996 *)
Definition log_p_tvz_m self := marginal_m self [2;3]%Z (vol_el self "tvz").
(** base.py lines 998-1015 *)
Definition log_p_txz_m self := marginal_m self [1]%Z (vol_el self "txz").
(** base.py lines 1043-1060 *)
Definition log_p_v_m self := marginal_m self [0;2;3;4]%Z (vol_el self "v").
(** base.py lines 1062-1079 *)
Definition log_p_vx_m self := marginal_m self [0;4]%Z (vol_el self "vx").
(** base.py lines 1081-1098 *)
Definition log_p_vz_m self := marginal_m self [0;2;3]%Z (vol_el self "vz").
(** base.py lines 1100-1117 *)
Definition log_p_vxz_m self := marginal_m self [0]%Z (vol_el self "vxz").
(** base.py lines 1119-1136 *)
Definition log_p_x_m self := marginal_m self [0;1;4]%Z (vol_el self "x").
(** base.py lines 1138-1155 *)
Definition log_p_xz_m self := marginal_m self [0;1]%Z (vol_el self "xz").
(** base.py lines 1157-1174 *)
Definition log_p_z_m self := marginal_m self [0;1;2;3]%Z (vol_el self "z").

(** look up a key in an association list of methods *)
Fixpoint lookup {A} (l : list (string * A)) (key : string) : option A :=
  match l with
  | [] => None
  | (k, m) :: l' => if String.eqb key k then Some m else lookup l' key
  end.

(** the "_get_log_p_*" attributes of a base Component *)
Definition base_table (self : component) : log_p_table :=
  lookup
    [ ("t", log_p_t_m self); ("tv", log_p_tv_m self); ("tx", log_p_tx_m self);
      ("tz", log_p_tz_m self); ("tvx", log_p_tvx_m self); ("tvz", log_p_tvz_m self);
      ("txz", log_p_txz_m self); ("tvxz", log_p_tvxz_m self); ("v", log_p_v_m self);
      ("vx", log_p_vx_m self); ("vz", log_p_vz_m self); ("vxz", log_p_vxz_m self);
      ("x", log_p_x_m self); ("xz", log_p_xz_m self); ("z", log_p_z_m self) ].

(** _get_log_marginal_distribution, base.py lines 106-128 *)
Definition get_log_marginal (M : log_p_table) (which_dist : string) : log_p_method :=
  fun density light_weighted =>
  f <- getattr_log_p M which_dist ;; f density light_weighted.

(** [-(i + 1) for i in range(n)][::-1] *)
Definition neg_positions (n : nat) : list Z :=
  rev (map (fun i => (- (Z.of_nat i + 1))%Z) (seq 0 n)).

(** _get_log_conditional_distribution, base.py lines 130-177.  The recursive
    calls of get_log_p are on strings without "_" (both parts of the split), so
    they are [get_log_marginal]; see [split_no_sep] in StrLemmas.v. *)
Definition get_log_conditional (c : cube) (M : log_p_table) (which_dist : string) : log_p_method :=
  fun density light_weighted =>
  _ <- py_assert (has_char "_" which_dist) ;;
  match split "_" which_dist with
  | [dist; marginal] =>
      let joint_over_marginal :=
        let joint := sorted_str (dist ++ marginal) in
        log_p_joint <- get_log_marginal M joint false light_weighted ;;
        log_p_marginal <- get_log_marginal M marginal false light_weighted ;;
        let joint := replace_char "x" ["x"%char; "y"%char] joint in
        let marginal := replace_char "x" ["x"%char; "y"%char] marginal in
        let old_pos_in_joint := map (find joint) (chars marginal) in
        let new_pos_in_joint := neg_positions (String.length marginal) in
        log_p_joint <- moveaxis log_p_joint old_pos_in_joint new_pos_in_joint ;;
        log_p_cond <- bop nsub log_p_joint log_p_marginal ;;
        if density then
          dvol <- construct_volume_element c which_dist ;;
          bop nsub log_p_cond (amap nlog dvol)
        else Ok log_p_cond in
      match (f <- getattr_log_p M which_dist ;; f density light_weighted) with
      | Ok r => Ok r
      | Err AttributeError => joint_over_marginal
      | Err NotImplementedError => joint_over_marginal
      | Err e => Err e
      end
  | _ => Err ValueError
  end.

(** get_log_p, base.py lines 67-104 *)
Definition get_log_p_of (c : cube) (M : log_p_table) (which_dist : string) : log_p_method :=
  fun density light_weighted =>
  if has_char "_" which_dist
  then get_log_conditional c M which_dist density light_weighted
  else get_log_marginal M which_dist density light_weighted.

(** get_p, base.py lines 33-65 *)
Definition get_p_of (c : cube) (M : log_p_table) (which_dist : string) : log_p_method :=
  fun density light_weighted =>
  log_p <- get_log_p_of c M which_dist density light_weighted ;;
  Ok (amap nexp log_p).

(** the public methods of a base component *)
Definition get_log_p (self : component) := get_log_p_of (comp_cube self) (base_table self).
Definition get_p (self : component) := get_p_of (comp_cube self) (base_table self).
