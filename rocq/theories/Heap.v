(** * Heap: arrays as objects, and the distributions of base.py on them.

    The other model files treat arrays as values.  Here an array object is a
    view of a buffer: several objects may share one, and an in-place operation
    on one changes what the others hold.  Operations of numpy fall into three
    kinds: those that make a new buffer (ufuncs, np.sum, logsumexp, copy), those
    that return another view of the same buffer (basic indexing, .T,
    np.moveaxis), and in-place ones ([a += b], [a -= b]). *)
From Coq Require Import Reals List Bool Arith ZArith String Ascii.
From Verif Require Import Num Arr PyStr Cube Base.
Import ListNotations.
Local Open Scope string_scope.

(** the buffers in order of allocation; addresses are positions *)
Definition heap := list (arr num).

(** an array object: entry [idx] is entry [na_idx idx] of the buffer at
    [na_addr] *)
Record nda := Nda { na_addr : nat; na_shp : list nat; na_idx : list nat -> list nat }.

Definition buffer (h : heap) (a : nat) : arr num := nth a h (scal NaN).
Definition value (h : heap) (r : nda) : arr num :=
  Arr (na_shp r) (fun idx => ent (buffer h (na_addr r)) (na_idx r idx)).

Fixpoint set_nth {A} (n : nat) (x : A) (l : list A) : list A :=
  match n, l with
  | _, [] => []
  | O, _ :: l' => x :: l'
  | S n', y :: l' => y :: set_nth n' x l'
  end.

(** write the entries of [v] through the view [r] *)
Definition store (h : heap) (r : nda) (v : arr num) : heap :=
  let b := buffer h (na_addr r) in
  set_nth (na_addr r)
    (Arr (shp b) (fun k =>
       match List.find (fun idx => natlist_eqb (na_idx r idx) k) (all_idx (na_shp r)) with
       | Some idx => ent v idx
       | None => ent b k
       end)) h.

(** a piece of code: the heap afterwards, with its result or exception *)
Definition prog (A : Type) := heap -> heap * res A.
Definition ret {A} (a : A) : prog A := fun h => (h, Ok a).
Definition lift {A} (r : res A) : prog A := fun h => (h, r).
Definition bnd {A B} (m : prog A) (k : A -> prog B) : prog B := fun h =>
  match m h with
  | (h', Ok a) => k a h'
  | (h', Err e) => (h', Err e)
  end.
Notation "x <~ m ;; k" := (bnd m (fun x => k)) (at level 100, m at next level, right associativity).

(** *** operations that make a new buffer *)
Definition alloc (v : arr num) : prog nda := fun h =>
  ((h ++ [v])%list, Ok (Nda (List.length h) (shp v) (fun idx => idx))).
Definition new (f : heap -> res (arr num)) : prog nda := fun h =>
  match f h with Ok v => alloc v h | Err e => (h, Err e) end.
(** copy.copy(a), a.copy() *)
Definition h_copy (a : nda) : prog nda := new (fun h => Ok (value h a)).
Definition h_map (f : num -> num) (a : nda) : prog nda := new (fun h => Ok (amap f (value h a))).
Definition h_bop (f : num -> num -> num) (a b : nda) : prog nda := new (fun h => bop f (value h a) (value h b)).
Definition h_lse (a : nda) (axes : list Z) : prog nda := new (fun h => logsumexp (value h a) axes).
Definition h_lse_all (a : nda) : prog nda := new (fun h => logsumexp_all (value h a)).

(** *** views *)
Definition v_getitem (spec : list ix) (a : nda) : res nda :=
  match gi_shape spec (na_shp a) with
  | None => Err IndexError
  | Some s => Ok (Nda (na_addr a) s (fun idx => na_idx a (gi_idx spec (na_shp a) idx)))
  end.
Definition v_T (a : nda) : nda := Nda (na_addr a) (rev (na_shp a)) (fun idx => na_idx a (rev idx)).
Definition v_transpose (a : nda) (order : list nat) : nda :=
  Nda (na_addr a) (map (fun k => nth k (na_shp a) 0) order)
      (fun idx => na_idx a (map (fun j => nth (index_of j order) idx 0) (seq 0 (List.length (na_shp a))))).
Definition v_moveaxis (a : nda) (source destination : list Z) : res nda :=
  src <- norm_axes (List.length (na_shp a)) source ;;
  dst <- norm_axes (List.length (na_shp a)) destination ;;
  if Nat.eqb (List.length src) (List.length dst)
  then Ok (v_transpose a (moveaxis_order (List.length (na_shp a)) src dst))
  else Err ValueError.
Definition v_slice0 (lo n : nat) (a : nda) : nda :=
  Nda (na_addr a) (match na_shp a with [] => [] | _ :: s => n :: s end)
      (fun idx => na_idx a match idx with [] => [] | i :: r => (lo + i) :: r end).
Definition v_tail0 (a : nda) : nda := v_slice0 1 (hd 0 (na_shp a) - 1) a.
Definition v_init0 (a : nda) : nda := v_slice0 0 (hd 0 (na_shp a) - 1) a.
Definition h_getitem (spec : list ix) (a : nda) : prog nda := lift (v_getitem spec a).
Definition h_moveaxis (a : nda) (s d : list Z) : prog nda := lift (v_moveaxis a s d).

(** *** in place *)
Definition h_iop (f : num -> num -> num) (a b : nda) : prog nda := fun h =>
  match iop f (value h a) (value h b) with
  | Ok v => (store h a v, Ok a)
  | Err e => (h, Err e)
  end.

(** ** the cube *)

(** the arrays and numbers of the cube and its SSPs which distributions use *)
Record hcube := HCube {
  hq_delta_t : nda; hq_delta_z : nda; hq_v_edg : nda; hq_light_weights : nda;
  hq_dx : num; hq_dy : num
}.

(** construct_volume_element, ifu_cube.py lines 52-95 *)
Definition h_vol_da (c : hcube) (var : ascii) (da : option nda) : prog (option nda) :=
  if Ascii.eqb var "t" then ret (Some (hq_delta_t c))
  else if Ascii.eqb var "v" then
    d <~ h_bop nsub (v_tail0 (hq_v_edg c)) (v_init0 (hq_v_edg c)) ;; ret (Some d)
  else if Ascii.eqb var "x" then d <~ alloc (arr1 [hq_dx c] NaN) ;; ret (Some d)
  else if Ascii.eqb var "y" then d <~ alloc (arr1 [hq_dy c] NaN) ;; ret (Some d)
  else if Ascii.eqb var "z" then ret (Some (hq_delta_z c))
  else ret da.
Fixpoint h_vol_loop (c : hcube) (ndim count : nat) (vars : list ascii) (da : option nda) (dvol : nda) : prog nda :=
  match vars with
  | [] => ret dvol
  | var :: vars' =>
      da' <~ h_vol_da c var da ;;
      match da' with
      | None => lift (Err UnboundLocalError)
      | Some d =>
          d' <~ h_getitem (repeat INew count ++ [IAll] ++ repeat INew (ndim - count - 1))%list d ;;
          dvol' <~ h_bop nmul dvol d' ;;
          h_vol_loop c ndim (count + 1) vars' da' dvol'
      end
  end.
Definition h_volume (c : hcube) (which_dist : string) : prog nda :=
  let dist_is_conditional := has_char "_" which_dist in
  parts <~ lift (if dist_is_conditional
                 then match split "_" which_dist with
                      | [d; m] => Ok (d, Some (replace_char "x" ["x"%char; "y"%char] m))
                      | _ => Err ValueError
                      end
                 else Ok (which_dist, None)) ;;
  let dist_string := replace_char "x" ["x"%char; "y"%char] (fst parts) in
  let ndim := String.length dist_string in
  dvol <~ alloc (full (repeat 1 ndim) (Fin 1)) ;;
  dvol <~ h_vol_loop c ndim 0 (chars dist_string) None dvol ;;
  match snd parts with
  | None => h_getitem (repeat IAll (List.length (na_shp dvol))) dvol
  | Some m => h_getitem (repeat IAll (List.length (na_shp dvol)) ++ repeat INew (String.length m))%list dvol
  end.

(** ** a base component *)
Record hcomp := HComp { ho_cube : hcube; ho_log_p : nda }.
Definition h_method := bool -> bool -> prog nda.

(** _get_log_p_tvxz, base.py lines 1030-1041 *)
Definition h_tvxz (self : hcomp) : h_method := fun density light_weighted =>
  let c := ho_cube self in
  lp <~ h_copy (ho_log_p self) ;;
  vol <~ h_volume c "tvxz" ;;
  log_dtvxz <~ h_map nlog vol ;;
  lp <~ h_iop nadd lp log_dtvxz ;;
  lp <~ (if light_weighted then
           lw <~ h_getitem [IAll; INew; INew; INew; IAll] (hq_light_weights c) ;;
           log_lw <~ h_map nlog lw ;;
           lp <~ h_iop nadd lp log_lw ;;
           log_normalisation <~ h_lse_all lp ;;
           h_iop nsub lp log_normalisation
         else ret lp) ;;
  if density then h_iop nsub lp log_dtvxz else ret lp.

(** the marginal methods, base.py lines 884-1015 and 1043-1174: logsumexp, then
    subtract in place *)
Definition h_marginal (self : hcomp) (axes : list Z) (volume : prog nda) : h_method := fun density light_weighted =>
  lp <~ h_tvxz self false light_weighted ;;
  lp <~ h_lse lp axes ;;
  if density then dvol <~ volume ;; log_dvol <~ h_map nlog dvol ;; h_iop nsub lp log_dvol else ret lp.

Definition h_table (self : hcomp) : string -> option h_method :=
  let m := fun axes s => h_marginal self axes (h_volume (ho_cube self) s) in
  lookup
    [ ("t", h_marginal self [1;2;3;4]%Z (ret (hq_delta_t (ho_cube self)))); ("tv", m [2;3;4]%Z "tv"); ("tx", m [1;4]%Z "tx");
      ("tz", m [1;2;3]%Z "tz"); ("tvx", m [4]%Z "tvx"); ("tvz", m [2;3]%Z "tvz"); ("txz", m [1]%Z "txz"); ("tvxz", h_tvxz self);
      ("v", m [0;2;3;4]%Z "v"); ("vx", m [0;4]%Z "vx"); ("vz", m [0;2;3]%Z "vz"); ("vxz", m [0]%Z "vxz");
      ("x", m [0;1;4]%Z "x"); ("xz", m [0;1]%Z "xz"); ("z", m [0;1;2;3]%Z "z") ].

(** ** queries of any component, given its table of methods *)
Definition h_getattr (M : string -> option h_method) (key : string) : prog h_method :=
  lift (match M key with Some m => Ok m | None => Err AttributeError end).
(** _get_log_marginal_distribution, base.py lines 106-128 *)
Definition h_log_marginal (M : string -> option h_method) (which_dist : string) : h_method := fun density light_weighted =>
  f <~ h_getattr M which_dist ;; f density light_weighted.
(** try: m, except (AttributeError, NotImplementedError): k *)
Definition h_try (m k : prog nda) : prog nda := fun h =>
  match m h with
  | (h', Ok r) => (h', Ok r)
  | (h', Err AttributeError) => k h'
  | (h', Err NotImplementedError) => k h'
  | (h', Err e) => (h', Err e)
  end.
(** _get_log_conditional_distribution, base.py lines 130-177 *)
Definition h_log_conditional (c : hcube) (M : string -> option h_method) (which_dist : string) : h_method :=
  fun density light_weighted =>
  _ <~ lift (py_assert (has_char "_" which_dist)) ;;
  match split "_" which_dist with
  | [dist; marginal] =>
      h_try
        (f <~ h_getattr M which_dist ;; f density light_weighted)
        (let joint := sorted_str (dist ++ marginal) in
         log_p_joint <~ h_log_marginal M joint false light_weighted ;;
         log_p_marginal <~ h_log_marginal M marginal false light_weighted ;;
         let joint := replace_char "x" ["x"%char; "y"%char] joint in
         let marginal := replace_char "x" ["x"%char; "y"%char] marginal in
         let old_pos_in_joint := map (find joint) (chars marginal) in
         let new_pos_in_joint := neg_positions (String.length marginal) in
         log_p_joint <~ h_moveaxis log_p_joint old_pos_in_joint new_pos_in_joint ;;
         log_p_cond <~ h_bop nsub log_p_joint log_p_marginal ;;
         if density then
           dvol <~ h_volume c which_dist ;;
           log_dvol <~ h_map nlog dvol ;;
           h_bop nsub log_p_cond log_dvol
         else ret log_p_cond)
  | _ => lift (Err ValueError)
  end.
(** get_log_p, base.py lines 67-104 *)
Definition h_get_log_p_of (c : hcube) (M : string -> option h_method) (which_dist : string) : h_method :=
  fun density light_weighted =>
  if has_char "_" which_dist
  then h_log_conditional c M which_dist density light_weighted
  else h_log_marginal M which_dist density light_weighted.
(** get_p, base.py lines 33-65 *)
Definition h_get_p_of (c : hcube) (M : string -> option h_method) (which_dist : string) : h_method :=
  fun density light_weighted =>
  log_p <~ h_get_log_p_of c M which_dist density light_weighted ;; h_map nexp log_p.

Definition h_get_log_p (self : hcomp) := h_get_log_p_of (ho_cube self) (h_table self).
Definition h_get_p (self : hcomp) := h_get_p_of (ho_cube self) (h_table self).
