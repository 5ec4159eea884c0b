(** * Arr: the numpy array operations used by popkinmocks.

    An array is a shape together with a function from index lists to entries.
    Only the entries at in-bounds indices are meaningful; all claims about
    arrays are stated on in-bounds indices.

    Each operation follows numpy's documented rule, including the exception
    raised on misuse.  numpy's AxisError is a subclass of ValueError and
    IndexError; it is represented by ValueError. *)

From Coq Require Import Reals List Bool Arith ZArith.
From Verif Require Import Num.
Import ListNotations.

Record arr (A : Type) := Arr { shp : list nat; ent : list nat -> A }.
Arguments Arr {A} shp ent.
Arguments shp {A} a.
Arguments ent {A} a idx.

(** The index list [idx] is in bounds for shape [s]. *)
Definition inb (idx s : list nat) : Prop := Forall2 lt idx s.

(** All in-bounds index lists of a shape, in C order. *)
Fixpoint all_idx (s : list nat) : list (list nat) :=
  match s with
  | [] => [[]]
  | n :: s' => flat_map (fun i => map (cons i) (all_idx s')) (seq 0 n)
  end.

(** number of entries *)
Definition size_of (s : list nat) : nat := fold_right Nat.mul 1 s.

Fixpoint natlist_eqb (a b : list nat) : bool :=
  match a, b with
  | [], [] => true
  | x :: a', y :: b' => Nat.eqb x y && natlist_eqb a' b'
  | _, _ => false
  end.

(** ** element-wise operations *)

(** a numpy scalar (0-d array) *)
Definition scal {A} (x : A) : arr A := Arr [] (fun _ => x).

(** unary ufunc: np.exp(a), np.log(a), a**0.5, ... *)
Definition amap {A B} (f : A -> B) (a : arr A) : arr B :=
  Arr (shp a) (fun idx => f (ent a idx)).

(** broadcast of two dimensions *)
Definition bdim (a b : nat) : option nat :=
  if Nat.eqb a b then Some a
  else if Nat.eqb a 1 then Some b
  else if Nat.eqb b 1 then Some a
  else None.

Fixpoint bshape_rev (s1 s2 : list nat) : option (list nat) :=
  match s1, s2 with
  | [], l => Some l
  | l, [] => Some l
  | a :: s1', b :: s2' =>
      match bdim a b with
      | None => None
      | Some d => match bshape_rev s1' s2' with
                  | None => None
                  | Some r => Some (d :: r)
                  end
      end
  end.

(** broadcast shape: right-aligned; None when incompatible *)
Definition bshape (s1 s2 : list nat) : option (list nat) :=
  match bshape_rev (rev s1) (rev s2) with
  | None => None
  | Some r => Some (rev r)
  end.

(** index into a dimension of size [d] that is being broadcast *)
Definition pick (d i : nat) : nat := if Nat.eqb d 1 then 0 else i.

Fixpoint map2 {A B C} (f : A -> B -> C) (l1 : list A) (l2 : list B) : list C :=
  match l1, l2 with
  | a :: l1', b :: l2' => f a b :: map2 f l1' l2'
  | _, _ => []
  end.

(** index used in an operand of shape [s] for the result index [idx] *)
Definition bidx (s idx : list nat) : list nat :=
  map2 pick s (skipn (length idx - length s) idx).

(** binary ufunc with broadcasting: a + b, a - b, a * b, a / b, ... *)
Definition bop {A B C} (f : A -> B -> C) (a : arr A) (b : arr B) : res (arr C) :=
  match bshape (shp a) (shp b) with
  | None => Err ValueError
  | Some s => Ok (Arr s (fun idx => f (ent a (bidx (shp a) idx)) (ent b (bidx (shp b) idx))))
  end.

(** in-place binary ufunc: a += b, a -= b; the result must have a's shape *)
Definition iop {A B} (f : A -> B -> A) (a : arr A) (b : arr B) : res (arr A) :=
  match bshape (shp a) (shp b) with
  | None => Err ValueError
  | Some s => if natlist_eqb s (shp a)
              then Ok (Arr s (fun idx => f (ent a idx) (ent b (bidx (shp b) idx))))
              else Err ValueError
  end.

(** np.broadcast_to *)
Definition broadcast_to {A} (a : arr A) (s : list nat) : res (arr A) :=
  match bshape (shp a) s with
  | None => Err ValueError
  | Some s' => if natlist_eqb s' s
               then Ok (Arr s (fun idx => ent a (bidx (shp a) idx)))
               else Err ValueError
  end.

Definition full {A} (s : list nat) (x : A) : arr A := Arr s (fun _ => x).

(** ** axes *)

(** a.T *)
Definition T {A} (a : arr A) : arr A := Arr (rev (shp a)) (fun idx => ent a (rev idx)).

(** negative axes count from the end *)
Definition norm_axis (nd : nat) (ax : Z) : res nat :=
  if Z.leb 0 ax
  then if Z.ltb ax (Z.of_nat nd) then Ok (Z.to_nat ax) else Err ValueError
  else let ax' := (ax + Z.of_nat nd)%Z in
       if Z.leb 0 ax' then Ok (Z.to_nat ax') else Err ValueError.

Fixpoint index_of (x : nat) (l : list nat) : nat :=
  match l with
  | [] => 0
  | y :: l' => if Nat.eqb x y then 0 else S (index_of x l')
  end.

Definition memb (x : nat) (l : list nat) : bool := existsb (Nat.eqb x) l.

Fixpoint nodupb (l : list nat) : bool :=
  match l with [] => true | x :: l' => negb (memb x l') && nodupb l' end.

(** np.core.numeric.normalize_axis_tuple (no repeated axes) *)
Definition norm_axes (nd : nat) (axs : list Z) : res (list nat) :=
  l <- map_res (norm_axis nd) axs ;;
  if nodupb l then Ok l else Err ValueError.

(** np.transpose(a, order) for a permutation [order] of the axes *)
Definition transpose {A} (a : arr A) (order : list nat) : arr A :=
  Arr (map (fun k => nth k (shp a) 0) order)
      (fun idx => ent a (map (fun j => nth (index_of j order) idx 0)
                             (seq 0 (length (shp a))))).

(** list.insert(pos, x) *)
Fixpoint insert_at {A} (pos : nat) (x : A) (l : list A) : list A :=
  match pos, l with
  | O, _ => x :: l
  | S p, [] => [x]
  | S p, y :: l' => y :: insert_at p x l'
  end.

Fixpoint insert_pair (p : nat * nat) (l : list (nat * nat)) : list (nat * nat) :=
  match l with
  | [] => [p]
  | q :: l' => if Nat.leb (fst p) (fst q) then p :: l else q :: insert_pair p l'
  end.
(** sorted(zip(destination, source)); destinations are distinct *)
Definition sort_pairs (l : list (nat * nat)) : list (nat * nat) :=
  fold_right insert_pair [] l.

(** the axis order computed by np.moveaxis *)
Definition moveaxis_order (nd : nat) (src dst : list nat) : list nat :=
  let order := filter (fun n => negb (memb n src)) (seq 0 nd) in
  fold_left (fun o ds => insert_at (fst ds) (snd ds) o)
            (sort_pairs (combine dst src)) order.

(** np.moveaxis(a, source, destination) *)
Definition moveaxis {A} (a : arr A) (source destination : list Z) : res (arr A) :=
  src <- norm_axes (length (shp a)) source ;;
  dst <- norm_axes (length (shp a)) destination ;;
  if Nat.eqb (length src) (length dst)
  then Ok (transpose a (moveaxis_order (length (shp a)) src dst))
  else Err ValueError.

(** ** indexing *)

(** index expressions: np.newaxis, ':' and an integer *)
Inductive ix := INew | IAll | IInt (k : Z).

Definition int_ok (d : nat) (k : Z) : bool :=
  (Z.leb (- Z.of_nat d) k && Z.ltb k (Z.of_nat d))%bool.
Definition int_pos (d : nat) (k : Z) : nat :=
  Z.to_nat (if Z.leb 0 k then k else k + Z.of_nat d).

Fixpoint gi_shape (spec : list ix) (s : list nat) : option (list nat) :=
  match spec with
  | [] => Some s
  | INew :: sp => match gi_shape sp s with Some r => Some (1 :: r) | None => None end
  | IAll :: sp => match s with
                  | [] => None
                  | d :: s' => match gi_shape sp s' with Some r => Some (d :: r) | None => None end
                  end
  | IInt k :: sp => match s with
                    | [] => None
                    | d :: s' => if int_ok d k then gi_shape sp s' else None
                    end
  end.

Fixpoint gi_idx (spec : list ix) (s : list nat) (idx : list nat) : list nat :=
  match spec with
  | [] => idx
  | INew :: sp => gi_idx sp s (tl idx)
  | IAll :: sp => hd 0 idx :: gi_idx sp (tl s) (tl idx)
  | IInt k :: sp => int_pos (hd 0 s) k :: gi_idx sp (tl s) idx
  end.

(** a[spec]; trailing axes not mentioned in [spec] are kept whole *)
Definition getitem {A} (spec : list ix) (a : arr A) : res (arr A) :=
  match gi_shape spec (shp a) with
  | None => Err IndexError
  | Some s => Ok (Arr s (fun idx => ent a (gi_idx spec (shp a) idx)))
  end.

(** a[lo : lo+n] along the first axis *)
Definition slice0 {A} (lo n : nat) (a : arr A) : arr A :=
  Arr (match shp a with [] => [] | _ :: s => n :: s end)
      (fun idx => match idx with
                  | [] => ent a []
                  | i :: r => ent a ((lo + i) :: r)
                  end).
Definition len0 {A} (a : arr A) : nat := hd 0 (shp a).
(** a[1:] *)
Definition tail0 {A} (a : arr A) : arr A := slice0 1 (len0 a - 1) a.
(** a[:-1] *)
Definition init0 {A} (a : arr A) : arr A := slice0 0 (len0 a - 1) a.

(** ** reductions *)

(** fill the axes flagged [true] from [sub] and the others from [idx] *)
Fixpoint merge (mask : list bool) (idx sub : list nat) : list nat :=
  match mask with
  | [] => []
  | true :: m => hd 0 sub :: merge m idx (tl sub)
  | false :: m => hd 0 idx :: merge m (tl idx) sub
  end.

Fixpoint keep {A} (b : bool) (mask : list bool) (s : list A) : list A :=
  match mask, s with
  | m :: mask', d :: s' => if Bool.eqb m b then d :: keep b mask' s' else keep b mask' s'
  | _, _ => []
  end.

Definition axis_mask (nd : nat) (axs : list nat) : list bool :=
  map (fun k => memb k axs) (seq 0 nd).

(** reduction of the axes [axs], keepdims=False *)
Definition reduce {A B} (red : list A -> B) (axs : list nat) (a : arr A) : arr B :=
  let mask := axis_mask (length (shp a)) axs in
  Arr (keep false mask (shp a))
      (fun idx => red (map (fun sub => ent a (merge mask idx sub))
                           (all_idx (keep true mask (shp a))))).

(** np.sum(a, axes) *)
Definition asum (axes : list Z) (a : arr num) : res (arr num) :=
  axs <- norm_axes (length (shp a)) axes ;; Ok (reduce nsum axs a).

(** np.sum(a) over everything *)
Definition asum_all (a : arr num) : arr num :=
  scal (nsum (map (ent a) (all_idx (shp a)))).

Definition has_zero (s : list nat) : bool := existsb (Nat.eqb 0) s.

(** scipy.special.logsumexp(a, axes): np.amax inside raises ValueError when an
    axis of length zero is reduced *)
Definition logsumexp (a : arr num) (axes : list Z) : res (arr num) :=
  axs <- norm_axes (length (shp a)) axes ;;
  if has_zero (keep true (axis_mask (length (shp a)) axs) (shp a))
  then Err ValueError
  else Ok (reduce lse axs a).

(** scipy.special.logsumexp(a) over everything *)
Definition logsumexp_all (a : arr num) : res (arr num) :=
  if has_zero (shp a) then Err ValueError
  else Ok (scal (lse (map (ent a) (all_idx (shp a))))).

(** np.cumsum(a, axis=0) *)
Definition cumsum0 (a : arr num) : arr num :=
  Arr (shp a) (fun idx => match idx with
                          | [] => NaN
                          | i :: r => nsum (map (fun k => ent a (k :: r)) (seq 0 (S i)))
                          end).

(** ** joining *)

(** np.concatenate((a, b)) along the first axis *)
Definition concat0 {A} (a b : arr A) : res (arr A) :=
  match shp a, shp b with
  | n :: s, m :: s' =>
      if natlist_eqb s s'
      then Ok (Arr (n + m :: s)
                   (fun idx => match idx with
                               | [] => ent a []
                               | i :: r => if Nat.ltb i n then ent a (i :: r)
                                           else ent b ((i - n) :: r)
                               end))
      else Err ValueError
  | _, _ => Err ValueError
  end.

(** np.array([a_0, ..., a_n]) of equally shaped arrays *)
Definition stack {A} (l : list (arr A)) (dflt : A) : res (arr A) :=
  match l with
  | [] => Ok (Arr [0] (fun _ => dflt))
  | a :: l' =>
      if forallb (fun b => natlist_eqb (shp a) (shp b)) l'
      then Ok (Arr (length l :: shp a)
                   (fun idx => match idx with
                               | [] => dflt
                               | i :: r => match nth_error l i with
                                           | Some b => ent b r
                                           | None => dflt
                                           end
                               end))
      else Err ValueError
  end.

(** 1-d array from a list *)
Definition arr1 {A} (l : list A) (dflt : A) : arr A :=
  Arr [length l] (fun idx => match idx with [i] => nth i l dflt | _ => dflt end).

(** entries of a 1-d array as a list *)
Definition to_list {A} (a : arr A) : list A :=
  map (fun i => ent a [i]) (seq 0 (len0 a)).

(** ** reshape (C order) *)
Fixpoint ravel_idx (s idx : list nat) : nat :=
  match s, idx with
  | d :: s', i :: idx' => i * size_of s' + ravel_idx s' idx'
  | _, _ => 0
  end.
Fixpoint unravel_idx (s : list nat) (k : nat) : list nat :=
  match s with
  | [] => []
  | d :: s' => (k / size_of s') :: unravel_idx s' (k mod size_of s')
  end.

(** np.reshape(a, s) with no -1 entry *)
Definition reshape {A} (a : arr A) (s : list nat) : res (arr A) :=
  if Nat.eqb (size_of (shp a)) (size_of s)
  then Ok (Arr s (fun idx => ent a (unravel_idx (shp a) (ravel_idx s idx))))
  else Err ValueError.

(** np.roll(a, shift, axis) with a non-negative shift *)
Fixpoint roll_idx (ax shift : nat) (s idx : list nat) : list nat :=
  match ax, s, idx with
  | O, d :: _, i :: r => ((i + (d - shift mod d)) mod d) :: r
  | S ax', _ :: s', i :: r => i :: roll_idx ax' shift s' r
  | _, _, _ => idx
  end.
Definition roll {A} (a : arr A) (shift ax : nat) : arr A :=
  Arr (shp a) (fun idx => ent a (roll_idx ax shift (shp a) idx)).

(** ** constructors of 1-d arrays *)

(** np.linspace(lo, hi, n) *)
Definition linspace (lo hi : R) (n : nat) : arr num :=
  Arr [n] (fun idx => match idx with
                      | [i] => Fin (lo + INR i * ((hi - lo) / INR (n - 1)))%R
                      | _ => NaN
                      end).

(** statement vocabulary: [a] has shape [s] and in-bounds entries [f] *)
Definition arr_is {A} (a : arr A) (s : list nat) (f : list nat -> A) : Prop :=
  shp a = s /\ forall idx, inb idx s -> ent a idx = f idx.
