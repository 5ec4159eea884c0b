(** * Num: the scalar numbers that numpy computes with.

    Every numpy/scipy scalar in popkinmocks is an IEEE double.  We model a
    double as an exact real number extended with the three special values that
    the code relies on: +inf, -inf and nan.

    SIMPLIFICATION (trusted base): finite results are exact reals, i.e. there is
    no rounding, no overflow to inf, no underflow to 0, and no signed zero.
    The behaviour of the special values follows IEEE-754 / numpy (np.log(0) is
    -inf, inf-inf is nan, 0*inf is nan, x/0 is +-inf by the sign of x, 0/0 is
    nan, every comparison with nan is False). *)

From Coq Require Import Reals Lra List Bool ZArith.
Import ListNotations.
Local Open Scope R_scope.

(** Python exceptions that the modelled code can raise. *)
Inductive exn :=
| ValueError | AttributeError | AssertionError | IndexError | TypeError
| KeyError | UnboundLocalError | NotImplementedError | ZeroDivisionError.

(** Result of running a piece of Python: a value, or a raised exception. *)
Inductive res (A : Type) :=
| Ok (a : A)
| Err (e : exn).
Arguments Ok {A} a.
Arguments Err {A} e.

Definition bind {A B} (r : res A) (f : A -> res B) : res B :=
  match r with Ok a => f a | Err e => Err e end.
Notation "x <- r ;; k" := (bind r (fun x => k))
  (at level 61, r at next level, right associativity).

(** [assert b]: AssertionError unless [b]. *)
Definition py_assert (b : bool) : res unit :=
  if b then Ok tt else Err AssertionError.

Fixpoint map_res {A B} (f : A -> res B) (l : list A) : res (list B) :=
  match l with
  | [] => Ok []
  | a :: l' => b <- f a ;; bs <- map_res f l' ;; Ok (b :: bs)
  end.

(** A numpy double. *)
Inductive num :=
| Fin (r : R)
| PInf
| NInf
| NaN.

(** Boolean comparisons on reals. *)
Definition Rltb (x y : R) : bool := if Rlt_dec x y then true else false.
Definition Rleb (x y : R) : bool := if Rle_dec x y then true else false.
Definition Reqb (x y : R) : bool := if Req_EM_T x y then true else false.

(** np.add *)
Definition nadd (a b : num) : num :=
  match a, b with
  | NaN, _ | _, NaN => NaN
  | Fin x, Fin y => Fin (x + y)
  | PInf, NInf | NInf, PInf => NaN
  | PInf, _ | _, PInf => PInf
  | NInf, _ | _, NInf => NInf
  end.

(** unary minus *)
Definition nneg (a : num) : num :=
  match a with Fin x => Fin (- x) | PInf => NInf | NInf => PInf | NaN => NaN end.

(** np.subtract *)
Definition nsub (a b : num) : num := nadd a (nneg b).

(** infinity with the sign of the real [x]; nan for x = 0 *)
Definition inf_of_sign (x : R) : num :=
  if Rlt_dec 0 x then PInf else if Rlt_dec x 0 then NInf else NaN.

(** np.multiply *)
Definition nmul (a b : num) : num :=
  match a, b with
  | NaN, _ | _, NaN => NaN
  | Fin x, Fin y => Fin (x * y)
  | Fin x, PInf => inf_of_sign x
  | PInf, Fin x => inf_of_sign x
  | Fin x, NInf => inf_of_sign (- x)
  | NInf, Fin x => inf_of_sign (- x)
  | PInf, PInf | NInf, NInf => PInf
  | PInf, NInf | NInf, PInf => NInf
  end.

(** np.divide (no signed zero: x/0 takes the sign of x) *)
Definition ndiv (a b : num) : num :=
  match a, b with
  | NaN, _ | _, NaN => NaN
  | Fin x, Fin y => if Req_EM_T y 0 then inf_of_sign x else Fin (x / y)
  | Fin _, PInf | Fin _, NInf => Fin 0
  | PInf, Fin y => if Rle_dec 0 y then PInf else NInf
  | NInf, Fin y => if Rle_dec 0 y then NInf else PInf
  | PInf, PInf | PInf, NInf | NInf, PInf | NInf, NInf => NaN
  end.

(** np.exp *)
Definition nexp (a : num) : num :=
  match a with Fin x => Fin (exp x) | PInf => PInf | NInf => Fin 0 | NaN => NaN end.

(** np.log *)
Definition nlog (a : num) : num :=
  match a with
  | Fin x => if Rlt_dec 0 x then Fin (ln x)
             else if Req_EM_T x 0 then NInf else NaN
  | PInf => PInf
  | NInf => NaN
  | NaN => NaN
  end.

(** [x ** 0.5] on arrays, i.e. np.sqrt *)
Definition nsqrt (a : num) : num :=
  match a with
  | Fin x => if Rle_dec 0 x then Fin (sqrt x) else NaN
  | PInf => PInf
  | NInf => NaN
  | NaN => NaN
  end.

(** np.power with a non-negative integer exponent (x ** 0 is 1 even for nan) *)
Fixpoint npow (a : num) (j : nat) : num :=
  match j with
  | O => Fin 1
  | S O => a
  | S j' => nmul a (npow a j')
  end.

(** np.abs *)
Definition nabs (a : num) : num :=
  match a with Fin x => Fin (Rabs x) | PInf | NInf => PInf | NaN => NaN end.

(** [a < b], [a <= b], [a == b]; False whenever nan is involved *)
Definition nlt (a b : num) : bool :=
  match a, b with
  | NaN, _ | _, NaN => false
  | Fin x, Fin y => Rltb x y
  | Fin _, PInf | NInf, Fin _ | NInf, PInf => true
  | _, _ => false
  end.
Definition neqb (a b : num) : bool :=
  match a, b with
  | Fin x, Fin y => Reqb x y
  | PInf, PInf | NInf, NInf => true
  | _, _ => false
  end.
Definition nle (a b : num) : bool := orb (nlt a b) (neqb a b).

Definition is_fin (a : num) : bool := match a with Fin _ => true | _ => false end.
Definition is_nan (a : num) : bool := match a with NaN => true | _ => false end.

(** binary step of np.amax: nan propagates *)
Definition nmax (a b : num) : num :=
  match a, b with
  | NaN, _ | _, NaN => NaN
  | _, _ => if nlt a b then b else a
  end.

(** np.sum over a flat list of entries *)
Definition nsum (l : list num) : num := fold_right nadd (Fin 0) l.

(** np.amax over a flat list of entries (numpy raises on an empty one; the
    array-level reductions in Arr.v check that) *)
Definition amax (l : list num) : num :=
  match l with [] => NaN | x :: xs => fold_left nmax xs x end.

(** scipy.special.logsumexp on the flat list of the entries that are reduced
    together (no [b] argument):
      a_max = amax(a); a_max[~isfinite(a_max)] = 0
      out = log(sum(exp(a - a_max))) + a_max *)
Definition lse (l : list num) : num :=
  let m := amax l in
  let m := if is_fin m then m else Fin 0 in
  nadd (nlog (nsum (map (fun x => nexp (nsub x m)) l))) m.

(** scipy.special.logsumexp with weights [b], given as a list of pairs
    (a_i, b_i); entries with b_i == 0 are replaced by -inf first. *)
Definition lse_b (l : list (num * num)) : num :=
  let l := map (fun ab => (if neqb (snd ab) (Fin 0) then NInf else fst ab, snd ab)) l in
  let m := amax (map fst l) in
  let m := if is_fin m then m else Fin 0 in
  nadd (nlog (nsum (map (fun ab => nmul (snd ab) (nexp (nsub (fst ab) m))) l))) m.

(** Plain finite sums of reals, used by the specification. *)
Definition sumR (l : list R) : R := fold_right Rplus 0 l.

Fixpoint Sum (n : nat) (f : nat -> R) : R :=
  match n with O => 0 | S n' => Sum n' f + f n' end.
