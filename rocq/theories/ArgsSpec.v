(** * ArgsSpec: what calls with left out arguments and lists should do (claim C106). *)
From Coq Require Import Reals List Bool Arith.
From Verif Require Import Num Spec Life LifeSpec Args.
Import ListNotations.

(** ** disks *)
(** a filled call is the call, one which is not is a TypeError and changes nothing *)
Fixpoint filled (h : list disk_kw) : list disk_call :=
  match h with [] => [] | k :: h' => match disk_fill k with Ok c => c :: filled h' | Err _ => filled h' end end.
(** the setters other than set_p_t, without arguments *)
Definition default_setters : list disk_kw :=
  [KPxt None None None; KTdep None None None None None None; KMu None None None; KSig None None None None None None].

(** ** streams *)
(** the entries a list has after some events *)
Fixpoint entries (lists : nat -> R * R) (h : list event) (r : nat) : R * R :=
  match h with
  | [] => lists r
  | Edit r' v :: h' => entries (fun j => if Nat.eqb j r' then v else lists j) h' r
  | Call _ _ :: h' => entries lists h' r
  end.

(** the calls of stream i with the entries of the moment; a call which is a
    TypeError is no call *)
Fixpoint said (lists : nat -> R * R) (i : nat) (h : list event) : list stream_call :=
  match h with
  | [] => []
  | Edit r v :: h' => said (fun j => if Nat.eqb j r then v else lists j) i h'
  | Call j k :: h' =>
      (if Nat.eqb j i then match stream_fill lists k with Ok c => [c] | Err _ => [] end else []) ++ said lists i h'
  end.

(** no list is edited while stream i keeps it *)
Fixpoint untouched (lists : nat -> R * R) (i : nat) (held : option nat) (h : list event) : Prop :=
  match h with
  | [] => True
  | Edit r v :: h' => held <> Some r /\ untouched (fun j => if Nat.eqb j r then v else lists j) i held h'
  | Call j (TPxt th _ _ _) :: h' =>
      let r := match th with Some r => r | None => 0 end in
      untouched lists i (if (Nat.eqb j i && valid_angles (lists r))%bool then Some r else held) h'
  | Call _ _ :: h' => untouched lists i held h'
  end.

(** a stream set up with defaults *)
Definition default_stream (i : nat) (lmd phi : R) : list event :=
  [Call i (TPt (Some lmd) (Some phi) None); Call i (TPxt None None None None); Call i (TTdep None);
   Call i (TMu None); Call i (TSig None)].
