(** * PyStr: the Python string operations used for distribution strings. *)
From Coq Require Import String Ascii List Bool Arith ZArith.
Import ListNotations.
Local Open Scope string_scope.

Definition str1 (c : ascii) : string := String c EmptyString.

(** list(s): iterating over a string *)
Fixpoint chars (s : string) : list ascii :=
  match s with EmptyString => [] | String c s' => c :: chars s' end.

(** "".join(list of characters) *)
Fixpoint of_chars (l : list ascii) : string :=
  match l with [] => EmptyString | c :: l' => String c (of_chars l') end.

(** [c in s] for a one-character string c *)
Definition has_char (c : ascii) (s : string) : bool := existsb (Ascii.eqb c) (chars s).

(** s.split(sep) for a one-character separator *)
Fixpoint split_aux (sep : ascii) (cur : list ascii) (l : list ascii) : list string :=
  match l with
  | [] => [of_chars (rev cur)]
  | c :: l' => if Ascii.eqb c sep
               then of_chars (rev cur) :: split_aux sep [] l'
               else split_aux sep (c :: cur) l'
  end.
Definition split (sep : ascii) (s : string) : list string := split_aux sep [] (chars s).

(** s.replace(c, r) for a one-character c *)
Definition replace_char (c : ascii) (r : list ascii) (s : string) : string :=
  of_chars (flat_map (fun d => if Ascii.eqb d c then r else [d]) (chars s)).

(** s.find(c) for a one-character string c; -1 when absent *)
Fixpoint find_aux (c : ascii) (l : list ascii) (pos : Z) : Z :=
  match l with
  | [] => (-1)%Z
  | d :: l' => if Ascii.eqb c d then pos else find_aux c l' (pos + 1)%Z
  end.
Definition find (s : string) (c : ascii) : Z := find_aux c (chars s) 0%Z.

(** sorted(s) by code point *)
Definition ascii_leb (a b : ascii) : bool := Nat.leb (nat_of_ascii a) (nat_of_ascii b).
Fixpoint insert_char (c : ascii) (l : list ascii) : list ascii :=
  match l with
  | [] => [c]
  | d :: l' => if ascii_leb c d then c :: l else d :: insert_char c l'
  end.
Definition sort_chars (l : list ascii) : list ascii := fold_right insert_char [] l.

(** "".join(sorted(s)) *)
Definition sorted_str (s : string) : string := of_chars (sort_chars (chars s)).
