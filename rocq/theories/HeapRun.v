(** * HeapRun: histories of calls, in which the caller may also edit the arrays
    that were returned. *)
From Coq Require Import Reals String List Bool Arith ZArith.
From Verif Require Import Num Arr Heap.
Import ListNotations.

(** an event: get_p ([log] = false) or get_log_p of a string with flags, or the
    caller overwriting the entries of the [k]-th array returned so far *)
Record question := Question { q_log : bool; q_dist : string; q_density : bool; q_light : bool }.
Inductive event := Ask (q : question) | Edit (k : nat) (v : arr num).

(** what the caller sees *)
Definition seen (hx : heap * res nda) : res (arr num) :=
  match snd hx with Ok r => Ok (value (fst hx) r) | Err e => Err e end.

(** run a history; [held] are the arrays returned so far *)
Fixpoint run (answer : question -> prog nda) (es : list event) (h : heap) (held : list nda)
  : heap * list (res (arr num)) :=
  match es with
  | [] => (h, [])
  | Ask q :: es' =>
      let hx := answer q h in
      let held' := match snd hx with Ok r => (held ++ [r])%list | Err _ => held end in
      let rest := run answer es' (fst hx) held' in
      (fst rest, seen hx :: snd rest)
  | Edit k v :: es' =>
      run answer es' (match nth_error held k with Some r => store h r v | None => h end) held
  end.

(** the questions of a history *)
Fixpoint asked (es : list event) : list question :=
  match es with
  | [] => []
  | Ask q :: es' => q :: asked es'
  | Edit _ _ :: es' => asked es'
  end.
