(** * HeapMixRun: histories of a mixture, in which the caller may edit the arrays
    that were returned, the array of weights it passed to the constructor, and
    the list of components it passed to the constructor. *)
From Coq Require Import Reals String List Bool Arith ZArith.
From Verif Require Import Num Arr Cube Mixture Heap HeapRun HeapMix.
Import ListNotations.

(** get_p ([mq_log] = false) or get_log_p *)
Record mquestion := MQuestion { mq_log : bool; mq_dist : string; mq_collapse : bool; mq_density : bool; mq_light : bool }.
Definition mix_answer (os : objects) (ls : lists) (m : hmix) (q : mquestion) : prog nda :=
  (if mq_log q then h_mix_get_log_p else h_mix_get_p) os ls m (mq_dist q) (mq_collapse q) (mq_density q) (mq_light q).
Definition mix_value (self : mixture) (q : mquestion) : res (arr num) :=
  (if mq_log q then mix_get_log_p else mix_get_p) self (mq_dist q) (mq_collapse q) (mq_density q) (mq_light q).

(** a query; the caller overwriting the entries of the [k]-th array returned so
    far; component_list[i] = the component object [k]; the caller overwriting the
    entries of its array of weights *)
Inductive mevent :=
| MAsk (q : mquestion)
| MEdit (k : nat) (v : arr num)
| MSet (i k : nat)
| MWeights (v : arr num).

Definition set_member (ls : lists) (m : hmix) (i k : nat) : lists :=
  set_nth (hx_list m) (set_nth i k (hx_members ls m)) ls.

(** [wa]: the caller's array of weights; [held]: the arrays returned so far *)
Fixpoint mrun (os : objects) (m : hmix) (wa : nda) (es : list mevent) (h : heap) (ls : lists) (held : list nda)
  : heap * list (res (arr num)) :=
  match es with
  | [] => (h, [])
  | MAsk q :: es' =>
      let hx := mix_answer os ls m q h in
      let held' := match snd hx with Ok r => (held ++ [r])%list | Err _ => held end in
      let rest := mrun os m wa es' (fst hx) ls held' in
      (fst rest, seen hx :: snd rest)
  | MEdit k v :: es' =>
      mrun os m wa es' (match nth_error held k with Some r => store h r v | None => h end) ls held
  | MSet i k :: es' => mrun os m wa es' h (set_member ls m i k) held
  | MWeights v :: es' => mrun os m wa es' (store h wa v) ls held
  end.

(** the queries of a history, each with the components in the caller's list when
    it is made *)
Fixpoint masked (es : list mevent) (ids : list nat) : list (mquestion * list nat) :=
  match es with
  | [] => []
  | MAsk q :: es' => (q, ids) :: masked es' ids
  | MSet i k :: es' => masked es' (set_nth i k ids)
  | _ :: es' => masked es' ids
  end.
(** the components named in a history exist *)
Definition names (n : nat) (e : mevent) : Prop := match e with MSet _ k => k < n | _ => True end.
