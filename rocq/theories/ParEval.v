(** * ParEval: evaluate_ybar of a parametric component from its own attributes,
    and histories of setter and evaluate_ybar calls. *)
From Coq Require Import Reals List Bool Arith ZArith String Ascii.
From Verif Require Import Num Arr PyStr Cube Base Parametric Fft Datacube ParYbar Life.
Import ListNotations.
Local Open Scope string_scope.

(** the conditions of lines 367, 374 and 389 *)
Definition batch_known (batch : string) : bool :=
  (String.eqb batch "none" || String.eqb batch "column" || String.eqb batch "spaxel")%bool.

(** ParametricComponent.evaluate_ybar, components/parametric.py lines 335-407.
    The attributes mu_v and sig_v are looked up inside the branches of [batch],
    after the templates have been reshaped (line 365).  (On an image without
    pixels the loops of "column" and "spaxel" would not look them up at all.) *)
Definition par_evaluate_ybar (L : stats_lib) (self : par) (batch : string) : res (arr num) :=
  let c := pa_cube self in
  let s := c_ssps c in
  P_txz <- par_get_p L self "txz" false false ;;
  _ <- reshape3c (FXw s) (fst (par_dims s)) (snd (par_dims s)) ;;
  if batch_known batch then
    mu_v <- attr (pa_mu_v self) ;;
    sig_v <- attr (pa_sig_v self) ;;
    par_evaluate c P_txz mu_v sig_v batch
  else Err ValueError.

(** a component with its attribute ybar (None before the first evaluate_ybar) *)
Record observed := Observed { ob_par : par; ob_ybar : option (arr num) }.

(** calls: a setter, or evaluate_ybar *)
Inductive call (C : Type) :=
| CSet (c : C)
| CEval (batch : string).
Arguments CSet {C}. Arguments CEval {C}.

(** line 407 is the only assignment to ybar in evaluate_ybar; no setter assigns it *)
Definition observe {C} (L : stats_lib) (set : par -> C -> par * res unit) (o : observed) (k : call C) : observed * res unit :=
  match k with
  | CSet c => let (p, r) := set (ob_par o) c in (Observed p (ob_ybar o), r)
  | CEval batch =>
      match par_evaluate_ybar L (ob_par o) batch with
      | Ok y => (Observed (ob_par o) (Some y), Ok tt)
      | Err e => (o, Err e)
      end
  end.
(** a new component and the calls [h], exceptions being caught *)
Definition observe_all {C} (L : stats_lib) (set : par -> C -> par * res unit) (s0 : par) (h : list (call C)) : observed :=
  fold_left (fun o k => fst (observe L set o k)) h (Observed s0 None).
