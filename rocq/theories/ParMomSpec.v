(** * ParMomSpec: what velocity moments of a parametric component should be. *)
From Coq Require Import Reals List Bool String.
From Verif Require Import Num Spec MomSpec ParSpec GaussSpec.
Import ListNotations.
Local Open Scope R_scope.

Definition V_v : vset := VSet false true false false.
Definition V_txz : vset := VSet true false true true.

(** those of the variables t and x which are not conditioned on *)
Definition rest (C : vset) : vset := VSet (negb (has_t C)) false (negb (has_x C)) false.

(** probability of the age and position of bin b given the C-variables of bin i *)
Definition weight (g : grid) (m : par_model) (lw : bool) (C : vset) (i b : bin) : R :=
  par_prob g m lw (union (rest C) C) b / par_prob g m lw C i.

(** mean over the ages and positions which are not conditioned on *)
Definition over_rest (g : grid) (m : par_model) (lw : bool) (C : vset) (i : bin) (G : nat -> nat -> nat -> R) : R :=
  sum_over g (rest C) i (fun b => weight g m lw C i b * G (bt b) (bx b) (by_ b)).

(** M is the j-th moment about c of the velocity given the C-variables of bin
    i: given t and x it is normal, with mean and dispersion from the maps *)
Definition mixture_moment (g : grid) (m : par_model) (lw : bool) (C : vset) (i : bin) (c : R) (j : nat) (M : R) : Prop :=
  exists G : nat -> nat -> nat -> R,
    (forall t x y, (t < nt g)%nat -> (x < nx g)%nat -> (y < ny g)%nat ->
       gauss_moment (pm_mu m t x y) (pm_sig m t x y) c j (G t x y)) /\
    M = over_rest g m lw C i G.

(** the mean by the law of total expectation *)
Definition mixture_mean (g : grid) (m : par_model) (lw : bool) (C : vset) (i : bin) : R :=
  over_rest g m lw C i (pm_mu m).

(** The probabilities of all bins of the cube from which strings with v (b =
    true) and without (b = false) are derived.  In the latter case there is no
    velocity; all the probability is put in the first velocity bin, which does
    not matter for the other variables. *)
Definition par_joint (g : grid) (m : par_model) (lw b : bool) : joint := fun t v x y z =>
  if b then pprob g m lw true t v x y z
  else match v with O => pprob g m lw false t 0%nat x y z | _ => 0 end.

Definition V_tv : vset := VSet true true false false.

(** covariance of age and velocity which get_covariance computes: bin centres
    of the velocity bins of the cube, about the mean over all velocities *)
Definition tv_covariance (g : grid) (m : par_model) (lw : bool) (C : vset) (i : bin) : R :=
  Sum (nt g) (fun t => Sum (nv g) (fun v =>
    par_prob g m lw (union V_tv C) (set_v v (set_t t i)) / par_prob g m lw C i *
    ((mid (tE g) t - Mean g (par_joint g m lw false) Ct C i) * (mid (vE g) v - mixture_mean g m lw C i)))).
(** variance of the velocity by the law of total variance *)
Definition v_variance (g : grid) (m : par_model) (lw : bool) (C : vset) (i : bin) : R :=
  over_rest g m lw C i (fun t x y => pm_sig m t x y ^ 2) +
  over_rest g m lw C i (fun t x y => (pm_mu m t x y - mixture_mean g m lw C i) ^ 2).
