(** * MixParSpec: mixtures whose members are base or parametric components. *)
From Coq Require Import Reals List Bool.
From Verif Require Import Num Arr Cube Base Spec Repr Moments Mixture MomSpec ParSpec Parametric ParRepr ParMoments ParMomSpec.
Import ListNotations.
Local Open Scope R_scope.

(** a base component with density f, or a parametric component *)
Inductive kind := KBase (f : joint) | KPar (m : par_model).
Definition kinds := list (kind * R).

(** bin probabilities of a member from which strings with v (b = true) and
    without (b = false) are derived *)
Definition kmass (g : grid) (k : kind) (b : bool) : joint :=
  match k with KBase f => mass g f | KPar m => par_joint g m false b end.
Definition weighted (g : grid) (lw : bool) (P : joint) : joint := if lw then light g P else P.
(** there is light when it is asked for *)
Definition lit_ok (g : grid) (P : joint) (lw : bool) : Prop := lw = true -> 0 < total g (lit g P).

(** kind and weight of member q *)
Definition kk (l : kinds) (q : nat) : kind := fst (nth q l (KBase (fun _ _ _ _ _ => 0), 0)).
Definition kw (l : kinds) (q : nat) : R := snd (nth q l (KBase (fun _ _ _ _ _ => 0), 0)).

(** the mixture: weighted sum of the members *)
Definition kmix (g : grid) (l : kinds) (b : bool) : joint := fun t v x y z =>
  Sum (List.length l) (fun q => kw l q * kmass g (kk l q) b t v x y z).
(** share of member q *)
Definition kshare (g : grid) (l : kinds) (lw b : bool) (q : nat) : joint := fun t v x y z =>
  if lw then kw l q * lit g (kmass g (kk l q) b) t v x y z / total g (lit g (kmix g l b))
  else kw l q * kmass g (kk l q) b t v x y z.

(** the object [mb] is a component of that kind *)
Definition kind_on (mb : member) (g : grid) (k : kind) : Prop :=
  match k with
  | KBase f => exists c, mb = comp_member c /\ comp_on c g f /\ nonneg g f
  | KPar m => exists L self, mb = par_member L (Fin 1) self /\ par_on L self g m /\ good_par g m
  end.
Record mixed_on (self : mixture) (g : grid) (l : kinds) : Prop := {
  mp_cube : cube_on (mx_cube self) g;
  mp_len : List.length (mx_members self) = List.length l;
  mp_weights : mx_weights self = map (fun q => Fin (snd q)) l;
  mp_ne : l <> [];
  mp_pos : forall q, (q < List.length l)%nat -> 0 < kw l q;
  mp_member : forall q mb, nth_error (mx_members self) q = Some mb -> kind_on mb g (kk l q)
}.

(** mean of the velocity of a member given the C-variables of bin i: over bin
    centres for a base component, over all velocities for a parametric one *)
Definition k_v_mean (g : grid) (k : kind) (lw : bool) (C : vset) (i : bin) : R :=
  match k with
  | KBase f => Mean g (prob g f lw) Cv C i
  | KPar m => mixture_mean g m lw C i
  end.
(** M is the j-th moment about c *)
Definition k_v_moment (g : grid) (k : kind) (lw : bool) (C : vset) (i : bin) (c : R) (j : nat) (M : R) : Prop :=
  match k with
  | KBase f => M = Moment g (prob g f lw) Cv C j c i
  | KPar m => mixture_moment g m lw C i c j M
  end.
(** probability of member q given the C-variables of bin i *)
Definition k_given (g : grid) (l : kinds) (lw : bool) (C : vset) (i : bin) (q : nat) : R :=
  marg g (kshare g l lw (has_v C) q) C i / marg g (weighted g lw (kmix g l (has_v C))) C i.
(** mean velocity by the law of total expectation over the members *)
Definition k_mean_v (g : grid) (l : kinds) (lw : bool) (C : vset) (i : bin) : R :=
  Sum (List.length l) (fun q => k_given g l lw C i q * k_v_mean g (kk l q) lw C i).
(** the j-th moment about a centre which may depend on the member *)
Definition k_moment_v (g : grid) (l : kinds) (lw : bool) (C : vset) (i : bin) (c : nat -> R) (j : nat) (M : R) : Prop :=
  exists Ms : nat -> R,
    (forall q, (q < List.length l)%nat -> k_v_moment g (kk l q) lw C i (c q) j (Ms q)) /\
    M = Sum (List.length l) (fun q => k_given g l lw C i q * Ms q).

(** all members have mass in the C-variables of bin i, or some have not *)
Definition all_there (g : grid) (l : kinds) (lw : bool) (C : vset) (i : bin) : Prop :=
  forall q, (q < List.length l)%nat -> 0 < marg g (weighted g lw (kmass g (kk l q) (has_v C))) C i.
Definition some_missing (g : grid) (l : kinds) (lw : bool) (C : vset) (i : bin) : Prop :=
  exists q, (q < List.length l)%nat /\ marg g (weighted g lw (kmass g (kk l q) (has_v C))) C i = 0.
(** weights and members normalised *)
Definition k_normal (g : grid) (l : kinds) : Prop :=
  sumR (map snd l) = 1 /\ forall q, (q < List.length l)%nat -> total g (kmass g (kk l q) false) = 1.
(** The bin where a parametric component looks up the centre of a moment of v:
    given t, x and z that of the first metallicity (claim C52). *)
Definition centre_at (k : kind) (C : vset) (i : bin) : bin :=
  match k with
  | KPar _ => if has_t C && has_x C && has_z C then set_z 0 i else i
  | KBase _ => i
  end.
