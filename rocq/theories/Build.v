(** * Build: every grid and density of the specification is represented by
    Python objects; a concrete non-trivial instance used by the examples. *)
From Coq Require Import Reals Lra Lia List Bool Arith ZArith String Ascii.
From Verif Require Import Num NumLemmas Arr Cube Base Spec Repr.
Import ListNotations.
Local Open Scope R_scope.

Definition tab1 (n : nat) (f : nat -> R) : arr num := Arr [n] (fun idx => Fin (f (hd 0%nat idx))).

Definition ssps_of (g : grid) : ssps :=
  Ssps (tab1 (nz g + 1) (zE g)) (tab1 (nt g + 1) (tE g)) (tab1 (nz g) (mid (zE g)))
       (tab1 (nt g) (mid (tE g))) (tab1 (nt g) (wid (tE g))) (tab1 (nz g) (wid (zE g)))
       (nz g, nt g)
       (Arr [nt g; nz g] (fun idx => Fin (Lw g (hd 0%nat idx) (hd 0%nat (tl idx)))))
       (Fin 1) (Arr [] (fun _ => NaN)) (Arr [] (fun _ => (NaN, NaN))) 0.

Definition cube_of (g : grid) : cube :=
  Cube (ssps_of g) (nx g) (ny g) (Fin (xE g 0), Fin (xE g (nx g))) (Fin (yE g 0), Fin (yE g (ny g)))
       (Fin (wid (xE g) 0)) (Fin (wid (yE g) 0)) (tab1 (nx g) (mid (xE g))) (tab1 (ny g) (mid (yE g)))
       (Arr [nx g; ny g] (fun idx => Fin (mid (xE g) (hd 0%nat idx))))
       (Arr [nx g; ny g] (fun idx => Fin (mid (yE g) (hd 0%nat (tl idx)))))
       (nv g) (tab1 (nv g + 1) (vE g)).

Definition comp_of (g : grid) (f : joint) : component :=
  Component (cube_of g)
    (Arr [nt g; nv g; nx g; ny g; nz g]
       (fun idx => nlog (Fin (f (nth 0 idx 0%nat) (nth 1 idx 0%nat) (nth 2 idx 0%nat)
                               (nth 3 idx 0%nat) (nth 4 idx 0%nat))))).

(** all pixels have the same width *)
Definition uniform (n : nat) (E : nat -> R) : Prop := forall i, (i < n)%nat -> wid E i = wid E 0.

Lemma tab1_vec n f : vec (tab1 n f) n f.
Proof. split; reflexivity. Qed.

Lemma cube_of_on g : uniform (nx g) (xE g) -> uniform (ny g) (yE g) -> cube_on (cube_of g) g.
Proof.
  intros Hx Hy. constructor; try reflexivity; try apply tab1_vec.
  - constructor; try reflexivity; apply tab1_vec.
  - eexists; split; [reflexivity|exact Hx].
  - eexists; split; [reflexivity|exact Hy].
Qed.

Lemma comp_of_on g f : uniform (nx g) (xE g) -> uniform (ny g) (yE g) -> comp_on (comp_of g f) g f.
Proof.
  intros Hx Hy. constructor; [apply cube_of_on; assumption|reflexivity|reflexivity].
Qed.

(** ** a concrete instance: 2 ages, 2 velocities, 2 x 1 pixels, 2 metallicities,
    unequal age and metallicity bins, one empty pixel at the older age *)
Definition exg : grid :=
  Grid 2 2 2 1 2 (fun i => INR i * (INR i + 1) / 2) (fun i => INR i - 1) (fun i => INR i) (fun i => INR i)
       (fun i => INR i * (INR i + 1)) (fun t z => 1 + INR t + 2 * INR z).
Definition exf : joint := fun t v x y z => if Nat.eqb t 1 then (if Nat.eqb x 1 then 0 else 1) else INR v + 1.
Definition exc : component := comp_of exg exf.

Ltac small i := repeat (destruct i as [|i]; [|try (cbn in *; lia)]).

Lemma exg_uniform_x : uniform (nx exg) (xE exg).
Proof. intros i Hi. unfold wid; cbn [xE exg]. rewrite !S_INR. lra. Qed.
Lemma exg_uniform_y : uniform (ny exg) (yE exg).
Proof. intros i Hi. unfold wid; cbn [yE exg]. rewrite !S_INR. lra. Qed.

Lemma exc_on : comp_on exc exg exf.
Proof. apply comp_of_on; [apply exg_uniform_x|apply exg_uniform_y]. Qed.

Lemma exg_good : good_grid exg.
Proof.
  constructor; try (cbn; lia);
  try (intros i Hi; cbn [tE vE xE yE zE exg]; rewrite ?S_INR; pose proof (pos_INR i); nra).
  intros t z _ _. cbn [Lw exg]. pose proof (pos_INR t). pose proof (pos_INR z). lra.
Qed.

Lemma exf_nonneg : nonneg exg exf.
Proof.
  intros t v x y z _ _ _ _ _. unfold exf. destruct (Nat.eqb t 1).
  - destruct (Nat.eqb x 1); lra.
  - pose proof (pos_INR v). lra.
Qed.

Ltac ex_num := unfold marg, prob, light, lit, mass, total, vol, wid, mid, ifw, over, exg, exf; cbn; try lra.

Lemma ex_light : 0 < total exg (lit exg (mass exg exf)).
Proof. ex_num. Qed.
Lemma ex_lw_ok lw : lw_ok exg exf lw.
Proof. intros _. apply ex_light. Qed.

Definition exi : bin := Bin 1 0 0 0 1.
Lemma exi_in : in_grid exg exi.
Proof. unfold in_grid; cbn; lia. Qed.
