(** * CoarseExample: the example grid with its two velocity bins merged. *)
From Coq Require Import Reals Lra Lia List Bool Arith.
From Verif Require Import Num NumLemmas Cube Spec Repr Build Base CoarseSpec Coarse CoarseClaims.
Import ListNotations.
Local Open Scope R_scope.

Definition exg1 : grid :=
  Grid 2 1 2 1 2 (fun i => INR i * (INR i + 1) / 2) (fun i => 2 * INR i - 1) (fun i => INR i) (fun i => INR i)
       (fun i => INR i * (INR i + 1)) (fun t z => 1 + INR t + 2 * INR z).
Definition same (k : nat) : nat := k.
Definition excuts : cuts := Cuts same (fun k => 2 * k)%nat same same same.

Lemma exg1_good : good_grid exg1.
Proof.
  constructor; cbn; try lia.
  all: try (intros i Hi; small i; cbn; lra).
  intros t z Ht Hz. pose proof (pos_INR t). pose proof (pos_INR z). lra.
Qed.
Lemma excoarser : coarser exg exg1 excuts.
Proof.
  constructor; constructor; cbn; unfold same; try reflexivity; try lia; intros k Hk; try lia; small k; cbn; lra.
Qed.
Lemma exshared : shared_light exg exg1 excuts.
Proof.
  intros t z j k _ _ Hj Hk. unfold run, excuts, same in *. cbn [st sz] in *. apply in_seq in Hj, Hk.
  replace j with t by lia. replace k with z by lia. reflexivity.
Qed.
Definition exf1c : joint := coarse_density exg exg1 excuts exf.
Definition exc1c : component := comp_of exg1 exf1c.
Lemma exc1c_on : comp_on exc1c exg1 exf1c.
Proof. apply comp_of_on; [apply exg_uniform_x|apply exg_uniform_y]. Qed.
Lemma exmerged : merged exg1 excuts (mass exg exf) (mass exg1 exf1c).
Proof. apply merged_iff; [exact exg1_good|]. reflexivity. Qed.
Lemma excube1_on : cube_on (cube_of exg1) exg1.
Proof. exact (cm_cube _ _ _ exc1c_on). Qed.
