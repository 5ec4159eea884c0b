(** * ParticleExample: three particles, one of them beyond the oldest age. *)
From Coq Require Import Reals Lra Lia List Bool Arith ZArith String Ascii Permutation.
From Verif Require Import Num NumLemmas Arr Cube Base Spec Repr Build Particle ParticleSpec ParticleLemmas ParticleClaims.
Import ListNotations.
Local Open Scope R_scope.

(** on an inner age edge and the last metallicity edge *)
Definition pa : particle := Particle (Fin 1) (Fin (-1/2)) (Fin (1/2)) (Fin (1/2)) (Fin 6).
Definition pb : particle := Particle (Fin (1/2)) (Fin (1/2)) (Fin (3/2)) (Fin (1/2)) (Fin 1).
Definition pout : particle := Particle (Fin 5) (Fin (1/2)) (Fin (3/2)) NaN (Fin 1).
Definition expw : list (particle * R) := [(pa, 1); (pb, 3); (pout, 2)].

Ltac rbool := repeat match goal with
  | |- context [Rleb ?a ?b] =>
      first [ replace (Rleb a b) with true by (symmetry; apply Rleb_iff; lra)
            | replace (Rleb a b) with false by (symmetry; apply not_true_iff_false; rewrite Rleb_iff; lra) ]
  | |- context [Rltb ?a ?b] =>
      first [ replace (Rltb a b) with true by (symmetry; apply Rltb_iff; lra)
            | replace (Rltb a b) with false by (symmetry; apply not_true_iff_false; rewrite Rltb_iff; lra) ]
  | |- context [Reqb ?a ?b] =>
      first [ replace (Reqb a b) with true by (symmetry; apply Reqb_iff; lra)
            | replace (Reqb a b) with false by (symmetry; apply not_true_iff_false; rewrite Reqb_iff; lra) ]
  end.

Lemma exp_pos : forall q, In q expw -> 0 <= snd q.
Proof. intros q [<-|[<-|[<-|[]]]]; cbn; lra. Qed.
Lemma pa_bounds : in_bounds exg pa = true.
Proof. unfold in_bounds, in_range, pa, exg; cbn. rbool. reflexivity. Qed.
Lemma pb_bounds : in_bounds exg pb = true.
Proof. unfold in_bounds, in_range, pb, exg; cbn. rbool. reflexivity. Qed.
Lemma pout_bounds : in_bounds exg pout = false.
Proof. unfold in_bounds, in_range, pout, exg; cbn. rbool. reflexivity. Qed.
Lemma exp_total : weight (in_bounds exg) expw = 4.
Proof. unfold expw. rewrite !weight_cons, weight_nil. cbn [fst snd]. rewrite pa_bounds, pb_bounds, pout_bounds. lra. Qed.
Lemma exp_bin : weight (inside exg (Bin 1 0 0 0 1)) expw = 1.
Proof.
  unfold expw. rewrite !weight_cons, weight_nil. cbn [fst snd].
  replace (inside exg (Bin 1 0 0 0 1) pa) with true by (unfold inside, in_bin, pa, exg; cbn; rbool; reflexivity).
  replace (inside exg (Bin 1 0 0 0 1) pb) with false by (unfold inside, in_bin, pb, exg; cbn; rbool; reflexivity).
  replace (inside exg (Bin 1 0 0 0 1) pout) with false by (unfold inside, in_bin, pout, exg; cbn; rbool; reflexivity).
  lra.
Qed.
Lemma exp_note : n_lost (note_of exg (map fst expw)) = 1%nat /\ n_total (note_of exg (map fst expw)) = 3%nat.
Proof.
  split; [|reflexivity]. unfold note_of, expw, count. cbn [n_lost map fst filter].
  rewrite pa_bounds, pb_bounds, pout_bounds. reflexivity.
Qed.
Definition excube : cube := cube_of exg.
Lemma excube_on : cube_on excube exg.
Proof. exact (cm_cube _ _ _ exc_on). Qed.
