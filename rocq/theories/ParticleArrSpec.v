(** * ParticleArrSpec: the particles that five arrays of one length stand for. *)
From Coq Require Import Reals List Arith.
From Verif Require Import Num Arr Particle.
Import ListNotations.

Definition zipped (n : nat) (t v x1 x2 z : arr num) : list particle :=
  map (fun i => Particle (ent t [i]) (ent v [i]) (ent x1 [i]) (ent x2 [i]) (ent z [i])) (seq 0 n).
(** with their weights *)
Definition zipped_w (n : nat) (t v x1 x2 z : arr num) (w : nat -> R) : list (particle * R) :=
  map (fun i => (Particle (ent t [i]) (ent v [i]) (ent x1 [i]) (ent x2 [i]) (ent z [i]), w i)) (seq 0 n).

(** all arrays have one axis, of length [n] *)
Definition of_length (n : nat) (l : list (arr num)) : Prop := Forall (fun a => shp a = [n]) l.

(** weights that fit [n] particles; without particles anything does *)
Definition weights_fit (n : nat) (w : option (arr num)) : Prop :=
  match w with None => True | Some a => n = 0%nat \/ shp a = [n] end.
