(** * ParticleSpec: which bin of the grid holds a particle. *)
From Coq Require Import Reals List Bool Arith.
From Verif Require Import Num Spec Particle.
Import ListNotations.
Local Open Scope R_scope.

(** [x] lies in bin [k] of an axis of [n] bins: half-open bins, except that
    the last one includes its right edge *)
Definition in_bin (n : nat) (E : nat -> R) (k : nat) (x : num) : bool :=
  match x with
  | Fin r => (Rleb (E k) r && Rltb r (E (S k))) || (Nat.eqb (S k) n && Reqb r (E n))
  | _ => false
  end.
(** [x] lies on the axis *)
Definition in_range (n : nat) (E : nat -> R) (x : num) : bool :=
  match x with Fin r => Rleb (E 0%nat) r && Rleb r (E n) | _ => false end.

Definition inside (g : grid) (i : bin) (p : particle) : bool :=
  in_bin (nt g) (tE g) (bt i) (p_t p) && in_bin (nv g) (vE g) (bv i) (p_v p) &&
  in_bin (nx g) (xE g) (bx i) (p_x1 p) && in_bin (ny g) (yE g) (by_ i) (p_x2 p) &&
  in_bin (nz g) (zE g) (bz i) (p_z p).
Definition in_bounds (g : grid) (p : particle) : bool :=
  in_range (nt g) (tE g) (p_t p) && in_range (nv g) (vE g) (p_v p) &&
  in_range (nx g) (xE g) (p_x1 p) && in_range (ny g) (yE g) (p_x2 p) &&
  in_range (nz g) (zE g) (p_z p).

(** total weight of the particles that satisfy [P] *)
Definition weight (P : particle -> bool) (pw : list (particle * R)) : R :=
  sumR (map (fun q => if P (fst q) then snd q else 0) pw).

(** the density FromParticle should have *)
Definition particle_density (g : grid) (pw : list (particle * R)) : joint := fun t v x y z =>
  weight (inside g (Bin t v x y z)) pw / weight (in_bounds g) pw /
  (wid (tE g) t * wid (vE g) v * (wid (xE g) x * wid (yE g) y) * wid (zE g) z).
