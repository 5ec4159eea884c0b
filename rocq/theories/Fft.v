(** * Fft: np.fft.rfft and np.fft.irfft, by their defining sums.

    numpy computes the same transforms with a fast algorithm; here they are the
    documented sums in exact arithmetic. *)
From Coq Require Import Reals List Bool Arith ZArith.
From Verif Require Import Num Arr Cube.
Import ListNotations.
Local Open Scope R_scope.

(** complex arithmetic on pairs (real, imaginary) *)
Definition cre (a : cnum) : num := fst a.
Definition cim (a : cnum) : num := snd a.
Definition cadd (a b : cnum) : cnum := (nadd (cre a) (cre b), nadd (cim a) (cim b)).
Definition cmul (a b : cnum) : cnum :=
  (nsub (nmul (cre a) (cre b)) (nmul (cim a) (cim b)), nadd (nmul (cre a) (cim b)) (nmul (cim a) (cre b))).
Definition cscale (x : num) (a : cnum) : cnum := (nmul x (cre a), nmul x (cim a)).
Definition cconj (a : cnum) : cnum := (cre a, nneg (cim a)).
Definition czero : cnum := (Fin 0, Fin 0).
Definition csum (l : list cnum) : cnum := (nsum (map fst l), nsum (map snd l)).

(** angle 2 pi j k / n *)
Definition ang (n j k : nat) : R := 2 * PI * INR j * INR k / INR n.

(** entry k of the transform of the real sequence x_0 .. x_(len-1), cropped or
    zero padded to length n *)
Definition dft (n len : nat) (x : nat -> num) (k : nat) : cnum :=
  (nsum (map (fun j => nmul (x j) (Fin (cos (ang n j k)))) (seq 0 (Nat.min n len))),
   nsum (map (fun j => nmul (x j) (Fin (- sin (ang n j k)))) (seq 0 (Nat.min n len)))).

Definition last_dim (s : list nat) : nat := last s O.
Definition set_last (s : list nat) (d : nat) : list nat := removelast s ++ [d].

(** np.fft.rfft(a, n) along the last axis; ValueError for n < 1 *)
Definition rfft (a : arr num) (n : nat) : res (arr cnum) :=
  if Nat.eqb n 0 then Err ValueError
  else match shp a with
       | [] => Err IndexError
       | s => Ok (Arr (set_last s (n / 2 + 1))
                      (fun idx => dft n (last_dim s) (fun j => ent a (removelast idx ++ [j])) (last idx O)))
       end.

(** entry j of the inverse transform to length n of the half spectrum
    F_0 .. F_(len-1), cropped or zero padded to n/2+1 entries: F_0 and (for even
    n) F_(n/2) enter with weight one and their imaginary part is ignored, the
    others together with their conjugates. *)
Definition idft_term (n : nat) (F : nat -> cnum) (j k : nat) : num :=
  let re := nsub (nmul (cre (F k)) (Fin (cos (ang n j k)))) (nmul (cim (F k)) (Fin (sin (ang n j k)))) in
  if Nat.eqb k 0 then cre (F k)
  else if Nat.eqb (2 * k) n then nmul (cre (F k)) (Fin (cos (ang n j k)))
  else nmul (Fin 2) re.
Definition idft (n len : nat) (F : nat -> cnum) (j : nat) : num :=
  ndiv (nsum (map (idft_term n F j) (seq 0 (Nat.min (n / 2 + 1) len)))) (Fin (INR n)).

(** np.fft.irfft(a, n) along the last axis; ValueError for n < 1 *)
Definition irfft (a : arr cnum) (n : nat) : res (arr num) :=
  if Nat.eqb n 0 then Err ValueError
  else match shp a with
       | [] => Err IndexError
       | s => Ok (Arr (set_last s n)
                      (fun idx => idft n (last_dim s) (fun k => ent a (removelast idx ++ [k])) (last idx O)))
       end.
