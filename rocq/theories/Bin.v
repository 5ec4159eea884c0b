(** * Bin: bin_pixels with any real number of pixels per bin.

    ReadMiles.v takes a natural number; the code calls int() on whatever it is
    given, after the comparison with 1.  nan and infinities (ValueError and
    OverflowError) are left out. *)
From Coq Require Import Reals List Bool Arith ZArith String.
From Verif Require Import Num Arr PyStr ReadMiles.
Import ListNotations.
Local Open Scope R_scope.

(** int(x): rounds towards zero *)
Definition py_int (x : R) : Z := if Rltb x 0 then (- Int_part (- x))%Z else Int_part x.

(** bin_pixels, read_miles.py lines 182-193.  n % 0 is a ZeroDivisionError, and
    a negative first length beside -1 is a ValueError of np.reshape. *)
Definition bin_any (m : miles) (pix_per_bin : R) : res miles :=
  if Reqb pix_per_bin 1 then Ok m
  else
    let pix := py_int pix_per_bin in
    x <- get_X m ;;
    match shp x with
    | [n; p] =>
        if (pix =? 0)%Z then Err ZeroDivisionError
        else if (pix <? 0)%Z then Err ValueError
        else
          let k := Z.to_nat pix in
          let r := (n mod k)%nat in
          l' <- sum_blocks k (firstn (drop_last (List.length (lmd m)) r) (lmd m)) ;;
          let n' := drop_last n r in
          if Nat.eqb p 0 then Err ValueError       (* reshape with -1 of an empty array *)
          else
            let q := (n' / k)%nat in
            if negb (Nat.eqb (k * q) n') then Err ValueError
            else
              y <- reshape (Arr [n'; p] (ent x)) [k; q; p] ;;
              x' <- asum [0%Z] y ;;
              Ok (with_X (with_lmd m l') x')
    | _ => Err ValueError                          (* n, p = self.X.shape *)
    end.

(** calls of bin_pixels one after another *)
Definition bin_all (m : miles) (ks : list R) : res miles :=
  fold_left (fun r k => m <- r ;; bin_any m k) ks (Ok m).
