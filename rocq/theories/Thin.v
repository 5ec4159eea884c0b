(** * Thin: milesSSPs with a thinning factor that is any integer or None.

    ReadMiles.v takes natural numbers for thin_age and thin_z; they are used as
    the step of a slice, a[::thin_age], which may be negative or None too.
    Values that are neither (a float, a string, which raise TypeError) are left
    out, and so are booleans, which act as 0 and 1. *)
From Coq Require Import Reals List Bool Arith ZArith String.
From Verif Require Import Num PyStr ReadMiles.
Import ListNotations.

(** a[::k], read_miles.py lines 103-104: step None is step 1, step 0 a
    ValueError, and a negative step counts from the end *)
Definition stride_any {A} (k : option Z) (l : list A) : res (list A) :=
  match k with
  | None => stride 1 l
  | Some k => if (k <? 0)%Z then stride (Z.to_nat (- k)) (rev l) else stride (Z.to_nat k) l
  end.

(** thin_model_grid, read_miles.py lines 102-112 *)
Definition thin_any (thin_age thin_z : option Z) (q : names) : res names :=
  t_thin <- stride_any thin_age (unique (tval q)) ;;
  z_thin <- stride_any thin_z (unique (zval q)) ;;
  take_names (where_ (map (fun tz => (isin (fst tz) t_thin && isin (snd tz) z_thin)%bool)
                          (combine (tval q) (zval q)))) q.

(** self.thin_age and self.thin_z, lines 38-39, as natural numbers: afterwards
    they are only compared with 1 (line 144), so every factor that is not a
    positive integer is recorded as 0 *)
Definition recorded (k : option Z) : nat :=
  match k with Some (Zpos p) => Pos.to_nat p | _ => O end.

(** __init__, lines 17-43 and 127-134, as ReadMiles.init *)
Definition init_any (d : disk) (mod_dir : option string) (age_lim z_lim : option (R * R))
    (thin_age thin_z : option Z) : disk * res miles :=
  match mod_dir with
  | None => (d, Err AttributeError)
  | Some EmptyString => (d, Err IndexError)
  | Some _ =>
      let files := if has_cache d then list_remove cache_name (listing d) else listing d in
      let r :=
        q <- split_modfiles files ;;
        q <- filter_age_metallicity_limits age_lim z_lim q ;;
        q <- thin_any thin_age thin_z q ;;
        let zu := unique (zval q) in
        let tu := unique (tval q) in
        if negb (Nat.eqb (List.length (modfiles q)) (List.length zu * List.length tu))
        then Err ValueError
        else Ok (Miles q age_lim z_lim (recorded thin_age) (recorded thin_z) zu tu
                       (List.length zu) (List.length tu) default_lmd None) in
      match r with
      | Err e => (d, Err e)
      | Ok m => read_spectra d m
      end
  end.
