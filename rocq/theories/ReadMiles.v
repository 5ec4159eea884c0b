(** * ReadMiles: model of popkinmocks/read_miles.py.

    Per-file arrays are lists; a column-of-spectra matrix is a 2-d array.
    The directory on disk is an explicit value: the listing returned by
    os.listdir (in any order), the contents of each fits file, and the contents
    of all_spectra.npy (meaningful only when that name is in the listing).

    Simplifications: finite numbers are exact reals; [thin_age], [thin_z] and
    [pix_per_bin] are natural numbers (Python would also accept negative or
    fractional ones); printing is omitted. *)
From Coq Require Import Reals List Bool Arith ZArith String Ascii.
From Verif Require Import Num Arr PyStr.
Import ListNotations.
Local Open Scope R_scope.
Local Open Scope string_scope.

(** ** Python and numpy helpers *)

(** [p] is a prefix of [l]; returns the rest *)
Fixpoint strip_prefix (p l : list ascii) : option (list ascii) :=
  match p, l with
  | [], _ => Some l
  | a :: p', b :: l' => if Ascii.eqb a b then strip_prefix p' l' else None
  | _, [] => None
  end.

(** s.split(sep) for a non-empty separator of two or more characters; the fuel
    is the number of characters left *)
Fixpoint split_sub_aux (fuel : nat) (sep cur l : list ascii) : list string :=
  match fuel with
  | O => [of_chars (rev cur)]
  | S fuel' =>
      match l with
      | [] => [of_chars (rev cur)]
      | c :: l' => match strip_prefix sep l with
                   | Some r => of_chars (rev cur) :: split_sub_aux fuel' sep [] r
                   | None => split_sub_aux fuel' sep (c :: cur) l'
                   end
      end
  end.
Definition split_sub (sep s : string) : list string :=
  split_sub_aux (S (String.length s)) (chars sep) [] (chars s).

(** list[k], k >= 0 *)
Definition item {A} (l : list A) (k : nat) : res A :=
  match nth_error l k with Some a => Ok a | None => Err IndexError end.

Definition digit (c : ascii) : option nat :=
  let n := nat_of_ascii c in
  if (Nat.leb 48 n && Nat.leb n 57)%bool then Some (n - 48)%nat else None.

Fixpoint digits (l : list ascii) : option (list nat) :=
  match l with
  | [] => Some []
  | c :: l' => match digit c, digits l' with
               | Some d, Some ds => Some (d :: ds)
               | _, _ => None
               end
  end.

(** Horner value of a digit string *)
Definition horner (ds : list nat) : R := fold_left (fun acc d => 10 * acc + INR d) ds 0.

(** float(s) for plain decimal numerals: digits, optionally '.', digits.
    Signs, exponents, underscores, surrounding blanks, 'inf' and 'nan', which
    Python also accepts, raise ValueError here; the claims only use names whose
    numerals are plain. *)
Definition py_float (s : string) : res R :=
  match split "." s with
  | [a] => match digits (chars a) with
           | Some (d :: ds) => Ok (horner (d :: ds))
           | _ => Err ValueError
           end
  | [a; b] => match digits (chars a), digits (chars b) with
              | Some ds, Some es =>
                  match (ds ++ es)%list with
                  | [] => Err ValueError
                  | _ => Ok (horner (ds ++ es) / 10 ^ List.length es)
                  end
              | _, _ => Err ValueError
              end
  | _ => Err ValueError
  end.

(** np.unique: sorted distinct values *)
Fixpoint insert_unique (x : R) (l : list R) : list R :=
  match l with
  | [] => [x]
  | y :: l' => if Rltb x y then x :: l else if Reqb x y then l else y :: insert_unique x l'
  end.
Definition unique (l : list R) : list R := fold_right insert_unique [] l.

(** np.where(mask)[0] *)
Definition where_ (mask : list bool) : list nat :=
  map fst (filter snd (combine (seq 0 (List.length mask)) mask)).

(** a[idx] for an integer index array *)
Definition take_idx {A} (idx : list nat) (l : list A) : res (list A) := map_res (item l) idx.

(** number of entries of a[::k] for len(a) = n, k >= 1 *)
Definition stride_len (n k : nat) : nat := (n + k - 1) / k.
(** a[::k]; "slice step cannot be zero" is a ValueError *)
Definition stride {A} (k : nat) (l : list A) : res (list A) :=
  match k with
  | O => Err ValueError
  | _ => map_res (item l) (map (fun i => i * k)%nat (seq 0 (stride_len (List.length l) k)))
  end.

(** np.isin(x, l) for one value *)
Definition isin (x : R) (l : list R) : bool := existsb (Reqb x) l.

(** np.arange(start, stop, step): ceil((stop-start)/step) values *)
Definition ceil (x : R) : Z := (1 - up (- x))%Z.
Definition arange (start stop step : R) : list R :=
  map (fun i => start + INR i * step) (seq 0 (Z.to_nat (ceil ((stop - start) / step)))).

(** list.remove(x): first occurrence *)
Fixpoint list_remove (x : string) (l : list string) : list string :=
  match l with
  | [] => []
  | y :: l' => if String.eqb x y then l' else y :: list_remove x l'
  end.

(** ** the class *)

(** the directory data_dir + mod_dir *)
Record disk := Disk {
  listing : list string;              (* os.listdir *)
  fits_data : string -> res (list num);  (* fits.open(...)[0].data of a file *)
  npy : arr num                       (* contents of all_spectra.npy, if listed *)
}.
Definition cache_name : string := "all_spectra.npy".
(** os.path.isfile(allspecfile) *)
Definition has_cache (d : disk) : bool := existsb (String.eqb cache_name) (listing d).

(** the per-file attributes set by split_modfiles, lines 50-77 *)
Record names := Names {
  modfiles : list string;
  IMFstr : list string;
  zstr : list string;
  zval : list R;
  tstr : list string;
  tval : list R;
  endstr : list string
}.

(** "fix if basti isochrones used (i.e iT in name)", lines 59-60 *)
Definition fix_basti (tmp : list string) : list string :=
  match tmp with [a; b; c] => [a; b ++ "T" ++ c] | _ => tmp end.

(** one pass of the loop in split_modfiles, lines 55-71: (IMF, zstr, z, tstr, t,
    list of end strings) *)
Definition split_one (mod_ : string) : res (string * string * R * string * R * list string) :=
  let tmp := split "Z" mod_ in
  imf <- item tmp 0 ;;
  tmp1 <- item tmp 1 ;;
  let tmp := split "T" tmp1 in
  let tmp := fix_basti tmp in
  zs <- item tmp 0 ;;
  tmp1 <- item tmp 1 ;;
  let tmp := split_sub "_i" tmp1 in
  ts <- item tmp 0 ;;
  match zs with
  | EmptyString => Err IndexError                        (* zstr[-1][0] *)
  | String c rest =>
      z <- (if Ascii.eqb c "m" then x <- py_float rest ;; Ok (- x)
            else if Ascii.eqb c "p" then py_float rest
            else Err ValueError) ;;
      t <- py_float ts ;;
      Ok (imf, zs, z, ts, t, tl tmp)
  end.

(** split_modfiles, lines 50-77 *)
Definition split_modfiles (files : list string) : res names :=
  l <- map_res split_one files ;;
  Ok (Names files
        (map (fun q => let '(imf, _, _, _, _, _) := q in imf) l)
        (map (fun q => let '(_, zs, _, _, _, _) := q in zs) l)
        (map (fun q => let '(_, _, z, _, _, _) := q in z) l)
        (map (fun q => let '(_, _, _, ts, _, _) := q in ts) l)
        (map (fun q => let '(_, _, _, _, t, _) := q in t) l)
        (flat_map (fun q => let '(_, _, _, _, _, e) := q in e) l)).

(** the seven indexing statements shared by filter_age_metallicity_limits
    (lines 94-100) and thin_model_grid (lines 106-112) *)
Definition take_names (idx : list nat) (q : names) : res names :=
  imf <- take_idx idx (IMFstr q) ;;
  zs <- take_idx idx (zstr q) ;;
  z <- take_idx idx (zval q) ;;
  ts <- take_idx idx (tstr q) ;;
  t <- take_idx idx (tval q) ;;
  e <- take_idx idx (endstr q) ;;
  m <- take_idx idx (modfiles q) ;;
  Ok (Names m imf zs z ts t e).

(** filter_age_metallicity_limits, lines 79-100.  self.t and self.z have one
    entry per file, so the element-wise mask is taken over pairs. *)
Definition filter_age_metallicity_limits (age_lim z_lim : option (R * R)) (q : names) : res names :=
  let age_lim := match age_lim with None => (-3, 30) | Some l => l end in
  let z_lim := match z_lim with None => (-3, 3) | Some l => l end in
  let idx := where_ (map (fun tz => (Rleb (fst age_lim) (fst tz) && Rleb (fst tz) (snd age_lim)
                                     && Rleb (fst z_lim) (snd tz) && Rleb (snd tz) (snd z_lim))%bool)
                         (combine (tval q) (zval q))) in
  take_names idx q.

(** thin_model_grid, lines 102-112 *)
Definition thin_model_grid (thin_age thin_z : nat) (q : names) : res names :=
  t_thin <- stride thin_age (unique (tval q)) ;;
  z_thin <- stride thin_z (unique (zval q)) ;;
  take_names (where_ (map (fun tz => (isin (fst tz) t_thin && isin (snd tz) z_thin)%bool)
                          (combine (tval q) (zval q)))) q.

(** join_modfiles, lines 114-125 *)
Definition join_modfiles (q : names) (z t : R) : res string :=
  match where_ (map (fun tz => (Reqb (fst tz) t && Reqb (snd tz) z)%bool)
                    (combine (tval q) (zval q))) with
  | [idx] =>
      istr <- item (IMFstr q) idx ;;
      zs <- item (zstr q) idx ;;
      ts <- item (tstr q) idx ;;
      estr <- item (endstr q) idx ;;
      Ok (istr ++ "Z" ++ zs ++ "T" ++ ts ++ "_i" ++ estr)
  | _ => Err ValueError
  end.

(** the instance after __init__ has passed check_age_metallicity_grid; X is
    absent until assigned *)
Record miles := Miles {
  m_names : names;
  m_age_lim : option (R * R);
  m_z_lim : option (R * R);
  m_thin_age : nat;
  m_thin_z : nat;
  z_unq : list R;
  t_unq : list R;
  m_nz : nat;
  m_nt : nat;
  lmd : list R;
  m_X : option (arr num)
}.
Definition with_X (m : miles) (x : arr num) : miles :=
  Miles (m_names m) (m_age_lim m) (m_z_lim m) (m_thin_age m) (m_thin_z m) (z_unq m) (t_unq m)
        (m_nz m) (m_nt m) (lmd m) (Some x).
Definition with_lmd (m : miles) (l : list R) : miles :=
  Miles (m_names m) (m_age_lim m) (m_z_lim m) (m_thin_age m) (m_thin_z m) (z_unq m) (t_unq m)
        (m_nz m) (m_nt m) l (m_X m).
(** self.X *)
Definition get_X (m : miles) : res (arr num) :=
  match m_X m with Some x => Ok x | None => Err AttributeError end.

(** read_spectrum, lines 136-140 *)
Definition read_spectrum (d : disk) (q : names) (z t : R) : res (list num) :=
  f <- join_modfiles q z t ;; fits_data d f.

(** X[:, cnt] = s0 for X of n rows: a spectrum of length 1 is broadcast, any
    other wrong length is a ValueError *)
Definition column (n : nat) (s : list num) : res (list num) :=
  if Nat.eqb (List.length s) n then Ok s
  else match s with [x] => Ok (repeat x n) | _ => Err ValueError end.

(** the loops of read_spectra, lines 155-161: columns in order of cnt *)
Definition read_columns (d : disk) (q : names) (n : nat) (zs ts : list R) : res (list (list num)) :=
  cols <- map_res (fun z => map_res (fun t => s <- read_spectrum d q z t ;; column n s) ts) zs ;;
  Ok (List.concat cols).

(** the matrix with given columns *)
Definition matrix (n p : nat) (cols : list (list num)) : arr num :=
  Arr [n; p] (fun idx => match idx with [i; j] => nth i (nth j cols []) NaN | _ => NaN end).

(** c1 and c2 of read_spectra, lines 143-144 *)
Definition default_request (m : miles) : bool :=
  match m_age_lim m, m_z_lim m with
  | None, None => (Nat.eqb (m_thin_age m) 1 && Nat.eqb (m_thin_z m) 1)%bool
  | _, _ => false
  end.

(** read_spectra, lines 142-164; the directory may change (np.save) *)
Definition read_spectra (d : disk) (m : miles) : disk * res miles :=
  let loaded :=
    if default_request m
    then Ok (if has_cache d then with_X m (npy d) else m)
    else z0 <- item (z_unq m) 0 ;;
         t0 <- item (t_unq m) 0 ;;
         s0 <- read_spectrum d (m_names m) z0 t0 ;;
         if negb (Nat.eqb (List.length s0) (List.length (lmd m))) then Err ValueError
         else cols <- read_columns d (m_names m) (List.length s0) (z_unq m) (t_unq m) ;;
              Ok (with_X m (matrix (List.length s0) (m_nz m * m_nt m) cols)) in
  match loaded with
  | Err e => (d, Err e)
  | Ok m' => if (default_request m && negb (has_cache d))%bool
             then match get_X m' with
                  | Err e => (d, Err e)
                  | Ok x => (Disk (listing d ++ [cache_name]) (fits_data d) x, Ok m')
                  end
             else (d, Ok m')
  end.

(** get_lmd, lines 166-167 *)
Definition default_lmd : list R := arange 3540.5 (7409.6 + 0.9) 0.9.

(** __init__ up to check_age_metallicity_grid, lines 17-43 and 127-134, for the
    directory [d].  mod_dir=None prints a list of directories using
    self.data_dir, which is not yet set. *)
Definition init (d : disk) (mod_dir : option string) (age_lim z_lim : option (R * R))
    (thin_age thin_z : nat) : disk * res miles :=
  match mod_dir with
  | None => (d, Err AttributeError)
  | Some EmptyString => (d, Err IndexError)
  | Some _ =>
      let files := if has_cache d then list_remove cache_name (listing d) else listing d in
      let r :=
        q <- split_modfiles files ;;
        q <- filter_age_metallicity_limits age_lim z_lim q ;;
        q <- thin_model_grid thin_age thin_z q ;;
        let zu := unique (zval q) in
        let tu := unique (tval q) in
        if negb (Nat.eqb (List.length (modfiles q)) (List.length zu * List.length tu))
        then Err ValueError
        else Ok (Miles q age_lim z_lim thin_age thin_z zu tu (List.length zu) (List.length tu)
                       default_lmd None) in
      match r with
      | Err e => (d, Err e)
      | Ok m => read_spectra d m
      end
  end.

(** reset, lines 195-197 *)
Definition reset (d : disk) (m : miles) : disk * res miles :=
  read_spectra d (with_lmd m default_lmd).

(** np.min / np.max of a 1-d array; ValueError when empty *)
Definition np_min (l : list R) : res R :=
  match l with [] => Err ValueError | x :: l' => Ok (fold_left Rmin l' x) end.
Definition np_max (l : list R) : res R :=
  match l with [] => Err ValueError | x :: l' => Ok (fold_left Rmax l' x) end.

(** X[idx, :] for a matrix *)
Definition take_rows (idx : list nat) (x : arr num) : res (arr num) :=
  match shp x with
  | [n; p] => if forallb (fun i => Nat.ltb i n) idx
              then Ok (Arr [List.length idx; p]
                           (fun k => match k with
                                     | [i; j] => ent x [nth i idx O; j]
                                     | _ => NaN
                                     end))
              else Err IndexError
  | _ => Err IndexError
  end.

(** truncate_wavelengths, lines 169-180 *)
Definition truncate_wavelengths (m : miles) (lmd_min lmd_max : option R) : res miles :=
  lo <- np_min (lmd m) ;;
  hi <- np_max (lmd m) ;;
  let lmin := match lmd_min with None => lo | Some x => x end in
  let lmax := match lmd_max with None => hi | Some x => x end in
  if (Rltb lmin lo || Rltb hi lmax)%bool then Err ValueError
  else
    let idx := where_ (map (fun l => (Rleb lmin l && Rleb l lmax)%bool) (lmd m)) in
    x <- get_X m ;;
    x' <- take_rows idx x ;;
    l' <- take_idx idx (lmd m) ;;
    Ok (with_lmd (with_X m x') l').

(** a[:-r] along the first axis: a[:0] when r = 0 *)
Definition drop_last (n r : nat) : nat := match r with O => O | _ => (n - r)%nat end.

(** np.sum(np.reshape(a, (k, -1)), 0) of a 1-d list *)
Definition sum_blocks (k : nat) (a : list R) : res (list R) :=
  let q := (List.length a / k)%nat in
  if Nat.eqb (k * q) (List.length a)
  then Ok (map (fun j => sumR (map (fun b => nth (b * q + j) a 0) (seq 0 k))) (seq 0 q))
  else Err ValueError.

(** bin_pixels, lines 182-193 *)
Definition bin_pixels (m : miles) (pix_per_bin : nat) : res miles :=
  if Nat.eqb pix_per_bin 1 then Ok m
  else
    let k := pix_per_bin in
    x <- get_X m ;;
    match shp x with
    | [n; p] =>
        if Nat.eqb k 0 then Err ZeroDivisionError
        else
          let r := (n mod k)%nat in
          l' <- sum_blocks k (firstn (drop_last (List.length (lmd m)) r) (lmd m)) ;;
          let n' := drop_last n r in
          if Nat.eqb p 0 then Err ValueError       (* reshape with -1 of an empty array *)
          else
            let q := (n' / k)%nat in
            if negb (Nat.eqb (k * q) n') then Err ValueError
            else
              y <- reshape (Arr [n'; p] (ent x)) [k; q; p] ;;
              x' <- asum [0%Z] y ;;
              Ok (with_X (with_lmd m l') x')
    | _ => Err ValueError                          (* n, p = self.X.shape *)
    end.
