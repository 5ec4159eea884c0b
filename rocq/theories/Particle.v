(** * Particle: popkinmocks/components/particle.py.

    The five equal-length arrays of particle data are a list of particles;
    arrays of other shapes are in ParticleArr.v. *)
From Coq Require Import Reals List Bool Arith ZArith String Ascii.
From Verif Require Import Num Arr PyStr Cube Base.
Import ListNotations.
Local Open Scope string_scope.

Record particle := Particle { p_t : num; p_v : num; p_x1 : num; p_x2 : num; p_z : num }.

Definition edge_lo (e : arr num) : res num := a <- getitem [IInt 0] e ;; Ok (ent a []).
Definition edge_hi (e : arr num) : res num := a <- getitem [IInt (-1)] e ;; Ok (ent a []).

(** np.sum of a boolean array *)
Definition count {A} (f : A -> bool) (l : list A) : nat := List.length (filter f l).

(** np.searchsorted(edges, x, side="right") on monotonic edges: the number of
    edges not above [x]; nan sorts after every number *)
Definition searchsorted_right (e : list num) (x : num) : nat :=
  match x with NaN => List.length e | _ => count (fun a => nle a x) e end.

(** The bin number along one axis in np.histogramdd: searchsorted, with values
    on the rightmost edge shifted one bin down (numpy/lib/histograms.py).
    Bin k of the axis has number S k; 0 and len(edges) are outliers. *)
Definition bin_number (e : list num) (x : num) : nat :=
  let k := searchsorted_right e x in
  if neqb x (last e NaN) then (k - 1)%nat else k.

(** the check of np.histogramdd that given edges increase monotonically *)
Fixpoint monotonic (e : list num) : bool :=
  match e with
  | a :: (b :: _) as r => negb (nlt b a) && monotonic r
  | _ => true
  end.

(** The edges of the five axes *)
Record edges5 := Edges5 { e_t : arr num; e_v : arr num; e_x1 : arr num; e_x2 : arr num; e_z : arr num }.

(** whether a particle is counted in the bin with indices a b c d e *)
Definition falls_in (E : edges5) (a b c d e : nat) (p : particle) : bool :=
  Nat.eqb (bin_number (to_list (e_t E)) (p_t p)) (S a) &&
  Nat.eqb (bin_number (to_list (e_v E)) (p_v p)) (S b) &&
  Nat.eqb (bin_number (to_list (e_x1 E)) (p_x1 p)) (S c) &&
  Nat.eqb (bin_number (to_list (e_x2 E)) (p_x2 p)) (S d) &&
  Nat.eqb (bin_number (to_list (e_z E)) (p_z p)) (S e).

Definition nbins (e : arr num) : nat := (len0 e - 1)%nat.

(** the summed weights per bin; indices beyond the shape, which hold the
    outliers that np.histogramdd strips, are never read *)
Definition hist_counts (E : edges5) (pw : list (particle * num)) : arr num :=
  Arr [nbins (e_t E); nbins (e_v E); nbins (e_x1 E); nbins (e_x2 E); nbins (e_z E)]
      (fun idx => match idx with
        | [a; b; c; d; e] =>
            if Nat.ltb a (nbins (e_t E)) && Nat.ltb b (nbins (e_v E)) && Nat.ltb c (nbins (e_x1 E))
               && Nat.ltb d (nbins (e_x2 E)) && Nat.ltb e (nbins (e_z E))
            then nsum (map snd (filter (fun q => falls_in E a b c d e (fst q)) pw))
            else NaN
        | _ => NaN end).

(** np.histogramdd(sample, bins=edges, density=True, weights=w)[0]: the counts
    are divided by the bin widths of each axis in turn, then by their sum.
    Weights of another length than the sample are rejected by np.bincount,
    which does not look at them when the sample is empty. *)
Definition histogramdd (E : edges5) (ps : list particle) (weights : option (list num)) : res (arr num) :=
  if monotonic (to_list (e_t E)) && monotonic (to_list (e_v E)) && monotonic (to_list (e_x1 E))
     && monotonic (to_list (e_x2 E)) && monotonic (to_list (e_z E)) then
  w <- (match weights with
        | None => Ok (repeat (Fin 1) (List.length ps))
        | Some w => if Nat.eqb (List.length ps) 0 then Ok []
                    else if Nat.eqb (List.length w) (List.length ps) then Ok w else Err ValueError
        end) ;;
  let hist := hist_counts E (combine ps w) in
  let s := nsum (map (ent hist) (all_idx (shp hist))) in
  dt <- bop nsub (tail0 (e_t E)) (init0 (e_t E)) ;;
  dv <- bop nsub (tail0 (e_v E)) (init0 (e_v E)) ;;
  dx <- bop nsub (tail0 (e_x1 E)) (init0 (e_x1 E)) ;;
  dy <- bop nsub (tail0 (e_x2 E)) (init0 (e_x2 E)) ;;
  dz <- bop nsub (tail0 (e_z E)) (init0 (e_z E)) ;;
  Ok (Arr (shp hist) (fun idx => match idx with
        | [a; b; c; d; e] =>
            ndiv (ndiv (ndiv (ndiv (ndiv (ndiv (ent hist idx) (ent dt [a])) (ent dv [b]))
                 (ent dx [c])) (ent dy [d])) (ent dz [e])) s
        | _ => NaN end))
  else Err ValueError.

(** what the printed note reports: numbers lost and total, then for each of the
    five variables the numbers below and above the grid (the formatting of the
    string is not modelled) *)
Record report := Report { n_lost : nat; n_total : nat; lost_lo_hi : list (nat * nat) }.

(** [(q >= lo) & (q <= hi)] *)
Definition between (lo hi x : num) : bool := nle lo x && nle x hi.

(** FromParticle.__init__, particle.py lines 25-56: the printed note and the
    component *)
Definition from_particle (c : cube) (ps : list particle) (mass_weights : option (list num))
  : res (report * component) :=
  et <- get_variable_edges c "t" ;; ev <- get_variable_edges c "v" ;;
  e1 <- get_variable_edges c "x1" ;; e2 <- get_variable_edges c "x2" ;;
  ez <- get_variable_edges c "z" ;;
  t0 <- edge_lo et ;; t1 <- edge_hi et ;; v0 <- edge_lo ev ;; v1 <- edge_hi ev ;;
  x0 <- edge_lo e1 ;; x1 <- edge_hi e1 ;; y0 <- edge_lo e2 ;; y1 <- edge_hi e2 ;;
  z0 <- edge_lo ez ;; z1 <- edge_hi ez ;;
  let n_in_bounds := count (fun p =>
    between t0 t1 (p_t p) && between v0 v1 (p_v p) && between x0 x1 (p_x1 p) &&
    between y0 y1 (p_x2 p) && between z0 z1 (p_z p)) ps in
  let lost get lo hi := (count (fun p => nlt (get p) lo) ps, count (fun p => nlt hi (get p)) ps) in
  let note := Report (List.length ps - n_in_bounds) (List.length ps)
    [lost p_t t0 t1; lost p_v v0 v1; lost p_x1 x0 x1; lost p_x2 y0 y1; lost p_z z0 z1] in
  p_tvxz <- histogramdd (Edges5 et ev e1 e2 ez) ps mass_weights ;;
  self <- component_init c (amap nlog p_tvxz) ;;
  Ok (note, self).
