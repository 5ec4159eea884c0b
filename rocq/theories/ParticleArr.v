(** * ParticleArr: popkinmocks/components/particle.py with the particle data
    as arrays of any shapes.

    Particle.v takes the data as a list of particles, which is what arrays with
    one axis and one length amount to. Here the arguments are arrays, so data
    that do not fit together can be given. *)
From Coq Require Import Reals List Bool Arith ZArith String Ascii.
From Verif Require Import Num Arr PyStr Cube Base Particle.
Import ListNotations.
Local Open Scope string_scope.

(** np.sum of a boolean array *)
Definition acount (a : arr bool) : nat := count (fun idx => ent a idx) (all_idx (shp a)).

(** len of an array: the length of the first axis, TypeError without axes *)
Definition py_len {A} (a : arr A) : res nat :=
  match shp a with [] => Err TypeError | n :: _ => Ok n end.

(** the conjunction of masks on particle.py lines 30-39, from left to right *)
Fixpoint all_masks (m : arr bool) (l : list (arr bool)) : res (arr bool) :=
  match l with
  | [] => Ok m
  | a :: l' => m' <- bop andb m a ;; all_masks m' l'
  end.

Definition at_least (lo : num) (q : arr num) : arr bool := amap (fun x => nle lo x) q.
Definition at_most (hi : num) (q : arr num) : arr bool := amap (fun x => nle x hi) q.

(** the sample np.histogramdd makes of a list of five arrays,
    [np.atleast_2d(sample).T], with its shape unpacked as [N, D]: arrays of
    different shapes do not stack and arrays with several axes do not unpack,
    both ValueError (numpy/lib/histograms.py). The case of five arrays without
    axes does not arise, [len(t)] having failed before. *)
Definition sample (t v x1 x2 z : arr num) : res (list particle) :=
  if natlist_eqb (shp v) (shp t) && natlist_eqb (shp x1) (shp t) && natlist_eqb (shp x2) (shp t)
     && natlist_eqb (shp z) (shp t)
  then match shp t with
       | [n] => Ok (map (fun i => Particle (ent t [i]) (ent v [i]) (ent x1 [i]) (ent x2 [i]) (ent z [i])) (seq 0 n))
       | _ => Err ValueError
       end
  else Err ValueError.

(** np.bincount takes its weights as an array with one axis, any other number
    of axes being a ValueError; they are not looked at when there is nothing
    to count *)
Definition weight_list (ps : list particle) (w : option (arr num)) : res (option (list num)) :=
  match w with
  | None => Ok None
  | Some a => if Nat.eqb (List.length ps) 0 then Ok None
              else match shp a with [_] => Ok (Some (to_list a)) | _ => Err ValueError end
  end.

(** FromParticle.__init__, particle.py lines 24-56. The printed note is
    part of the result only when the call succeeds; [n_total - n_in_bounds] is
    the truncated difference, the same as the true one for data of one length. *)
Definition from_particle_arrays (c : cube) (t v x1 x2 z : arr num) (mass_weights : option (arr num))
  : res (report * component) :=
  et <- get_variable_edges c "t" ;; ev <- get_variable_edges c "v" ;;
  e1 <- get_variable_edges c "x1" ;; e2 <- get_variable_edges c "x2" ;;
  ez <- get_variable_edges c "z" ;;
  n_total <- py_len t ;;
  t0 <- edge_lo et ;; t1 <- edge_hi et ;; v0 <- edge_lo ev ;; v1 <- edge_hi ev ;;
  a0 <- edge_lo e1 ;; a1 <- edge_hi e1 ;; b0 <- edge_lo e2 ;; b1 <- edge_hi e2 ;;
  z0 <- edge_lo ez ;; z1 <- edge_hi ez ;;
  mask <- all_masks (at_least t0 t) [at_most t1 t; at_least v0 v; at_most v1 v; at_least a0 x1; at_most a1 x1;
                                     at_least b0 x2; at_most b1 x2; at_least z0 z; at_most z1 z] ;;
  let n_in_bounds := acount mask in
  let lost pdat lo hi := (acount (amap (fun x => nlt x lo) pdat), acount (amap (fun x => nlt hi x) pdat)) in
  let note := Report (n_total - n_in_bounds) n_total
    [lost t t0 t1; lost v v0 v1; lost x1 a0 a1; lost x2 b0 b1; lost z z0 z1] in
  ps <- sample t v x1 x2 z ;;
  w <- weight_list ps mass_weights ;;
  p_tvxz <- histogramdd (Edges5 et ev e1 e2 ez) ps w ;;
  self <- component_init c (amap nlog p_tvxz) ;;
  Ok (note, self).
