(** * HeapNoise: popkinmocks/noise.py and the datacube of a mixture on the heap
    of Heap.v. *)
From Coq Require Import Reals List Bool Arith ZArith.
From Verif Require Import Num Arr Noise Heap.
Import ListNotations.

(** ConstantSNR.get_sigma, noise.py lines 46-53 *)
Definition h_constant_sigma (ybar : option nda) (snr : num) : prog nda :=
  y <~ lift (attr ybar) ;; h_map (fun a => ndiv a snr) y.
(** ShotNoise.get_sigma, lines 57-70 *)
Definition h_shot_sigma (ybar : option nda) (snr : num) : prog nda :=
  y <~ lift (attr ybar) ;;
  max_ybar <~ (fun h => (h, np_amax (value h y))) ;;
  let K := ndiv (nsqrt max_ybar) snr in
  root <~ h_map nsqrt y ;;
  h_map (fun a => nmul K a) root.
(** Diagonal.sample, lines 29-40 *)
Definition h_sample (get_sigma : option nda -> num -> prog nda) (ybar : option nda) (snr : num)
    (z : list nat -> R) : prog nda :=
  sigma <~ get_sigma ybar snr ;;
  y <~ lift (attr ybar) ;;
  mu <~ alloc (full (na_shp y) (Fin 0)) ;;
  new (fun h => norm_rvs (value h mu) (value h sigma) z).
(** Noise.get_noisy_data, lines 16-21 *)
Definition h_get_noisy_data (get_sigma : option nda -> num -> prog nda) (ybar : option nda) (snr : num)
    (z : list nat -> R) : prog nda :=
  y <~ lift (attr ybar) ;;
  eps <~ h_sample get_sigma ybar snr z ;;
  h_bop nadd y eps.
