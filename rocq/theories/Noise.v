(** * Noise: popkinmocks/noise.py.

    Simplification: [z] is the array of standard normal numbers drawn by scipy,
    of the shape of the noise; any numbers are allowed. *)
From Coq Require Import Reals List Bool Arith ZArith.
From Verif Require Import Num Arr.
Import ListNotations.
Local Open Scope R_scope.

(** self.component.ybar; [None] when evaluate_ybar was not called *)
Definition attr {A} (o : option A) : res A := match o with Some a => Ok a | None => Err AttributeError end.

(** ConstantSNR.get_sigma, lines 46-53 *)
Definition constant_snr_sigma (ybar : option (arr num)) (snr : num) : res (arr num) :=
  y <- attr ybar ;;
  Ok (amap (fun a => ndiv a snr) y).

(** np.max(a): ValueError for an empty array *)
Definition np_amax (a : arr num) : res num :=
  match map (ent a) (all_idx (shp a)) with
  | [] => Err ValueError
  | l => Ok (amax l)
  end.

(** ShotNoise.get_sigma, lines 57-70 *)
Definition shot_noise_sigma (ybar : option (arr num)) (snr : num) : res (arr num) :=
  y <- attr ybar ;;
  max_ybar <- np_amax y ;;
  let K := ndiv (nsqrt max_ybar) snr in
  Ok (amap (fun a => nmul K (nsqrt a)) y).

Definition all_ent {A} (f : A -> bool) (a : arr A) : bool := forallb (fun idx => f (ent a idx)) (all_idx (shp a)).

(** stats.norm(mu, sigma).rvs(): ValueError unless every scale is >= 0; the
    location itself when every scale is zero *)
Definition norm_rvs (mu sigma : arr num) (z : list nat -> R) : res (arr num) :=
  if negb (all_ent (fun s => nle (Fin 0) s) sigma) then Err ValueError
  else if all_ent (fun s => neqb s (Fin 0)) sigma then
    bop (fun m _ => m) mu sigma
  else
    s <- bop (fun _ s => s) mu sigma ;;
    bop nadd (Arr (shp s) (fun idx => nmul (Fin (z idx)) (ent s idx))) mu.

(** Diagonal.sample, lines 29-40 *)
Definition noise_sample (get_sigma : option (arr num) -> num -> res (arr num)) (ybar : option (arr num)) (snr : num)
    (z : list nat -> R) : res (arr num) :=
  sigma <- get_sigma ybar snr ;;
  y <- attr ybar ;;
  norm_rvs (full (shp y) (Fin 0)) sigma z.

(** Noise.get_noisy_data, lines 16-21 *)
Definition get_noisy_data (get_sigma : option (arr num) -> num -> res (arr num)) (ybar : option (arr num)) (snr : num)
    (z : list nat -> R) : res (arr num) :=
  y <- attr ybar ;;
  eps <- noise_sample get_sigma ybar snr z ;;
  bop nadd y eps.
