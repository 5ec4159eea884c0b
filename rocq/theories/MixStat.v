(** * MixStat: the statistics that Mixture inherits from Component, base.py lines
    317-787, with Mixture's own get_p, get_mean and get_central_moment (mixture.py). *)
From Coq Require Import Reals List Bool Arith ZArith String Ascii.
From Verif Require Import Num Arr PyStr Cube Base Moments Mixture.
Import ListNotations.
Local Open Scope string_scope.

(** get_variance, base.py lines 317-333 *)
Definition mix_variance (self : mixture) (which_dist : string) (light_weighted : bool) : res (arr num) :=
  mix_central_moment self which_dist 2 light_weighted.
(** get_dispersion, base.py lines 335-352 *)
Definition mix_dispersion (self : mixture) (which_dist : string) (light_weighted : bool) : res (arr num) :=
  variance <- mix_central_moment self which_dist 2 light_weighted ;;
  Ok (amap nsqrt variance).
(** get_normalised_central_moment, base.py lines 354-377 *)
Definition mix_normalised (self : mixture) (which_dist : string) (j : nat) (light_weighted : bool) : res (arr num) :=
  central_moment <- mix_central_moment self which_dist j light_weighted ;;
  dispersion <- mix_dispersion self which_dist light_weighted ;;
  bop ndiv central_moment (amap (fun d => npow d j) dispersion).
(** get_excess_central_moment, base.py lines 386-392 *)
Definition mix_excess (f2m1 : num) (self : mixture) (which_dist : string) (j : nat) (light_weighted : bool) : res (arr num) :=
  nrm_central_moment <- mix_normalised self which_dist j light_weighted ;;
  bop nsub nrm_central_moment (scal (get_normalised_central_moment_normal f2m1 j)).
(** get_skewness, get_kurtosis, get_excess_kurtosis, base.py lines 394-452 *)
Definition mix_skewness (self : mixture) (which_dist : string) (light_weighted : bool) :=
  mix_normalised self which_dist 3 light_weighted.
Definition mix_kurtosis (self : mixture) (which_dist : string) (light_weighted : bool) :=
  mix_normalised self which_dist 4 light_weighted.
Definition mix_excess_kurtosis (f2m1 : num) (self : mixture) (which_dist : string) (light_weighted : bool) :=
  mix_excess f2m1 self which_dist 4 light_weighted.

(** A mixture as seen by get_covariance, base.py lines 454-523, which calls get_p
    and get_mean only: get_mean is the mixture's own whatever the string.  The
    assertion of Component.get_mean, which Mixture.get_mean lacks, always holds
    for the strings that get_covariance builds (one letter before "_"). *)
Definition mix_own (self : mixture) : obj :=
  Obj (mx_cube self) (fun w density lw => mix_get_p self w true density lw) (fun w => Some (mix_mean self w)) (fun _ => None).
Definition mix_covariance (self : mixture) (which_dist : string) (light_weighted : bool) : res (arr num) :=
  get_covariance (mix_own self) which_dist light_weighted.
(** get_correlation, base.py lines 525-558 *)
Definition mix_correlation (self : mixture) (which_dist : string) (light_weighted : bool) : res (arr num) :=
  parts <- dep_parts which_dist ;;
  match chars (fst parts) with
  | [a; b] =>
      covariance <- mix_covariance self which_dist light_weighted ;;
      variance0 <- mix_variance self (one_dist a (snd parts)) light_weighted ;;
      variance1 <- mix_variance self (one_dist b (snd parts)) light_weighted ;;
      v <- bop nmul variance0 variance1 ;;
      bop ndiv covariance (amap nsqrt v)
  | _ => Err ValueError
  end.

(** The L-moments, base.py lines 560-787, call get_p only: they are those of
    Moments.v and NormalL.v for [mix_obj self] of Mixture.v. *)
