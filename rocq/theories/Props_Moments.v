(** * Props_Moments: claims C13-C20 about moments, covariances and L-moments of a base component.
    A conditioner set without members stands for the marginal distribution; then the
    probabilities must be normalised (they always are when light weighted). *)
From Coq Require Import Reals Lra Lia List Bool Arith ZArith String Ascii Permutation.
From Verif Require Import Num NumLemmas Arr PyStr Cube Base Spec SpecLemmas Repr Build DistLemmas Moments MomSpec MomLemmas MomClaims MomRefuted.
Import ListNotations.
Local Open Scope R_scope.

Definition vx : vset := VSet false false true false.
Definition vz : vset := VSet false false false true.
Definition ex0 : bin := Bin 0 0 0 0 0.
Lemma ex0_in : in_grid exg ex0. Proof. unfold in_grid; cbn; lia. Qed.
Lemma ex0_pos : 0 < marg exg (prob exg exf false) vx ex0. Proof. ex_num. Qed.

(** C13: the mean is the probability-weighted sum of bin centres, lies between
    the extreme centres, and is nan exactly where the conditioner is empty. *)
Theorem C13_mean : forall self g f lw,
  comp_on self g f -> good_grid g -> nonneg g f -> lw_ok g f lw ->
  forall k C, disjoint (cvar k) C = true -> (nonempty C = false -> total g (prob g f lw) = 1) ->
  exists m, get_mean (base_obj self) (dname (cvar k) C) lw = Ok m /\ shp m = mdims k C g /\
    forall i, in_grid g i ->
      (0 < marg g (prob g f lw) C i ->
         ent m (mcoords k C i) = Fin (Mean g (prob g f lw) k C i) /\
         mid (cedge g k) 0 <= Mean g (prob g f lw) k C i <= mid (cedge g k) (cn g k - 1)) /\
      (marg g (prob g f lw) C i = 0 -> ent m (mcoords k C i) = NaN).
Proof. exact mean_claim. Qed.
Print Assumptions C13_mean.

Example C13_example : exists m, get_mean (base_obj exc) "t_x" false = Ok m /\ ent m [0; 0]%nat = Fin (57 / 42).
Proof.
  destruct (C13_mean exc exg exf false exc_on exg_good exf_nonneg (ex_lw_ok _) Ct vx eq_refl ltac:(discriminate))
    as (m & E & _ & He).
  exists m. split; [exact E|]. destruct (He ex0 ex0_in) as [He' _]. destruct (He' ex0_pos) as [He'' _].
  etransitivity; [exact He''|]. f_equal. unfold vx, ex0. mom_num; field.
Qed.
Example C13_example_light : total exg (prob exg exf true) = 1 /\
  exists m, get_mean (base_obj exc) "x" true = Ok m /\ shp m = [2%nat].
Proof.
  assert (T : total exg (prob exg exf true) = 1) by (apply total_light; pose proof ex_light; lra).
  split; [exact T|].
  destruct (C13_mean exc exg exf true exc_on exg_good exf_nonneg (ex_lw_ok _) Cx1 no_vars eq_refl (fun _ => T))
    as (m & E & Hs & _). exists m. split; assumption.
Qed.

(** C14: averaging the conditional mean over the conditioner gives back the
    mean; also when some variables stay conditioned on. *)
Theorem C14_total_expectation : forall self g f lw,
  comp_on self g f -> good_grid g -> nonneg g f -> lw_ok g f lw ->
  forall k B C,
  nonempty B = true -> disjoint (cvar k) B = true -> disjoint (cvar k) C = true -> disjoint B C = true ->
  (nonempty C = false -> total g (prob g f lw) = 1) ->
  exists m p m0, get_mean (base_obj self) (dname (cvar k) (union B C)) lw = Ok m /\
    get_p self (dname B C) false lw = Ok p /\ get_mean (base_obj self) (dname (cvar k) C) lw = Ok m0 /\
    forall i, in_grid g i -> 0 < marg g (prob g f lw) C i ->
      nsum (map (fun j => nmul (ent m (mcoords k (union B C) j)) (ent p (coords B j ++ coords C j)))
                (filter (fun j => if Rlt_dec 0 (marg g (prob g f lw) (union B C) j) then true else false) (bins_over g B i)))
      = ent m0 (mcoords k C i).
Proof. exact total_expectation. Qed.
Print Assumptions C14_total_expectation.

Example C14_example :
  exists m p m0, get_mean (base_obj exc) "t_xz" false = Ok m /\ get_p exc "z_x" false false = Ok p /\
    get_mean (base_obj exc) "t_x" false = Ok m0 /\
    nadd (nmul (ent m [0; 0; 0]%nat) (ent p [0; 0; 0]%nat)) (nmul (ent m [0; 0; 1]%nat) (ent p [1; 0; 0]%nat))
    = ent m0 [0; 0]%nat.
Proof.
  destruct (C14_total_expectation exc exg exf false exc_on exg_good exf_nonneg (ex_lw_ok _) Ct vz vx
    eq_refl eq_refl eq_refl eq_refl ltac:(discriminate)) as (m & p & m0 & E1 & E2 & E3 & He).
  exists m, p, m0. do 3 (split; [assumption|]). specialize (He ex0 ex0_in ex0_pos).
  etransitivity; [|exact He]. 
  change (bins_over exg vz ex0) with [Bin 0 0 0 0 0; Bin 0 0 0 0 1]. cbn [filter].
  do 2 (destruct (Rlt_dec _ _) as [_|n]; [|exfalso; apply n; ex_num]).
  unfold nsum. cbn [map fold_right mcoords coords union no_vars vz vx has_t has_v has_x has_z orb opt app bx by_ bz].
  rewrite nadd_zero_r. reflexivity.
Qed.

(** C15: moments of every order about every centre; order 0 is 1 and the
    central moment of order 1 is 0. *)
Theorem C15_noncentral_moments : forall self g f lw,
  comp_on self g f -> good_grid g -> nonneg g f -> lw_ok g f lw ->
  forall k C, disjoint (cvar k) C = true -> (nonempty C = false -> total g (prob g f lw) = 1) ->
  forall j mu, shp mu = mdims k C g ->
  exists m, get_noncentral_moment (base_obj self) (dname (cvar k) C) j mu lw = Ok m /\ shp m = mdims k C g /\
    forall i, in_grid g i ->
      (forall c, 0 < marg g (prob g f lw) C i -> ent mu (mcoords k C i) = Fin c ->
         ent m (mcoords k C i) = Fin (Moment g (prob g f lw) k C j c i)) /\
      (marg g (prob g f lw) C i = 0 -> ent m (mcoords k C i) = NaN).
Proof. exact moment_claim. Qed.
Print Assumptions C15_noncentral_moments.
Theorem C15_central_moments : forall self g f lw,
  comp_on self g f -> good_grid g -> nonneg g f -> lw_ok g f lw ->
  forall k C, disjoint (cvar k) C = true -> (nonempty C = false -> total g (prob g f lw) = 1) ->
  forall j, exists m, get_central_moment (base_obj self) (dname (cvar k) C) j lw = Ok m /\ shp m = mdims k C g /\
    forall i, in_grid g i ->
      (0 < marg g (prob g f lw) C i ->
         ent m (mcoords k C i) = Fin (Moment g (prob g f lw) k C j (Mean g (prob g f lw) k C i) i)) /\
      (marg g (prob g f lw) C i = 0 -> ent m (mcoords k C i) = NaN).
Proof. exact central_claim. Qed.
Print Assumptions C15_central_moments.
Theorem C15_low_orders : forall g f lw k C, disjoint (cvar k) C = true -> forall i, 0 < marg g (prob g f lw) C i ->
  (forall c, Moment g (prob g f lw) k C 0 c i = 1) /\
  Moment g (prob g f lw) k C 1 (Mean g (prob g f lw) k C i) i = 0.
Proof. exact low_orders. Qed.
Print Assumptions C15_low_orders.

Example C15_example : exists m, get_noncentral_moment (base_obj exc) "t_x" 3 (full [2; 1]%nat (Fin 1)) false = Ok m /\
  ent m [0; 0]%nat = Fin ((- (18 / 8) + 24) / 42).
Proof.
  destruct (C15_noncentral_moments exc exg exf false exc_on exg_good exf_nonneg (ex_lw_ok _) Ct vx eq_refl ltac:(discriminate)
    3 (full [2; 1]%nat (Fin 1)) eq_refl) as (m & E & _ & He).
  exists m. split; [exact E|]. destruct (He ex0 ex0_in) as [He' _].
  etransitivity; [exact (He' 1 ex0_pos eq_refl)|]. f_equal. unfold vx, ex0. mom_num; field.
Qed.

(** C16: variance and dispersion. *)
Theorem C16_variance : forall self g f lw,
  comp_on self g f -> good_grid g -> nonneg g f -> lw_ok g f lw ->
  forall k C, disjoint (cvar k) C = true -> (nonempty C = false -> total g (prob g f lw) = 1) ->
  exists v s, get_variance (base_obj self) (dname (cvar k) C) lw = Ok v /\
    get_dispersion (base_obj self) (dname (cvar k) C) lw = Ok s /\
    shp v = mdims k C g /\ shp s = mdims k C g /\
    forall i, in_grid g i -> 0 < marg g (prob g f lw) C i ->
      exists V, ent v (mcoords k C i) = Fin V /\ ent s (mcoords k C i) = Fin (sqrt V) /\
        V = Ex g (prob g f lw) (cvar k) C (fun b => cmid g k b ^ 2) i - Mean g (prob g f lw) k C i ^ 2 /\
        0 <= V <= (mid (cedge g k) (cn g k - 1) - mid (cedge g k) 0) ^ 2 / 4 /\
        (V = 0 <-> forall j, In j (bins_over g (cvar k) i) -> 0 < marg g (prob g f lw) (union (cvar k) C) j ->
                             cmid g k j = Mean g (prob g f lw) k C i).
Proof. exact variance_claim. Qed.
Print Assumptions C16_variance.

Example C16_example : exists v, get_variance (base_obj exc) "t_x" false = Ok v /\
  ent v [0; 0]%nat = Fin (2 + 11 / 28 - (19 / 14) ^ 2).
Proof.
  destruct (C16_variance exc exg exf false exc_on exg_good exf_nonneg (ex_lw_ok _) Ct vx eq_refl ltac:(discriminate))
    as (v & s & E & _ & _ & _ & He).
  exists v. split; [exact E|]. destruct (He ex0 ex0_in ex0_pos) as (V & HV & _ & EV & _).
  etransitivity; [exact HV|]. f_equal. rewrite EV. unfold vx, ex0. mom_num; field.
Qed.

(** C17: skewness and kurtosis.  [f2m1] is the value SciPy gives for the double
    factorial of -1, which differs between versions; it is not used for order 4. *)
Theorem C17_skewness_kurtosis : forall self g f lw,
  comp_on self g f -> good_grid g -> nonneg g f -> lw_ok g f lw ->
  forall k C, disjoint (cvar k) C = true -> (nonempty C = false -> total g (prob g f lw) = 1) ->
  forall f2m1,
  exists sk ku ek, get_skewness (base_obj self) (dname (cvar k) C) lw = Ok sk /\
    get_kurtosis (base_obj self) (dname (cvar k) C) lw = Ok ku /\
    get_excess_kurtosis f2m1 (base_obj self) (dname (cvar k) C) lw = Ok ek /\
    shp sk = mdims k C g /\ shp ku = mdims k C g /\
    forall i, in_grid g i -> 0 < marg g (prob g f lw) C i ->
      (0 < Variance g (prob g f lw) k C i ->
         exists a b, ent sk (mcoords k C i) = Fin a /\ ent ku (mcoords k C i) = Fin b /\
           ent ek (mcoords k C i) = Fin (b - 3) /\
           a = Moment g (prob g f lw) k C 3 (Mean g (prob g f lw) k C i) i / sqrt (Variance g (prob g f lw) k C i) ^ 3 /\
           b = Moment g (prob g f lw) k C 4 (Mean g (prob g f lw) k C i) i / sqrt (Variance g (prob g f lw) k C i) ^ 4 /\
           a ^ 2 + 1 <= b) /\
      (Variance g (prob g f lw) k C i = 0 ->
         ent sk (mcoords k C i) = NaN /\ ent ku (mcoords k C i) = NaN /\ ent ek (mcoords k C i) = NaN).
Proof. exact shape_claim. Qed.
Print Assumptions C17_skewness_kurtosis.

Example C17_example : 0 < Variance exg (prob exg exf false) Ct vx ex0.
Proof. unfold vx, ex0. mom_num. Qed.

(** C18: covariance and correlation, for pairs of coordinates of different variables. *)
Theorem C18_covariance : forall self g f lw,
  comp_on self g f -> good_grid g -> nonneg g f -> lw_ok g f lw ->
  forall a b C, before a b = true -> disjoint (union (cvar a) (cvar b)) C = true ->
  (nonempty C = false -> total g (prob g f lw) = 1) ->
  exists m, get_covariance (base_obj self) (dname (union (cvar a) (cvar b)) C) lw = Ok m /\
    shp m = mdims (xkey a b) C g /\
    forall i, in_grid g i ->
      (0 < marg g (prob g f lw) C i -> ent m (mcoords (xkey a b) C i) =
         Fin (Ex g (prob g f lw) (union (cvar a) (cvar b)) C (fun j => cmid g a j * cmid g b j) i
              - Mean g (prob g f lw) a C i * Mean g (prob g f lw) b C i)) /\
      (marg g (prob g f lw) C i = 0 -> ent m (mcoords (xkey a b) C i) = NaN).
Proof. exact cov_claim. Qed.
Print Assumptions C18_covariance.
Theorem C18_correlation : forall self g f lw,
  comp_on self g f -> good_grid g -> nonneg g f -> lw_ok g f lw ->
  forall a b C, before a b = true -> disjoint (union (cvar a) (cvar b)) C = true ->
  (nonempty C = false -> total g (prob g f lw) = 1) ->
  exists m, get_correlation (base_obj self) (dname (union (cvar a) (cvar b)) C) lw = Ok m /\
    shp m = mdims (xkey a b) C g /\
    forall i, in_grid g i ->
      (0 < marg g (prob g f lw) C i -> 0 < Variance g (prob g f lw) a C i -> 0 < Variance g (prob g f lw) b C i ->
         exists r, ent m (mcoords (xkey a b) C i) = Fin r /\ -1 <= r <= 1 /\
           r = Covar g (prob g f lw) a b C i / sqrt (Variance g (prob g f lw) a C i * Variance g (prob g f lw) b C i)) /\
      (0 < marg g (prob g f lw) C i -> Variance g (prob g f lw) a C i * Variance g (prob g f lw) b C i = 0 ->
         ent m (mcoords (xkey a b) C i) = NaN) /\
      (marg g (prob g f lw) C i = 0 -> ent m (mcoords (xkey a b) C i) = NaN).
Proof. exact corr_claim. Qed.
Print Assumptions C18_correlation.
Theorem C18_arity_marginal : forall o w lw, has_char "_" w = false -> String.length w <> 2%nat ->
  get_covariance o w lw = Err ValueError /\ get_correlation o w lw = Err ValueError.
Proof. exact cov_arity_marg. Qed.
Print Assumptions C18_arity_marginal.
Theorem C18_arity_conditional : forall o d m lw,
  has_char "_" d = false -> has_char "_" m = false -> String.length d <> 2%nat ->
  get_covariance o (d ++ "_" ++ m) lw = Err ValueError /\ get_correlation o (d ++ "_" ++ m) lw = Err ValueError.
Proof. exact cov_arity_cond. Qed.
Print Assumptions C18_arity_conditional.
(** the order of the two letters matters although the covariance is symmetric:
    an independent pair (covariance 0) gets a non-zero covariance *)
Theorem C18_pair_order_refuted :
  exists self g f a b, comp_on self g f /\ good_grid g /\ nonneg g f /\
    get_covariance (base_obj self) "tz_x" false = Ok a /\ get_covariance (base_obj self) "zt_x" false = Ok b /\
    shp a = shp b /\ ent a [0; 0]%nat = Fin 0 /\ ent b [0; 0]%nat = Fin (- (2 / 49)).
Proof.
  exact (match cov_zt with ex_intro _ a (ex_intro _ b H) =>
    ex_intro _ exc (ex_intro _ exg (ex_intro _ exf (ex_intro _ a (ex_intro _ b
      (conj exc_on (conj exg_good (conj exf_nonneg H))))))) end).
Qed.
Print Assumptions C18_pair_order_refuted.

Example C18_example : before Ct Cx1 = true /\ disjoint (union (cvar Ct) (cvar Cx1)) vz = true /\
  exists m, get_covariance (base_obj exc) "tx_z" false = Ok m /\ shp m = [2; 2]%nat /\
    ent m [0; 0]%nat = Fin (7 / 10 - 11 / 10 * (8 / 10)).
Proof.
  do 2 (split; [reflexivity|]).
  destruct (C18_covariance exc exg exf false exc_on exg_good exf_nonneg (ex_lw_ok _) Ct Cx1 vz eq_refl eq_refl ltac:(discriminate))
    as (m & E & Hs & He).
  exists m. split; [exact E|]. split; [exact Hs|]. destruct (He ex0 ex0_in) as [He' _].
  assert (M : 0 < marg exg (prob exg exf false) vz ex0) by ex_num.
  etransitivity; [exact (He' M)|]. f_equal. unfold vz, ex0. mom_num; field.
Qed.

(** C19: L-moments. *)
Theorem C19_l_mean : forall self g f lw,
  comp_on self g f -> good_grid g -> nonneg g f -> lw_ok g f lw ->
  forall k C, disjoint (cvar k) C = true -> (nonempty C = false -> total g (prob g f lw) = 1) ->
  is_x k = false ->
  exists a b, get_l_mean (base_obj self) (dname (cvar k) C) lw = Ok a /\
    get_mean (base_obj self) (dname (cvar k) C) lw = Ok b /\
    shp a = shp b /\ forall i, in_grid g i -> ent a (coords C i) = ent b (coords C i).
Proof. exact l_mean_claim. Qed.
Print Assumptions C19_l_mean.
Theorem C19_l_dispersion : forall self g f lw,
  comp_on self g f -> good_grid g -> nonneg g f -> lw_ok g f lw ->
  forall k C, disjoint (cvar k) C = true -> (nonempty C = false -> total g (prob g f lw) = 1) ->
  is_x k = false ->
  exists a, get_l_dispersion (base_obj self) (dname (cvar k) C) lw = Ok a /\ shp a = dims C g /\
    forall i, in_grid g i ->
      (0 < marg g (prob g f lw) C i ->
         ent a (coords C i) = Fin (Ldisp g (prob g f lw) k C i) /\ 0 <= Ldisp g (prob g f lw) k C i) /\
      (marg g (prob g f lw) C i = 0 -> ent a (coords C i) = NaN).
Proof. exact l_disp_claim. Qed.
Print Assumptions C19_l_dispersion.
Theorem C19_l_dispersion_shift : forall self self' g f lw k c C,
  comp_on self g f -> comp_on self' (shift k c g) f -> good_grid g -> nonneg g f -> lw_ok g f lw ->
  is_x k = false -> disjoint (cvar k) C = true -> (nonempty C = false -> total g (prob g f lw) = 1) ->
  exists a b, get_l_dispersion (base_obj self) (dname (cvar k) C) lw = Ok a /\
    get_l_dispersion (base_obj self') (dname (cvar k) C) lw = Ok b /\ shp a = shp b /\
    forall i, in_grid g i -> ent a (coords C i) = ent b (coords C i).
Proof. exact l_disp_shift_claim. Qed.
Print Assumptions C19_l_dispersion_shift.
Theorem C19_l_moments_of_x : forall self g f lw,
  comp_on self g f -> good_grid g -> nonneg g f -> lw_ok g f lw ->
  forall k C, disjoint (cvar k) C = true -> (nonempty C = false -> total g (prob g f lw) = 1) ->
  forall j, is_x k = true -> get_l_moment (base_obj self) (dname (cvar k) C) j lw = Err ValueError.
Proof. exact l_x_claim. Qed.
Print Assumptions C19_l_moments_of_x.

Example C19_example : exists a, get_l_dispersion (base_obj exc) "t_x" false = Ok a /\
  exists l, ent a [0; 0]%nat = Fin l /\ l = 3 / 14 + 2 * (5 / 7 - 3 / 7) .
Proof.
  destruct (C19_l_dispersion exc exg exf false exc_on exg_good exf_nonneg (ex_lw_ok _) Ct vx eq_refl ltac:(discriminate) eq_refl)
    as (a & E & _ & He).
  exists a. split; [exact E|]. destruct (He ex0 ex0_in) as [He' _]. destruct (He' ex0_pos) as [He'' _].
  eexists. split; [exact He''|]. unfold Ldisp, cdf, vx, ex0. mom_num; field.
Qed.
Example C19_example_shift : comp_on (comp_of (oneg 0) onef) (oneg 0) onef /\
  comp_on (comp_of (shift Cv 5 (oneg 0)) onef) (shift Cv 5 (oneg 0)) onef.
Proof. split; apply comp_of_on; intros i Hi; unfold wid; cbn -[INR]; rewrite !S_INR; cbn; lra. Qed.

(** C20 (refuted): with all mass in one bin of width one starting at c, the
    L-skewness is 2c+1: it changes with the origin and is not bounded. *)
Theorem C20_l_skewness_origin_refuted : forall c,
  exists g f self, comp_on self g f /\ good_grid g /\ nonneg g f /\ total g (prob g f false) = 1 /\
    nv g = 1%nat /\ vE g 0 = c /\ vE g 1 = c + 1 /\
    exists a, get_l_skewness (base_obj self) "v" false = Ok a /\ ent a [] = Fin (2 * c + 1).
Proof. exact l_skewness_family. Qed.
Print Assumptions C20_l_skewness_origin_refuted.
