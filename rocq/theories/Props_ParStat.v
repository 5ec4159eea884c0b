(** * Props_ParStat: claim C82 about statistics of parametric components: ages,
    positions and metallicities, and L-moments of velocities.

    The object is any of the classes built on the parametric component; P is the
    distribution its get_p describes (claim C49). *)
From Coq Require Import Reals Lra Lia List Bool Arith ZArith String Ascii.
From Verif Require Import Num NumLemmas Arr PyStr Cube Base Moments Parametric Spec SpecLemmas Repr ParSpec ParRepr MomSpec LMom ParMoments
  ParMomSpec ParMomOther NormalL NormalLSpec MomLemmas Build ParExample ParMomExample ParMomClaims ParStat ParStatExample Props_ParMoments.
Import ListNotations.
Local Open Scope R_scope.

(** means and moments about any centre *)
Theorem C82_mean : forall L self g m q lw, par_on L self g m -> good_grid g -> good_par g m ->
  forall k C, k <> Cv -> disjoint (cvar k) C = true -> par_lw_ok g m lw (has_v C) ->
  let P := par_joint g m lw (has_v C) in (nonempty C = false -> total g P = 1) -> no_holes g m lw (cvar k) C ->
  exists a, get_mean (par_obj L q self) (dname (cvar k) C) lw = Ok a /\ shp a = mdims k C g /\
    forall i, in_grid g i ->
      (0 < par_prob g m lw C i -> ent a (mcoords k C i) = Fin (Mean g P k C i) /\
        mid (cedge g k) 0 <= Mean g P k C i <= mid (cedge g k) (cn g k - 1)) /\
      (par_prob g m lw C i = 0 -> ent a (mcoords k C i) = NaN).
Proof. exact par_other_mean. Qed.
Print Assumptions C82_mean.
Theorem C82_moments : forall L self g m q lw, par_on L self g m -> good_grid g -> good_par g m ->
  forall k C, k <> Cv -> disjoint (cvar k) C = true -> par_lw_ok g m lw (has_v C) ->
  let P := par_joint g m lw (has_v C) in (nonempty C = false -> total g P = 1) -> no_holes g m lw (cvar k) C ->
  forall j mu, shp mu = mdims k C g ->
  exists a, get_noncentral_moment (par_obj L q self) (dname (cvar k) C) j mu lw = Ok a /\ shp a = mdims k C g /\
    forall i, in_grid g i ->
      (forall c, 0 < par_prob g m lw C i -> ent mu (mcoords k C i) = Fin c ->
         ent a (mcoords k C i) = Fin (Moment g P k C j c i)) /\
      (par_prob g m lw C i = 0 -> ent a (mcoords k C i) = NaN).
Proof. exact par_other_moment. Qed.
Print Assumptions C82_moments.
Theorem C82_central_moments : forall L self g m q lw, par_on L self g m -> good_grid g -> good_par g m ->
  forall k C, k <> Cv -> disjoint (cvar k) C = true -> par_lw_ok g m lw (has_v C) ->
  let P := par_joint g m lw (has_v C) in (nonempty C = false -> total g P = 1) -> no_holes g m lw (cvar k) C ->
  forall j, exists a, get_central_moment (par_obj L q self) (dname (cvar k) C) j lw = Ok a /\ shp a = mdims k C g /\
    forall i, in_grid g i ->
      (0 < par_prob g m lw C i -> ent a (mcoords k C i) = Fin (Moment g P k C j (Mean g P k C i) i)) /\
      (par_prob g m lw C i = 0 -> ent a (mcoords k C i) = NaN).
Proof. exact par_other_central. Qed.
Print Assumptions C82_central_moments.
(** variance and dispersion, with the bounds *)
Theorem C82_variance : forall L self g m q lw, par_on L self g m -> good_grid g -> good_par g m ->
  forall k C, k <> Cv -> disjoint (cvar k) C = true -> par_lw_ok g m lw (has_v C) ->
  let P := par_joint g m lw (has_v C) in (nonempty C = false -> total g P = 1) -> no_holes g m lw (cvar k) C ->
  exists v s, get_variance (par_obj L q self) (dname (cvar k) C) lw = Ok v /\
    get_dispersion (par_obj L q self) (dname (cvar k) C) lw = Ok s /\ shp v = mdims k C g /\ shp s = mdims k C g /\
    forall i, in_grid g i ->
      (0 < marg g P C i -> exists V, ent v (mcoords k C i) = Fin V /\ ent s (mcoords k C i) = Fin (sqrt V) /\
        V = Ex g P (cvar k) C (fun b => cmid g k b ^ 2) i - Mean g P k C i ^ 2 /\
        0 <= V <= (mid (cedge g k) (cn g k - 1) - mid (cedge g k) 0) ^ 2 / 4 /\
        (V = 0 <-> forall j, In j (bins_over g (cvar k) i) -> 0 < marg g P (union (cvar k) C) j ->
                             cmid g k j = Mean g P k C i)) /\
      (marg g P C i = 0 -> ent v (mcoords k C i) = NaN /\ ent s (mcoords k C i) = NaN).
Proof. exact par_variance. Qed.
Print Assumptions C82_variance.
(** skewness, kurtosis and excess kurtosis *)
Theorem C82_shape : forall L self g m q lw, par_on L self g m -> good_grid g -> good_par g m ->
  forall k C, k <> Cv -> disjoint (cvar k) C = true -> par_lw_ok g m lw (has_v C) ->
  let P := par_joint g m lw (has_v C) in (nonempty C = false -> total g P = 1) -> no_holes g m lw (cvar k) C ->
  forall f2m1, exists sk ku ek, get_skewness (par_obj L q self) (dname (cvar k) C) lw = Ok sk /\
    get_kurtosis (par_obj L q self) (dname (cvar k) C) lw = Ok ku /\
    get_excess_kurtosis f2m1 (par_obj L q self) (dname (cvar k) C) lw = Ok ek /\
    shp sk = mdims k C g /\ shp ku = mdims k C g /\
    forall i, in_grid g i ->
      (0 < marg g P C i -> 0 < Variance g P k C i ->
         exists a b, ent sk (mcoords k C i) = Fin a /\ ent ku (mcoords k C i) = Fin b /\
           ent ek (mcoords k C i) = Fin (b - 3) /\
           a = Moment g P k C 3 (Mean g P k C i) i / sqrt (Variance g P k C i) ^ 3 /\
           b = Moment g P k C 4 (Mean g P k C i) i / sqrt (Variance g P k C i) ^ 4 /\
           a ^ 2 + 1 <= b) /\
      (0 < marg g P C i -> Variance g P k C i = 0 ->
         ent sk (mcoords k C i) = NaN /\ ent ku (mcoords k C i) = NaN /\ ent ek (mcoords k C i) = NaN) /\
      (marg g P C i = 0 ->
         ent sk (mcoords k C i) = NaN /\ ent ku (mcoords k C i) = NaN /\ ent ek (mcoords k C i) = NaN).
Proof. exact par_shape. Qed.
Print Assumptions C82_shape.
Theorem C82_covariance : forall L self g m q lw, par_on L self g m -> good_grid g -> good_par g m ->
  forall a b C, a <> Cv -> b <> Cv -> before a b = true -> disjoint (union (cvar a) (cvar b)) C = true ->
  par_lw_ok g m lw (has_v C) -> let P := par_joint g m lw (has_v C) in
  (nonempty C = false -> total g P = 1) -> no_holes g m lw (cvar a) C -> no_holes g m lw (cvar b) C ->
  exists r, get_covariance (par_obj L q self) (dname (union (cvar a) (cvar b)) C) lw = Ok r /\ shp r = mdims (xkey a b) C g /\
    forall i, in_grid g i ->
      (0 < marg g P C i -> ent r (mcoords (xkey a b) C i) = Fin (Covar g P a b C i)) /\
      (marg g P C i = 0 -> ent r (mcoords (xkey a b) C i) = NaN).
Proof. exact par_covariance. Qed.
Print Assumptions C82_covariance.
(** L-moments of ages and metallicities *)
Theorem C82_l_mean : forall L self g m q lw, par_on L self g m -> good_grid g -> good_par g m ->
  forall k C, k <> Cv -> disjoint (cvar k) C = true -> par_lw_ok g m lw (has_v C) ->
  (nonempty C = false -> total g (par_joint g m lw (has_v C)) = 1) -> no_holes g m lw (cvar k) C -> is_x k = false ->
  exists a b, get_l_mean (par_obj L q self) (dname (cvar k) C) lw = Ok a /\ get_mean (par_obj L q self) (dname (cvar k) C) lw = Ok b /\
    shp a = shp b /\ forall i, in_grid g i -> ent a (coords C i) = ent b (coords C i).
Proof. exact par_l_mean. Qed.
Print Assumptions C82_l_mean.
Theorem C82_l_moments : forall L self g m q lw, par_on L self g m -> good_grid g -> good_par g m ->
  forall k C, k <> Cv -> disjoint (cvar k) C = true -> par_lw_ok g m lw (has_v C) ->
  let P := par_joint g m lw (has_v C) in (nonempty C = false -> total g P = 1) -> no_holes g m lw (cvar k) C -> is_x k = false ->
  exists a b c, get_l_mean (par_obj L q self) (dname (cvar k) C) lw = Ok a /\
    get_l_dispersion (par_obj L q self) (dname (cvar k) C) lw = Ok b /\
    get_l_moment (par_obj L q self) (dname (cvar k) C) 3 lw = Ok c /\ shp a = dims C g /\ shp b = dims C g /\ shp c = dims C g /\
    forall i, in_grid g i ->
      let p := bin_prob g P k C i in let w := wid (cedge g k) in let F := cdf g P k C i in
      let extra2 := Sum (cn g k) (fun n => w n * p n ^ 2 / 3) in
      let extra3 := Sum (cn g k) (fun n => p n ^ 2 * w n * (F n + F (S n) - 1) + p n ^ 3 * mid (cedge g k) n) in
      (0 < marg g P C i -> exists M1 M2 M3,
         is_l_moment g P k C i 1 M1 /\ is_l_moment g P k C i 2 M2 /\ is_l_moment g P k C i 3 M3 /\
         ent a (coords C i) = Fin M1 /\ ent b (coords C i) = Fin (M2 + extra2) /\ ent c (coords C i) = Fin (M3 + extra3) /\
         0 < extra2) /\
      (marg g P C i = 0 -> ent a (coords C i) = NaN /\ ent b (coords C i) = NaN /\ ent c (coords C i) = NaN).
Proof. exact par_hist. Qed.
Print Assumptions C82_l_moments.
Theorem C82_excess_l_moments : forall L self g m q lw, par_on L self g m -> good_grid g -> good_par g m ->
  forall k C, k <> Cv -> disjoint (cvar k) C = true -> par_lw_ok g m lw (has_v C) ->
  let P := par_joint g m lw (has_v C) in (nonempty C = false -> total g P = 1) -> no_holes g m lw (cvar k) C -> is_x k = false ->
  forall qn j, normal_quantile qn ->
  exists r n x, get_normalised_l_moment_normal qn (S j) = Ok (Fin r) /\ (Nat.Odd (S j) -> r = 0) /\ (S j = 2%nat -> r = 1) /\
    get_normalised_l_moment (par_obj L q self) (dname (cvar k) C) (S j) lw = Ok n /\
    get_excess_l_moment qn (par_obj L q self) (dname (cvar k) C) (S j) lw = Ok x /\ shp n = dims C g /\ shp x = dims C g /\
    forall i, in_grid g i ->
      (0 < marg g P C i -> exists y, ent n (coords C i) = Fin y /\ ent x (coords C i) = Fin (y - r) /\ (S j = 2%nat -> y = 1)) /\
      (marg g P C i = 0 -> ent n (coords C i) = NaN /\ ent x (coords C i) = NaN).
Proof. exact par_excess. Qed.
Print Assumptions C82_excess_l_moments.
Theorem C82_l_moments_of_x : forall L self g m q lw, par_on L self g m -> good_grid g -> good_par g m ->
  forall k C, k <> Cv -> disjoint (cvar k) C = true -> par_lw_ok g m lw (has_v C) ->
  (nonempty C = false -> total g (par_joint g m lw (has_v C)) = 1) -> no_holes g m lw (cvar k) C ->
  forall j, is_x k = true -> get_l_moment (par_obj L q self) (dname (cvar k) C) j lw = Err ValueError.
Proof. exact par_l_x. Qed.
Print Assumptions C82_l_moments_of_x.

(** L-moments of velocities take the probability between the lowest edge and
    edge n for the cumulative probability; light-weighted v given t and x is
    left out (claim C49) *)
Theorem C82_velocity_l_moments : forall L self g m q lw, par_on L self g m -> good_grid g -> good_par g m ->
  forall C, has_v C = false -> par_lw_ok g m lw true -> (lw = true -> C <> VSet true false true false) ->
  forall j, exists a, get_l_moment (par_obj L q self) (dname (cvar Cv) C) (S j) lw = Ok a /\ shp a = dims C g /\
  forall i, in_grid g i -> (nonempty C = false -> par_prob g m lw C i = 1) -> 0 < par_prob g m lw C i ->
    ent a (coords C i) = Fin (trap (vE g) (fun n => Sum n (v_given g m lw C i)) (nv g) j).
Proof. exact par_v_l_moment. Qed.
Print Assumptions C82_velocity_l_moments.
(** so the L-mean of the velocity counts velocities outside the range of the
    cube as 0 and stays within that range *)
Theorem C82_velocity_l_mean : forall L self g m q lw, par_on L self g m -> good_grid g -> good_par g m ->
  forall C, has_v C = false -> par_lw_ok g m lw true -> (lw = true -> C <> VSet true false true false) ->
  exists a, get_l_mean (par_obj L q self) (dname (cvar Cv) C) lw = Ok a /\ shp a = dims C g /\
  forall i, in_grid g i -> (nonempty C = false -> par_prob g m lw C i = 1) -> 0 < par_prob g m lw C i ->
    exists r, ent a (coords C i) = Fin r /\ r = Sum (nv g) (fun n => mid (vE g) n * v_given g m lw C i n) /\
      (lw = false -> Rmin 0 (mid (vE g) 0) <= r <= Rmax 0 (mid (vE g) (nv g - 1))).
Proof. exact par_v_l_mean. Qed.
Print Assumptions C82_velocity_l_mean.
(** get_l_mean is not get_mean for velocities *)
Theorem C82_velocity_l_mean_refuted : exists L self g m i a b r r', par_on L self g m /\ good_grid g /\ good_par g m /\ in_grid g i /\
  0 < par_prob g m false pv_x i /\
  get_mean (par_obj L (Fin 1) self) "v_x" false = Ok a /\ ent a (coords pv_x i) = Fin r /\
  get_l_mean (par_obj L (Fin 1) self) "v_x" false = Ok b /\ ent b (coords pv_x i) = Fin r' /\ r' <> r.
Proof. exact v_l_mean_refuted. Qed.
Print Assumptions C82_velocity_l_mean_refuted.
(** ages and metallicities of the component of C51_example at its first pixel *)
Example C82_case : exists a s c b,
  get_mean (par_obj exL (Fin 1) exmp) "t_x" false = Ok a /\ ent a [0; 0]%nat = Fin (17 / 10) /\
  get_variance (par_obj exL (Fin 1) exmp) "t_x" false = Ok s /\ ent s [0; 0]%nat = Fin (9 / 25) /\
  get_covariance (par_obj exL (Fin 1) exmp) "tz_x" false = Ok c /\ ent c [0; 0]%nat = Fin (3 / 25) /\
  get_l_mean (par_obj exL (Fin 1) exmp) "t_x" false = Ok b /\ ent b [0; 0]%nat = Fin (17 / 10).
Proof.
  set (i := Bin 0 0 0 0 0). assert (Hi : in_grid exg i) by (repeat split; cbn; lia).
  assert (Hp : 0 < par_prob exg exmod false pv_x i) by (unfold i; rewrite exmod_x; lra).
  set (P := par_joint exg exmod false false).
  assert (Hpm : 0 < marg exg P pv_x i) by exact (eq_ind_r (fun r => 0 < r) Hp (joint_marg exg exmod false exg_good pv_x i)).
  assert (NH : no_holes exg exmod false (cvar Ct) pv_x) by (intros _ [K|[K|[]]]; discriminate K).
  assert (NH' : no_holes exg exmod false (cvar Cz) pv_x) by (intros _ [K|[K|[]]]; discriminate K).
  destruct (C82_mean exL exmp exg exmod (Fin 1) false exmp_on exg_good exmod_good Ct pv_x ltac:(discriminate) eq_refl ltac:(discriminate)
    ltac:(discriminate) NH) as (a & Ea & _ & Ha).
  destruct (C82_variance exL exmp exg exmod (Fin 1) false exmp_on exg_good exmod_good Ct pv_x ltac:(discriminate) eq_refl ltac:(discriminate)
    ltac:(discriminate) NH) as (s & ? & Es & _ & _ & _ & Hs).
  destruct (C82_covariance exL exmp exg exmod (Fin 1) false exmp_on exg_good exmod_good Ct Cz pv_x ltac:(discriminate) ltac:(discriminate) eq_refl eq_refl ltac:(discriminate)
    ltac:(discriminate) NH NH') as (c & Ec & _ & Hc).
  destruct (C82_l_mean exL exmp exg exmod (Fin 1) false exmp_on exg_good exmod_good Ct pv_x ltac:(discriminate) eq_refl ltac:(discriminate)
    ltac:(discriminate) NH eq_refl) as (b & a' & Eb & Ea' & _ & Hb).
  assert (a' = a) by congruence. subst a'.
  assert (HM : Mean exg P Ct pv_x i = 17 / 10).
  { unfold Mean, Ex, P, par_joint, pprob, pjoint, txz_mass, marg, over, sum_over, sum_if, cmid. cbn. unfold wid, mid. cbn. field. }
  assert (A : ent a [0; 0]%nat = Fin (17 / 10)) by (rewrite <- HM; exact (proj1 (proj1 (Ha i Hi) Hp))).
  exists a, s, c, b. split; [exact Ea|]. split; [exact A|]. split; [exact Es|]. split.
  { destruct (proj1 (Hs i Hi) Hpm) as (V & EV & _ & HV & _). etransitivity; [exact EV|]. f_equal. rewrite HV. change (has_v pv_x) with false. fold P. rewrite HM.
    unfold Ex, P, par_joint, pprob, pjoint, txz_mass, marg, over, sum_over, sum_if, cmid. cbn. unfold wid, mid. cbn. field. }
  split; [exact Ec|]. split.
  { etransitivity; [exact (proj1 (Hc i Hi) Hpm)|]. f_equal. unfold Covar. change (has_v pv_x) with false. fold P. rewrite HM.
    unfold Mean, Ex, P, par_joint, pprob, pjoint, txz_mass, marg, over, sum_over, sum_if, cmid. cbn. unfold wid, mid. cbn. field. }
  split; [exact Eb|]. rewrite <- A. exact (Hb i Hi).
Qed.
