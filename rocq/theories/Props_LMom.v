(** * Props_LMom: claims C79 and C80 about L-moments of histograms, of the normal
    distribution, and excess L-moments; C20 for the third L-moment.
    A conditioner set without members stands for the marginal distribution. *)
From Coq Require Import Reals Lra Lia List Bool Arith ZArith String.
From Verif Require Import Num NumLemmas Arr PyStr Cube Base Spec SpecLemmas Repr Build DistLemmas Moments MomSpec MomLemmas MomClaims MomRefuted
  Props_Moments GaussSpec NormalL NormalLSpec QuantLemmas NormalLLemmas NormalLClaims.
Import ListNotations.
Local Open Scope R_scope.

(** C79: for the histogram whose bins have the given probabilities, spread evenly
    over each bin, the L-mean is exact; the L-dispersion is too large, by a
    third of the sum of width times squared probability; the third L-moment is
    off by a sum containing the bin centres times cubed probabilities. *)
Theorem C79_histogram : forall self g f lw,
  comp_on self g f -> good_grid g -> nonneg g f -> lw_ok g f lw ->
  forall k C, disjoint (cvar k) C = true -> (nonempty C = false -> total g (prob g f lw) = 1) -> is_x k = false ->
  exists a b c, get_l_mean (base_obj self) (dname (cvar k) C) lw = Ok a /\
    get_l_dispersion (base_obj self) (dname (cvar k) C) lw = Ok b /\
    get_l_moment (base_obj self) (dname (cvar k) C) 3 lw = Ok c /\
    shp a = dims C g /\ shp b = dims C g /\ shp c = dims C g /\
    forall i, in_grid g i ->
      let p := bin_prob g (prob g f lw) k C i in let w := wid (cedge g k) in let F := cdf g (prob g f lw) k C i in
      let extra2 := Sum (cn g k) (fun n => w n * p n ^ 2 / 3) in
      let extra3 := Sum (cn g k) (fun n => p n ^ 2 * w n * (F n + F (S n) - 1) + p n ^ 3 * mid (cedge g k) n) in
      (0 < marg g (prob g f lw) C i -> exists M1 M2 M3,
         is_l_moment g (prob g f lw) k C i 1 M1 /\ is_l_moment g (prob g f lw) k C i 2 M2 /\ is_l_moment g (prob g f lw) k C i 3 M3 /\
         ent a (coords C i) = Fin M1 /\ ent b (coords C i) = Fin (M2 + extra2) /\ ent c (coords C i) = Fin (M3 + extra3) /\
         0 < extra2) /\
      (marg g (prob g f lw) C i = 0 -> ent a (coords C i) = NaN /\ ent b (coords C i) = NaN /\ ent c (coords C i) = NaN).
Proof. exact base_hist. Qed.
Print Assumptions C79_histogram.
Theorem C79_unique : forall g P k C i order M M',
  is_l_moment g P k C i order M -> is_l_moment g P k C i order M' -> M = M'.
Proof. exact l_moment_unique. Qed.
Print Assumptions C79_unique.
(** ages given the first pixel: L-mean 19/14, L-dispersion too large *)
Example C79_case : exists a b M2, get_l_mean (base_obj exc) "t_x" false = Ok a /\ get_l_dispersion (base_obj exc) "t_x" false = Ok b /\
  ent a [0; 0]%nat = Fin (19 / 14) /\ is_l_moment exg (prob exg exf false) Ct vx ex0 2 M2 /\
  exists l, ent b [0; 0]%nat = Fin l /\ M2 < l.
Proof.
  destruct (C79_histogram exc exg exf false exc_on exg_good exf_nonneg (ex_lw_ok _) Ct vx eq_refl ltac:(discriminate) eq_refl)
    as (a & b & c & Ea & Eb & Ec & _ & _ & _ & He).
  destruct (C13_mean exc exg exf false exc_on exg_good exf_nonneg (ex_lw_ok _) Ct vx eq_refl ltac:(discriminate)) as (m & Em & _ & Hm).
  destruct (He ex0 ex0_in) as [H1 _]. destruct (H1 ex0_pos) as (M1 & M2 & M3 & I1 & I2 & I3 & A & B & _ & X).
  exists a, b, M2. do 2 (split; [assumption|]). split; [|split; [exact I2|]].
  - destruct (C19_l_mean exc exg exf false exc_on exg_good exf_nonneg (ex_lw_ok _) Ct vx eq_refl ltac:(discriminate) eq_refl) as (a' & m' & Ea' & Em' & _ & Ha').
    assert (a' = a) by congruence. assert (m' = m) by congruence. subst. etransitivity; [apply (Ha' ex0 ex0_in)|].
    destruct (Hm ex0 ex0_in) as [Hm1 _]. destruct (Hm1 ex0_pos) as [Hm2 _]. etransitivity; [exact Hm2|].
    f_equal. unfold vx, ex0. mom_num; field.
  - eexists. split; [exact B|]. lra.
Qed.

(** C80: for the normal distribution: no order 0, odd orders vanish, orders 1 to 4 are
    midpoint sums (snapped to 0 when within 1e-8). *)
Theorem C80_normal : forall q, normal_quantile q ->
  get_l_moment_normal q 0 = Err ValueError /\
  (forall j, Nat.Odd j -> get_l_moment_normal q j = Ok (Fin 0)) /\
  (exists l, get_l_moment_normal q 2 = Ok (Fin l) /\ 0 < l) /\
  get_normalised_l_moment_normal q 2 = Ok (Fin 1) /\
  (forall j, (0 < j)%nat -> exists l, get_l_moment_normal q j = Ok (Fin l)) /\
  (forall j, (1 <= j <= 4)%nat -> exists N, INR N = 99999 /\
     let s := midpoint_sum q N j in
     (Rabs s <= 1 / 100000000 -> get_l_moment_normal q j = Ok (Fin 0)) /\
     (1 / 100000000 < Rabs s -> get_l_moment_normal q j = Ok (Fin s))).
Proof. exact normal_claim. Qed.
Print Assumptions C80_normal.
(** Excess L-moments: the normalised L-moment less that of the normal
    distribution, hence equal to it at odd orders and 0 at order 2. *)
Theorem C80_excess : forall self g f lw,
  comp_on self g f -> good_grid g -> nonneg g f -> lw_ok g f lw ->
  forall k C, disjoint (cvar k) C = true -> (nonempty C = false -> total g (prob g f lw) = 1) -> is_x k = false ->
  forall q j, normal_quantile q ->
  exists r m x, get_normalised_l_moment_normal q (S j) = Ok (Fin r) /\ (Nat.Odd (S j) -> r = 0) /\ (S j = 2%nat -> r = 1) /\
    get_normalised_l_moment (base_obj self) (dname (cvar k) C) (S j) lw = Ok m /\
    get_excess_l_moment q (base_obj self) (dname (cvar k) C) (S j) lw = Ok x /\
    shp m = dims C g /\ shp x = dims C g /\
    forall i, in_grid g i ->
      (0 < marg g (prob g f lw) C i -> exists y, ent m (coords C i) = Fin y /\ ent x (coords C i) = Fin (y - r) /\ (S j = 2%nat -> y = 1)) /\
      (marg g (prob g f lw) C i = 0 -> ent m (coords C i) = NaN /\ ent x (coords C i) = NaN).
Proof. exact base_excess. Qed.
Print Assumptions C80_excess.
(** there is such a quantile function *)
Example C80_case : exists q, normal_quantile q /\ get_l_moment_normal q 5 = Ok (Fin 0) /\
  exists x, get_excess_l_moment q (base_obj exc) "t_x" 2 false = Ok x /\ ent x [0; 0]%nat = Fin 0.
Proof.
  destruct quantile_exists as (q & Hq). exists q. split; [exact Hq|]. split.
  - destruct (C80_normal q Hq) as (_ & H & _). apply H. exists 2%nat. reflexivity.
  - destruct (C80_excess exc exg exf false exc_on exg_good exf_nonneg (ex_lw_ok _) Ct vx eq_refl ltac:(discriminate) eq_refl q 1 Hq)
      as (r & m & x & _ & _ & R & _ & Ex & _ & _ & He). exists x. split; [exact Ex|].
    destruct (He ex0 ex0_in) as [H1 _]. destruct (H1 ex0_pos) as (y & _ & Hx & Hy). rewrite (R eq_refl), (Hy eq_refl) in Hx.
    etransitivity; [exact Hx|]. f_equal. ring.
Qed.

(** C20: moving the grid by c adds c times the sum of cubed probabilities to the
    third L-moment, which should not change: hence the L-skewness depends on
    the origin for every distribution. *)
Theorem C20_third_moment_shift : forall self self' g f lw k c C,
  comp_on self g f -> comp_on self' (shift k c g) f -> good_grid g -> nonneg g f -> lw_ok g f lw ->
  is_x k = false -> disjoint (cvar k) C = true -> (nonempty C = false -> total g (prob g f lw) = 1) ->
  exists a b, get_l_moment (base_obj self) (dname (cvar k) C) 3 lw = Ok a /\
    get_l_moment (base_obj self') (dname (cvar k) C) 3 lw = Ok b /\ shp a = shp b /\
    forall i, in_grid g i -> 0 < marg g (prob g f lw) C i ->
      exists l, ent a (coords C i) = Fin l /\
        ent b (coords C i) = Fin (l + c * Sum (cn g k) (fun n => bin_prob g (prob g f lw) k C i n ^ 3)) /\
        0 < Sum (cn g k) (fun n => bin_prob g (prob g f lw) k C i n ^ 3).
Proof. exact l3_shift_claim. Qed.
Print Assumptions C20_third_moment_shift.
Example C20_shift_case : exists a b l, get_l_moment (base_obj (comp_of (oneg 0) onef)) "v" 3 false = Ok a /\
  get_l_moment (base_obj (comp_of (shift Cv 5 (oneg 0)) onef)) "v" 3 false = Ok b /\
  ent a [] = Fin l /\ ent b [] = Fin (l + 5).
Proof.
  destruct C19_example_shift as [H1 H2].
  assert (Hi : in_grid (oneg 0) ex0) by (unfold in_grid; cbn; lia).
  assert (Hg : good_grid (oneg 0)) by (apply oneg_good).
  assert (Hf : nonneg (oneg 0) onef) by apply one_nonneg.
  assert (Ht : total (oneg 0) (prob (oneg 0) onef false) = 1) by (apply one_total).
  destruct (C20_third_moment_shift _ _ (oneg 0) onef false Cv 5 (VSet false false false false) H1 H2 Hg Hf ltac:(discriminate) eq_refl eq_refl ltac:(auto))
    as (a & b & Ea & Eb & _ & He).
  destruct (He ex0 Hi) as (l & A & B & _); [change (0 < total (oneg 0) (prob (oneg 0) onef false)); lra|].
  exists a, b, l. do 3 (split; [assumption|]). etransitivity; [exact B|]. f_equal. f_equal. unfold bin_prob, marg, at_, prob, mass, wid, onef, ex0; cbn. field.
Qed.
