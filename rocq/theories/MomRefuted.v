(** * MomRefuted: what the moment methods get wrong. *)
From Coq Require Import Reals Lra Lia List Bool Arith ZArith String Ascii Permutation.
From Verif Require Import Num NumLemmas Arr ArrLemmas PyStr StrLemmas Cube Base Spec SpecLemmas Repr CubeLemmas
  BaseLemmas CondLemmas DistLemmas StringClaims Build Moments MomArr MomSpec MomLemmas MomLemmas2 MomLemmas3
  MomLemmas4 MomLemmas5 MomLemmas6 LMom MomClaims Stat.
Import ListNotations.
Local Open Scope R_scope.

Ltac mom_num := unfold Covar, Variance, Moment, Mean, Ex, sum_over, sum_if, cmid, mid, wid; cbn;
  unfold marg, prob, light, lit, mass, total, vol, wid, mid, ifw, over, exg, exf; cbn; try lra.

Lemma nadd_zero_r x : nadd x (Fin 0) = x.
Proof. destruct x; cbv [nadd]; try reflexivity. f_equal; ring. Qed.

(** ** one bin of width one starting at c *)
Definition oneg (c : R) : grid :=
  Grid 1 1 1 1 1 INR (fun n => INR n + c) INR INR INR (fun _ _ => 1).
Definition onef : joint := fun _ _ _ _ _ => 1.
Lemma oneg_good c : good_grid (oneg c).
Proof. constructor; try (cbn; lia); try (intros i Hi; cbn -[INR]; rewrite ?S_INR; lra); intros; cbn; lra. Qed.
Lemma one_on c : comp_on (comp_of (oneg c) onef) (oneg c) onef.
Proof. apply comp_of_on; intros i Hi; unfold wid; cbn -[INR]; rewrite !S_INR; cbn; lra. Qed.
Lemma one_nonneg c : nonneg (oneg c) onef.
Proof. intros ? ? ? ? ? _ _ _ _ _. unfold onef; lra. Qed.
Lemma one_total c : total (oneg c) (prob (oneg c) onef false) = 1.
Proof. unfold total, prob, mass, wid, onef; cbn. ring. Qed.
Definition one_bin : bin := Bin 0 0 0 0 0.

Lemma l_skewness_one c :
  exists a, get_l_skewness (base_obj (comp_of (oneg c) onef)) "v" false = Ok a /\ ent a [] = Fin (2 * c + 1).
Proof.
  set (self := comp_of (oneg c) onef). set (g := oneg c). set (P := prob g onef false).
  assert (HG : gives (base_obj self) g P false (cvar Cv) no_vars).
  { apply base_gives; [apply one_on | apply oneg_good | apply one_nonneg | intros E; discriminate E | reflexivity | reflexivity
      | intros _; apply one_total]. }
  assert (Hm : marg g P no_vars one_bin = 1) by apply one_total.
  assert (Hi : in_grid g one_bin) by (unfold in_grid; cbn; lia).
  pose proof (cm_cube _ _ _ (one_on c)) as Hc.
  destruct (l_moment_ok (base_obj self) g P false Hc (oneg_good c) Cv no_vars eq_refl eq_refl HG 1) as (d & Ed & Hds & Hde).
  destruct (l_moment_ok (base_obj self) g P false Hc (oneg_good c) Cv no_vars eq_refl eq_refl HG 2) as (t & Et & Hts & Hte).
  destruct (Hde one_bin Hi) as [D _]. destruct (Hte one_bin Hi) as [T _]. rewrite Hm in *.
  specialize (D ltac:(lra)). specialize (T ltac:(lra)). cbn [coords no_vars has_t has_v has_x has_z opt app] in D, T.
  unfold get_l_skewness, get_normalised_l_moment, get_l_dispersion.
  change (dname (cvar Cv) no_vars) with "v"%string in Ed, Et. rewrite Ed; cbn [bind]. rewrite Et; cbn [bind].
  destruct (bop_same_is ndiv t d [] Hts Hds) as (q & Eq & Hqs & Hqe). exists q. split; [exact Eq|].
  rewrite Hqe by constructor. rewrite D, T.
  assert (C0 : cdf g P Cv no_vars one_bin 0 = 0) by reflexivity.
  assert (C1 : cdf g P Cv no_vars one_bin 1 = 1).
  { unfold cdf. cbn [Sum]. rewrite Hm. unfold marg, P, prob, mass, wid, onef; cbn. field. }
  unfold Ltrap, trap. cbn [cn g oneg nv Sum]. rewrite C0, C1. unfold legendre. cbn [legendre2 fst cedge vE g oneg INR].
  rewrite ndiv_Fin by lra. f_equal. field; lra.
Qed.

Lemma l_skewness_family c :
  exists g f self, comp_on self g f /\ good_grid g /\ nonneg g f /\ total g (prob g f false) = 1 /\
    nv g = 1%nat /\ vE g 0 = c /\ vE g 1 = c + 1 /\
    exists a, get_l_skewness (base_obj self) "v" false = Ok a /\ ent a [] = Fin (2 * c + 1).
Proof.
  exists (oneg c), onef, (comp_of (oneg c) onef).
  split; [apply one_on|]. split; [apply oneg_good|]. split; [apply one_nonneg|]. split; [apply one_total|].
  split; [reflexivity|]. split; [cbn; ring|]. split; [cbn; ring|]. apply l_skewness_one.
Qed.

(** ** misordered dependent variables *)
Lemma cov_zt :
  exists a b, get_covariance (base_obj exc) "tz_x" false = Ok a /\ get_covariance (base_obj exc) "zt_x" false = Ok b /\
    shp a = shp b /\ ent a [0; 0]%nat = Fin 0 /\ ent b [0; 0]%nat = Fin (- (2 / 49)).
Proof.
  set (X := VSet false false true false). set (P := prob exg exf false).
  assert (Hi : in_grid exg (Bin 0 0 0 0 0)) by (unfold in_grid; cbn; lia).
  assert (HM : 0 < marg exg P X (Bin 0 0 0 0 0)) by (unfold P; ex_num).
  assert (GG : forall A, nonempty A = true -> disjoint A X = true -> gives (base_obj exc) exg P false A X).
  { intros A HA HD. apply base_gives; auto using exc_on, exg_good, exf_nonneg, ex_lw_ok; intros E; discriminate E. }
  destruct (cov_claim exc exg exf false exc_on exg_good exf_nonneg (ex_lw_ok _) Ct Cz X eq_refl eq_refl ltac:(discriminate))
    as (a & Ea & Has & Hae).
  pose proof (cm_cube _ _ _ exc_on) as Hc.
  destruct (mean_ok (base_obj exc) exg P false Hc exg_good Cz X eq_refl (GG (cvar Cz) eq_refl eq_refl) eq_refl) as (mz & Emz & Hmzs & Hmze).
  destruct (mean_ok (base_obj exc) exg P false Hc exg_good Ct X eq_refl (GG (cvar Ct) eq_refl eq_refl) eq_refl) as (mt & Emt & Hmts & Hmte).
  destruct (values_ok _ _ Cz Hc eq_refl) as (vz & Evz & Hvzs & Hvze).
  destruct (values_ok _ _ Ct Hc eq_refl) as (vt & Evt & Hvts & Hvte).
  assert (PM : Permutation (chars "zt") (chars (name (VSet true false false true)))) by apply perm_swap.
  pose proof (misordered exc (VSet true false false true) X "zt" false PM) as M.
  destruct (GG (VSet true false false true) eq_refl eq_refl) as (p & Ep & Hps & Hpe).
  change (dname (VSet true false false true) X) with (cname (VSet true false false true) X) in Ep.
  cbn [o_get_p base_obj] in Ep. rewrite Ep in M.
  destruct (deltas_is vz mz _ _ Hvzs Hmzs) as (dz & Edz & Hdzs & Hdze).
  destruct (deltas_is vt mt _ _ Hvts Hmts) as (dt & Edt & Hdts & Hdte).
  destruct (double_sum_is p dz dt 2 2 [2; 1]%nat Hps Hdzs Hdts) as (b & Eb & Hbs & Hbe).
  exists a, b. split; [exact Ea|]. split.
  { unfold get_covariance. change (dep_parts "zt_x") with (Ok ("zt", Some "x")%string). cbn [bind fst snd chars one_dist].
    change (get_mean (base_obj exc) (str1 "z" ++ "_" ++ "x") false) with (get_mean (base_obj exc) (dname (cvar Cz) X) false).
    change (get_mean (base_obj exc) (str1 "t" ++ "_" ++ "x") false) with (get_mean (base_obj exc) (dname (cvar Ct) X) false).
    assert (VZ : var_values (o_cube (base_obj exc)) "z" = Ok (vz, None)).
    { unfold var_values. change (negb ("z" =? "x")%char) with true. cbv iota.
      change (get_variable_values (o_cube (base_obj exc)) (str1 "z")) with (get_variable_values (comp_cube exc) (name (cvar Cz))).
      rewrite Evz. reflexivity. }
    assert (VT : var_values (o_cube (base_obj exc)) "t" = Ok (vt, None)).
    { unfold var_values. change (negb ("t" =? "x")%char) with true. cbv iota.
      change (get_variable_values (o_cube (base_obj exc)) (str1 "t")) with (get_variable_values (comp_cube exc) (name (cvar Ct))).
      rewrite Evt. reflexivity. }
    rewrite Emz; cbn [bind]. rewrite VZ; cbn [bind]. rewrite Emt; cbn [bind]. rewrite VT; cbn [bind]. cbn [o_get_p base_obj].
    change ("zt" ++ "_" ++ name X)%string with "zt_x"%string in M. rewrite M; cbn [bind fst].
    change (negb (has_char "x" "zt")) with true. cbn [negb]. rewrite Edz; cbn [bind]. rewrite Edt; cbn [bind]. exact Eb. }
  split; [rewrite Has, Hbs; reflexivity|]. split.
  - etransitivity; [exact (proj1 (Hae _ Hi) HM)|]. f_equal. unfold P, X. mom_num; field.
  - rewrite Hbe by (repeat constructor; lia). cbn [seq map].
    assert (MZ : ent mz [0; 0]%nat = Fin 3).
    { pose proof (proj1 (Hmze _ Hi) HM) as E. cbn [mcoords coords X has_t has_v has_x has_z opt app bx by_] in E. rewrite E.
      f_equal. unfold P, X. mom_num; field. }
    assert (MT : ent mt [0; 0]%nat = Fin (57 / 42)).
    { pose proof (proj1 (Hmte _ Hi) HM) as E. cbn [mcoords coords X has_t has_v has_x has_z opt app bx by_] in E. rewrite E.
      f_equal. unfold P, X. mom_num; field. }
    assert (PE : forall t z, (t < 2)%nat -> (z < 2)%nat -> ent p [t; z; 0; 0]%nat =
        Fin (marg exg P (VSet true false true true) (Bin t 0 0 0 z) / marg exg P X (Bin 0 0 0 0 0))).
    { intros t z Ht Hz. assert (Hi' : in_grid exg (Bin t 0 0 0 z)) by (unfold in_grid; cbn; lia).
      pose proof (proj1 (Hpe _ Hi')) as E. cbn [coords X has_t has_v has_x has_z opt app bx by_ bt bz] in E.
      rewrite E; [reflexivity|exact HM]. }
    assert (IN : inb [0; 0]%nat [2; 1]%nat) by (repeat constructor; lia).
    assert (DZ : forall k, (k < 2)%nat -> ent dz [k; 0; 0]%nat = Fin (mid (zE exg) k - 3)).
    { intros k Hk. rewrite Hdze by assumption. rewrite (Hvze k Hk), MZ. apply nsub_Fin. }
    assert (DT : forall k, (k < 2)%nat -> ent dt [k; 0; 0]%nat = Fin (mid (tE exg) k - 57 / 42)).
    { intros k Hk. rewrite Hdte by assumption. rewrite (Hvte k Hk), MT. apply nsub_Fin. }
    rewrite !PE, !DZ, !DT by lia. rewrite !nmul_Fin. unfold nsum; cbn [fold_right]. rewrite !nadd_Fin.
    f_equal. unfold P, X. mom_num; field.
Qed.
