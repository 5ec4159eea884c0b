(** * MixParExample: concrete mixtures with parametric members. *)
From Coq Require Import Reals Lra Lia List Bool Arith ZArith String Ascii.
From Verif Require Import Num NumLemmas Arr ArrLemmas PyStr Cube Base Parametric Spec SpecLemmas Repr ParSpec ParRepr MomSpec Moments
  ParSetSpec ParMoments GaussSpec GaussLemmas ParMomSpec ParMomMath ParMomLemmas ParMomClaims ParMomOther ParMomExample Build ParExample
  Mixture MixParSpec MixParLemmas MixParClaims.
Import ListNotations.
Local Open Scope R_scope.

(** moments of v given anything but t, x and z together are about the mean of
    the bin itself *)
Lemma v_central_claim self g l : mixed_on self g l -> good_grid g ->
  forall lw C, has_v C = false -> C <> V_txz ->
  (forall q, (q < List.length l)%nat -> lit_ok g (kmass g (kk l q) false) lw) ->
  (nonempty C = false -> lw = false -> k_normal g l) -> forall j,
  exists m, mix_central_moment self (dname V_v C) j lw = Ok m /\ shp m = dims C g /\
  forall i, in_grid g i -> all_there g l lw C i -> exists M, ent m (coords C i) = Fin M /\
    k_moment_v g l lw C i (fun _ => k_mean_v g l lw C i) j M.
Proof.
  intros H Hg lw C Hv HC Hm HN j. assert (Hm' : forall q, (q < List.length l)%nat -> lit_ok g (kmass g (kk l q) (has_v C)) lw) by (rewrite Hv; exact Hm).
  destruct (mixed_v_central_claim self g l H Hg lw C Hv Hm' HN j) as (m & E & Hs & He). exists m. do 2 (split; [assumption|]).
  assert (EC : forall k i, centre_at k C i = i).
  { intros [f|m'] i; [reflexivity|]. unfold centre_at. destruct C as [[] [] [] []]; try reflexivity; [discriminate Hv|]. exfalso. apply HC. reflexivity. }
  intros i Hi Hp. destruct (He i Hi Hp) as (M & EM & HM); [intros; rewrite EC; assumption|]. exists M. split; [exact EM|].
  destruct HM as (Ms & HMs & ->). exists Ms. split; [|reflexivity]. intros q Hq. specialize (HMs q Hq). cbn beta in HMs. rewrite EC in HMs. exact HMs.
Qed.

(** ** two parametric components with opposite metallicities *)
Definition gz : grid :=
  Grid 1 1 1 1 2 (fun i => INR i) (fun i => INR i) (fun i => INR i) (fun i => INR i) (fun i => INR i) (fun _ _ => 1).
Definition mz (a mu : R) : par_model := ParModel (fun _ => 1) (fun _ _ _ => 1) (fun _ _ _ z => if Nat.eqb z 0 then a else 1 - a)
  (fun _ _ _ => mu) (fun _ _ _ => 1) logistic.
Lemma gz_good : good_grid gz.
Proof.
  constructor; try (cbn; lia); try (intros i Hi; cbn [tE vE xE yE zE gz]; rewrite ?S_INR; pose proof (pos_INR i); nra).
  intros t z _ _. cbn. lra.
Qed.
Lemma mz_on a mu : par_on exL (par_of gz (mz a mu)) gz (mz a mu).
Proof. apply par_of_on; [| |reflexivity]; intros i Hi; unfold wid; cbn [xE yE gz]; rewrite !S_INR; lra. Qed.
Lemma mz_good a mu : 0 <= a <= 1 -> good_par gz (mz a mu).
Proof.
  intros Ha. pose proof exL_norm as [HF HI]. constructor; try (intros; cbn; lra); try (intros; ev; lra).
  - intros t x y z _ _ _ _. cbn [pm_z mz]. destruct (Nat.eqb z 0); lra.
  - intros x. specialize (HF x). cbn in *. lra.
  - intros x y [Hlt| ->]; [|lra]. left. apply HI. exact Hlt.
Qed.
Definition lz : kinds := [(KPar (mz (3 / 4) 0), 1 / 2); (KPar (mz (1 / 4) 4), 1 / 2)].
Definition mixz : mixture := Mixture (cube_of gz)
  [par_member exL (Fin 1) (par_of gz (mz (3 / 4) 0)); par_member exL (Fin 1) (par_of gz (mz (1 / 4) 4))] [Fin (1 / 2); Fin (1 / 2)].
Lemma mixz_on : mixed_on mixz gz lz.
Proof.
  constructor; try reflexivity; [apply (mz_on 0 0)|discriminate| |].
  - intros [|[|q]] Hq; [cbn; lra|cbn; lra|cbn in Hq; lia].
  - intros [|[|q]] mb E; cbn in E; [| |destruct q; discriminate E]; injection E as <-;
      (eexists exL, _; split; [reflexivity|]; split; [apply mz_on|apply mz_good; lra]).
Qed.

Ltac kev := unfold k_mean_v, k_given, kshare, weighted, kmix, k_v_mean, mixture_mean, over_rest, weight, par_prob, par_joint, pprob, pjoint, txz_mass,
  total, light, lit, marg, over, sum_over, sum_if; cbn [has_t has_v has_x has_z V_txz no_vars rest union negb orb andb pgrid]; ev;
  unfold kmass, par_joint, pprob, pjoint, txz_mass; ev.
Lemma lz_mean i : in_grid gz i -> k_mean_v gz lz false V_txz i = if Nat.eqb (bz i) 0 then 1 else 3.
Proof.
  destruct i as [t v x y z]. intros (Ht & Hv & Hx & Hy & Hz). cbn in Ht, Hv, Hx, Hy, Hz.
  assert (t = 0 /\ v = 0 /\ x = 0 /\ y = 0)%nat as (-> & -> & -> & ->) by lia.
  destruct z as [|[|z]]; [| |lia]; kev; field.
Qed.
Lemma lz_given i : in_grid gz i -> bz i = 1%nat ->
  k_given gz lz false V_txz i 0 = 1 / 4 /\ k_given gz lz false V_txz i 1 = 3 / 4.
Proof.
  destruct i as [t v x y z]. intros (Ht & Hv & Hx & Hy & Hz) Ez. cbn in Ht, Hv, Hx, Hy, Hz, Ez.
  assert (t = 0 /\ v = 0 /\ x = 0 /\ y = 0)%nat as (-> & -> & -> & ->) by lia. subst z.
  split; kev; field.
Qed.
Lemma lz_there i : in_grid gz i -> all_there gz lz false V_txz i.
Proof.
  destruct i as [t v x y z]. intros (Ht & Hv & Hx & Hy & Hz) q Hq. cbn in Ht, Hv, Hx, Hy, Hz, Hq.
  assert (t = 0 /\ v = 0 /\ x = 0 /\ y = 0)%nat as (-> & -> & -> & ->) by lia.
  destruct q as [|[|q]]; [| |lia]; (destruct z as [|[|z]]; [| |lia]); kev; lra.
Qed.
Lemma over_rest_txz m lw G i : par_prob gz m lw V_txz i <> 0 -> over_rest gz m lw V_txz i G = G (bt i) (bx i) (by_ i).
Proof.
  intros Hp. unfold over_rest, weight. change (union (rest V_txz) V_txz) with V_txz.
  change (par_prob gz m lw V_txz i / par_prob gz m lw V_txz i * G (bt i) (bx i) (by_ i) = G (bt i) (bx i) (by_ i)). field. exact Hp.
Qed.

Lemma lz_moment a u i c M : 0 < a < 1 -> in_grid gz i -> bz i = 1%nat ->
  mixture_moment gz (mz a u) false V_txz i c 2 M <-> M = (u - c) ^ 2 + 1.
Proof.
  intros Ha Hi Ez. assert (Hp : par_prob gz (mz a u) false V_txz i <> 0).
  { destruct i as [t v x y z]. destruct Hi as (Ht & Hv & Hx & Hy & _). cbn in Ht, Hv, Hx, Hy, Ez.
    assert (t = 0 /\ v = 0 /\ x = 0 /\ y = 0)%nat as (-> & -> & -> & ->) by lia. subst z. apply Rgt_not_eq. kev. nra. }
  assert (K : gauss_moment u 1 c 2 ((u - c) ^ 2 + 1)).
  { pose proof (gmom_ok u 1 c ltac:(lra) 2) as K. rewrite gmom_SS, gmom_1, gmom_0 in K; cbn [INR] in K.
    replace ((u - c) ^ 2 + 1) with ((u - c) * (u - c) + 1 * 1 ^ 2 * 1) by ring. exact K. }
  destruct Hi as (Ht & Hv & Hx & Hy & _). split.
  - intros (G & HG & ->). rewrite over_rest_txz by exact Hp. eapply gauss_moment_unique; [apply HG; assumption|exact K].
  - intros ->. exists (fun _ _ _ => (u - c) ^ 2 + 1). split; [intros; exact K|]. rewrite over_rest_txz by exact Hp. reflexivity.
Qed.

(** variance of the velocity given t, x and z: 8 in place of 4 *)
Lemma mixture_txz_refuted : exists self g l i m, mixed_on self g l /\ good_grid g /\ in_grid g i /\ k_normal g l /\
  all_there g l false V_txz i /\
  mix_central_moment self "v_txz" 2 false = Ok m /\ ent m (coords V_txz i) = Fin 8 /\
  k_moment_v g l false V_txz i (fun _ => k_mean_v g l false V_txz i) 2 4.
Proof.
  set (i := Bin 0 0 0 0 1). assert (Hi : in_grid gz i) by (repeat split; cbn; lia).
  assert (Hi0 : in_grid gz (set_z 0 i)) by (repeat split; cbn; lia).
  destruct (mixed_v_central_claim mixz gz lz mixz_on gz_good false V_txz eq_refl ltac:(intros; discriminate) ltac:(discriminate) 2) as (m & E & _ & He).
  exists mixz, gz, lz, i, m. split; [exact mixz_on|]. split; [exact gz_good|]. split; [exact Hi|].
  split. { split; [cbn; unfold sumR; cbn; lra|]. intros q Hq. cbn in Hq. destruct q as [|[|q]]; [| |lia]; unfold total; kev; lra. }
  split; [apply lz_there; exact Hi|]. split; [exact E|].
  assert (HG : forall q M c, (q < 2)%nat -> k_v_moment gz (kk lz q) false V_txz i c 2 M <->
      M = ((if Nat.eqb q 0 then 0 else 4) - c) ^ 2 + 1).
  { intros q M c Hq. destruct q as [|[|q]]; [| |lia]; cbn [kk lz nth fst k_v_moment Nat.eqb].
    - apply (lz_moment (3 / 4) 0); [lra|exact Hi|reflexivity].
    - apply (lz_moment (1 / 4) 4); [lra|exact Hi|reflexivity]. }
  destruct (lz_given i Hi eq_refl) as [G0 G1]. split.
  - destruct (He i Hi (lz_there i Hi)) as (M & EM & Ms & HMs & ->).
    { intros q Hq. apply lz_there. cbn in Hq. destruct q as [|[|q]]; [exact Hi0|exact Hi0|lia]. }
    rewrite EM. f_equal. cbn [List.length lz Sum]. fold lz. rewrite G0, G1.
    pose proof (HMs 0%nat ltac:(cbn; lia)) as H0. pose proof (HMs 1%nat ltac:(cbn; lia)) as H1. cbn beta in H0, H1.
    change (centre_at (kk lz 0) V_txz i) with (set_z 0 i) in H0. change (centre_at (kk lz 1) V_txz i) with (set_z 0 i) in H1.
    rewrite (lz_mean _ Hi0) in H0, H1. apply HG in H0; [|lia]. apply HG in H1; [|lia]. rewrite H0, H1. cbn [Nat.eqb bz set_z]. lra.
  - exists (fun q => if Nat.eqb q 0 then 10 else 2). rewrite (lz_mean _ Hi). cbn [bz i Nat.eqb]. split.
    + intros q Hq. cbn in Hq. apply HG; [lia|]. destruct q as [|[|q]]; [| |lia]; cbn [Nat.eqb]; lra.
    + cbn [List.length lz Sum]. fold lz. rewrite G0, G1. cbn [Nat.eqb]. lra.
Qed.

(** ** one age, two velocity bins *)
Definition ga : grid :=
  Grid 1 2 1 1 1 (fun i => INR i) (fun i => INR i - 1) (fun i => INR i) (fun i => INR i) (fun i => INR i) (fun _ _ => 1).
Definition ma (F : R -> R) (mu : R) : par_model := ParModel (fun _ => 1) (fun _ _ _ => 1) (fun _ _ _ _ => 1) (fun _ _ _ => mu) (fun _ _ _ => 1) F.
Lemma ga_good : good_grid ga.
Proof.
  constructor; try (cbn; lia); try (intros i Hi; cbn [tE vE xE yE zE ga]; rewrite ?S_INR; pose proof (pos_INR i); nra).
  intros t z _ _. cbn. lra.
Qed.
Section OneAge.
Context (L : stats_lib) (HF : good_norm (norm_cdf L)).
Let F := norm_cdf L.
Lemma ma_on mu : par_on L (par_of ga (ma F mu)) ga (ma F mu).
Proof. apply par_of_on; [| |reflexivity]; intros i Hi; unfold wid; cbn [xE yE ga]; rewrite !S_INR; lra. Qed.
Lemma ma_good mu : good_par ga (ma F mu).
Proof.
  destruct HF as [HF1 HF2]. constructor; try (intros; cbn; lra); try (intros; ev; lra).
  - intros x. specialize (HF1 x). fold F in HF1. cbn. lra.
  - intros x y [Hlt| ->]; [|lra]. left. apply HF2. exact Hlt.
Qed.
Definition la : kinds := [(KPar (ma F 0), 1 / 2); (KPar (ma F 1), 1 / 2)].
Definition mixa : mixture := Mixture (cube_of ga)
  [par_member L (Fin 1) (par_of ga (ma F 0)); par_member L (Fin 1) (par_of ga (ma F 1))] [Fin (1 / 2); Fin (1 / 2)].
Lemma mixa_on : mixed_on mixa ga la.
Proof.
  constructor; try reflexivity; [apply (ma_on 0)|discriminate| |].
  - intros [|[|q]] Hq; [cbn; lra|cbn; lra|cbn in Hq; lia].
  - intros [|[|q]] mb E; cbn in E; [| |destruct q; discriminate E]; injection E as <-;
      (eexists L, _; split; [reflexivity|]; split; [apply ma_on|apply ma_good]).
Qed.
Lemma ma_v_lit u : 0 < F (1 - u) - F (-1 - u) -> 0 < total ga (lit ga (par_joint ga (ma F u) false true)).
Proof.
  intros Hp. kev. unfold vbin. ev. replace ((1 + 1 - 1 - u) / 1) with (1 - u) by lra. replace ((0 - 1 - u) / 1) with (-1 - u) by lra. lra.
Qed.
Context (Hsym : forall x, F (- x) = 1 - F x) (Hlin : F 0 - F (-1) <> F (-1) - F (-2)).

Lemma light_given_v_refuted : exists self g l i m r, mixed_on self g l /\ good_grid g /\ in_grid g i /\ k_normal g l /\
  (forall q m, kk l q = KPar m -> (q < List.length l)%nat -> pm_F m = norm_cdf L) /\
  (forall q, (q < List.length l)%nat -> lit_ok g (kmass g (kk l q) true) true) /\ all_there g l true V_v i /\ nt g = 1%nat /\
  mix_mean self "t_v" true = Ok m /\ ent m (coords V_v i) = Fin r /\
  Mean g (weighted g true (kmix g l true)) Ct V_v i = mid (tE g) 0 /\ r <> mid (tE g) 0.
Proof.
  destruct HF as [_ HI]. fold F in HI.
  assert (F0 : F 0 = 1 / 2) by (pose proof (Hsym 0) as K; rewrite Ropp_0 in K; lra).
  assert (F1 : F 1 = 1 - F (-1)) by (pose proof (Hsym (-1)) as K; replace (- -1) with 1 in K by lra; exact K).
  pose proof (HI (-2) (-1) ltac:(lra)) as L1. pose proof (HI (-1) 0 ltac:(lra)) as L2.
  set (A := F 0 - F (-1)) in *. set (D := F (-1) - F (-2)) in *.
  assert (HA : 0 < A) by (unfold A; lra). assert (HD : 0 < D) by (unfold D; lra).
  set (i := Bin 0 1 0 0 0). assert (Hi : in_grid ga i) by (repeat split; cbn; lia).
  assert (E1 : forall u, (0 - 1 - u) / 1 = -1 - u) by (intros; field). assert (E2 : forall u, (1 - 1 - u) / 1 = - u) by (intros; field).
  assert (E3 : forall u, (1 + 1 - 1 - u) / 1 = 1 - u) by (intros; field).
  assert (U1 : -1 - 0 = -1) by lra. assert (U2 : -1 - 1 = -2) by lra. assert (U3 : 1 - 0 = 1) by lra. assert (U4 : 1 - 1 = 0) by lra.
  assert (Ho : - (1) = -1) by lra.
  assert (HL : forall q, (q < 2)%nat -> lit_ok ga (kmass ga (kk la q) true) true).
  { intros q Hq _. destruct q as [|[|q]]; [| |lia]; cbn [kk la nth fst kmass]; apply ma_v_lit; rewrite ?U1, ?U2, ?U3, ?U4; unfold A, D in *; lra. }
  assert (HL0 : forall q, (q < 2)%nat -> lit_ok ga (kmass ga (kk la q) false) true).
  { intros q Hq _. destruct q as [|[|q]]; [| |lia]; kev; lra. }
  assert (T0 : total ga (lit ga (kmass ga (kk la 0) true)) = 2 * A).
  { kev. unfold vbin. ev. rewrite !E1, !E3, !E2, Ropp_0, U1, U3, F1. unfold A. lra. }
  assert (T1 : total ga (lit ga (kmass ga (kk la 1) true)) = A + D).
  { kev. unfold vbin. ev. rewrite !E1, !E3, !E2, U2, U4, Ho. unfold A, D. lra. }
  assert (T2 : total ga (lit ga (kmix ga la true)) = (3 * A + D) / 2).
  { kev. unfold vbin. ev. rewrite !E1, !E3, !E2, U1, U2, U3, U4, Ho, Ropp_0, F1. unfold A, D. lra. }
  assert (M0 : marg ga (weighted ga true (kmass ga (kk la 0) true)) V_v i = 1 / 2).
  { unfold weighted, light. rewrite T0. unfold i. kev. unfold vbin. ev. rewrite !E3, !E2, Ropp_0, U3, F1. replace (1 - F (-1) - F 0) with A by (unfold A; lra). field. lra. }
  assert (M1 : marg ga (weighted ga true (kmass ga (kk la 1) true)) V_v i = A / (A + D)).
  { unfold weighted, light. rewrite T1. unfold i. kev. unfold vbin. ev. rewrite !E3, !E2, U4, Ho. fold A. field. lra. }
  assert (M2 : marg ga (weighted ga true (kmix ga la true)) V_v i = 2 * A / (3 * A + D)).
  { unfold weighted, light. rewrite T2. unfold i. kev. unfold vbin. ev. rewrite !E3, !E2, U3, U4, Ho, Ropp_0, F1. replace (1 - F (-1) - F 0) with A by (unfold A; lra). fold A. field. lra. }
  assert (HM : forall P, marg ga P V_v i <> 0 -> Mean ga P Ct V_v i = 1 / 2).
  { intros P HP. unfold Mean, Ex. cbn [cvar]. change (union (VSet true false false false) V_v) with V_tv.
    assert (EP : marg ga P V_tv i = marg ga P V_v i) by (unfold marg, over; cbn [has_t has_v has_x has_z V_tv V_v]; ev; ring).
    change ((0 + (0 + 1) / 2 * marg ga P V_tv i) / marg ga P V_v i = 1 / 2). rewrite EP. field. exact HP. }
  destruct (light_given_v_claim mixa ga la mixa_on ga_good true Ct V_v HL eq_refl ltac:(discriminate) ltac:(discriminate)
    ltac:(discriminate) eq_refl eq_refl HL0) as (m & E & _ & He).
  assert (Ht : all_there ga la true V_v i).
  { intros q Hq. cbn in Hq. assert (0 < A / (A + D)) by (apply Rdiv_lt_0_compat; lra).
    destruct q as [|[|q]]; [| |lia]; change (has_v V_v) with true; rewrite ?M0, ?M1; lra. }
  exists mixa, ga, la, i, m. eexists. split; [exact mixa_on|]. split; [exact ga_good|]. split; [exact Hi|].
  split. { split; [cbn; unfold sumR; cbn; lra|]. intros q Hq. cbn in Hq. destruct q as [|[|q]]; [| |lia]; unfold total; kev; lra. }
  split. { intros q m0 Eq Hq. cbn in Hq. destruct q as [|[|q]]; [| |lia]; cbn in Eq; injection Eq as <-; reflexivity. }
  split; [exact HL|]. split; [exact Ht|]. split; [reflexivity|]. split; [exact E|]. split; [exact (He i Hi Ht)|].
  split. { change (mid (tE ga) 0) with ((0 + 1) / 2). rewrite HM; [lra|]. rewrite M2. apply Rgt_not_eq. apply Rdiv_lt_0_compat; lra. }
  change (has_v V_v) with true. rewrite M2. cbn [List.length la Sum]. fold la. rewrite !HM by (rewrite ?M0, ?M1; apply Rgt_not_eq; try apply Rdiv_lt_0_compat; lra).
  rewrite M0, M1. change (mid (tE ga) 0) with ((0 + 1) / 2).
  assert (K0 : total ga (lit ga (kmass ga (kk la 0) false)) = 1) by (kev; lra).
  assert (K1 : total ga (lit ga (kmass ga (kk la 1) false)) = 1) by (kev; lra).
  assert (K2 : total ga (lit ga (kmix ga la false)) = 1) by (kev; lra). rewrite K0, K1, K2. cbn [kw la nth snd].
  intros EQ. apply Hlin. assert (S : (A - D) ^ 2 = 0); [|nra].
  assert (EQ' : (1 / 2 * (1 / 2) * (1 / 2) + 1 / 2 * (A / (A + D)) * (1 / 2)) * (3 * A + D) = A).
  { transitivity ((1 / 2 * (1 / 2) * (1 / 2) + 1 / 2 * (A / (A + D)) * (1 / 2)) / (2 * A / (3 * A + D)) * (2 * A)); [field; lra|].
    transitivity ((0 + 1) / 2 * (2 * A)); [|lra]. f_equal. rewrite <- EQ. field. repeat split; lra. }
  assert (EQ2 : ((1 / 2 * (1 / 2) * (1 / 2)) * (A + D) + 1 / 2 * A * (1 / 2)) * (3 * A + D) = A * (A + D)).
  { transitivity ((1 / 2 * (1 / 2) * (1 / 2) + 1 / 2 * (A / (A + D)) * (1 / 2)) * (3 * A + D) * (A + D)); [field; lra|rewrite EQ'; reflexivity]. }
  nra.
Qed.
End OneAge.

(** the stand-in of the examples meets the conditions *)
Lemma logistic_bends : logistic 0 - logistic (-1) <> logistic (-1) - logistic (-2).
Proof.
  unfold logistic. rewrite Ropp_0, exp_0. replace (- -1) with 1 by lra. replace (- -2) with (1 + 1) by lra. rewrite exp_plus.
  pose proof (exp_ineq1 1 ltac:(lra)) as He. set (e := exp 1) in *. intros EQ.
  assert (K : (e - 1) ^ 3 = 0); [|apply Rmult_integral in K; destruct K as [K|K]; [lra|apply Rmult_integral in K; destruct K as [K|K]; [lra|apply Rmult_integral in K; destruct K; lra]]].
  assert (EQ' : (/ (1 + 1) - / (1 + e)) * (2 * (1 + e) * (1 + e * e)) = (/ (1 + e) - / (1 + e * e)) * (2 * (1 + e) * (1 + e * e))) by (rewrite EQ; reflexivity).
  replace ((/ (1 + 1) - / (1 + e)) * (2 * (1 + e) * (1 + e * e))) with ((1 + e) * (1 + e * e) - 2 * (1 + e * e)) in EQ' by (field; nra).
  replace ((/ (1 + e) - / (1 + e * e)) * (2 * (1 + e) * (1 + e * e))) with (2 * (1 + e * e) - 2 * (1 + e)) in EQ' by (field; nra).
  nra.
Qed.

(** ** the component of Build.v with weight 1/4, the parametric one of
    ParMomExample.v with weight 3/4 *)
Definition exl2 : kinds := [(KBase exf, 1 / 4); (KPar exmod, 3 / 4)].
Definition exm2 : mixture := Mixture (cube_of exg) [comp_member exc; par_member exL (Fin 1) exmp] [Fin (1 / 4); Fin (3 / 4)].
Lemma exm2_on : mixed_on exm2 exg exl2.
Proof.
  constructor; try reflexivity; [apply cube_of_on; [apply exg_uniform_x|apply exg_uniform_y]|discriminate| |].
  - intros [|[|q]] Hq; [cbn; lra|cbn; lra|cbn in Hq; lia].
  - intros [|[|q]] mb E; cbn in E; [| |destruct q; discriminate E]; injection E as <-.
    + exists exc. split; [reflexivity|]. split; [apply exc_on|apply exf_nonneg].
    + exists exL, exmp. split; [reflexivity|]. split; [apply exmp_on|apply exmod_good].
Qed.
Lemma exl2_lit lw q : (q < 2)%nat -> lit_ok exg (kmass exg (kk exl2 q) false) lw.
Proof.
  intros Hq. destruct q as [|[|q]]; [| |lia]; intros _; cbn [kk exl2 nth fst kmass].
  - apply ex_light.
  - unfold total, marg, over, lit, par_joint, pprob, pjoint, txz_mass. cbn [has_t has_v has_x has_z no_vars]. ev. lra.
Qed.
