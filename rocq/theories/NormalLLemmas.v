(** * NormalLLemmas: L-moments of the normal distribution, excess L-moments, and
    L-moments of histograms. *)
From Coq Require Import Reals Lra Lia List Bool Arith ZArith String Psatz.
From Verif Require Import Num NumLemmas Arr ArrLemmas PyStr Cube Base Ssps Spec SpecLemmas Repr CubeLemmas CubeGeom
  BaseLemmas CondLemmas DistLemmas Moments MomArr MomSpec MomLemmas MomLemmas2 MomLemmas3 MomLemmas5 LMom MomClaims FourierLemmas
  GaussSpec GaussLemmas NormalL NormalLSpec QuantLemmas.
Import ListNotations.
Local Open Scope R_scope.

(** ** Legendre polynomials *)
Lemma legendre2_snd n x : snd (legendre2 n x) = legendre (S n) x.
Proof. unfold legendre. cbn [legendre2]. destruct (legendre2 n x). reflexivity. Qed.
Lemma legendre_SS n x : legendre (S (S n)) x = ((2 * INR n + 3) * x * legendre (S n) x - (INR n + 1) * legendre n x) / (INR n + 2).
Proof.
  unfold legendre at 1. cbn [legendre2]. pose proof (legendre2_snd n x) as E. unfold legendre at 2.
  destruct (legendre2 n x) as [a b]. cbn [fst snd] in *. rewrite E. reflexivity.
Qed.
Lemma legendre_parity n x : legendre n (- x) = (-1) ^ n * legendre n x.
Proof.
  enough (K : legendre n (- x) = (-1) ^ n * legendre n x /\ legendre (S n) (- x) = (-1) ^ S n * legendre (S n) x) by apply K.
  induction n as [|n [IH1 IH2]].
  - split; unfold legendre; cbn; ring.
  - split; [exact IH2|]. rewrite !legendre_SS, IH1, IH2. cbn [pow]. field. pose proof (pos_INR n). lra.
Qed.
Lemma legendre_weight j u : (1 <= j <= 4)%nat -> legendre (j - 1) (2 * u - 1) = lweight j u.
Proof.
  intros H. assert (J : j = 1%nat \/ j = 2%nat \/ j = 3%nat \/ j = 4%nat) by lia.
  destruct J as [->|[->|[->| ->]]]; cbn [Nat.sub lweight]; unfold legendre; cbn; field.
Qed.

(** ** the normal distribution *)
Definition cnt (N k : nat) : R := (INR k + 1 / 2) / INR N.
Lemma cnt_in N k : (k < N)%nat -> 0 < cnt N k < 1.
Proof.
  intros H. assert (0 < INR N) by (apply lt_0_INR; lia). pose proof (pos_INR k).
  assert (INR k + 1 <= INR N) by (rewrite <- S_INR; apply le_INR; lia). unfold cnt. split.
  - apply Rdiv_lt_0_compat; lra.
  - apply Rmult_lt_reg_r with (INR N); [assumption|]. unfold Rdiv. rewrite Rmult_assoc, Rinv_l by lra. lra.
Qed.
Lemma cnt_rev N k : (k < N)%nat -> cnt N (N - 1 - k) = 1 - cnt N k.
Proof.
  intros H. unfold cnt. rewrite !minus_INR by lia. cbn [INR]. assert (0 < INR N) by (apply lt_0_INR; lia). field. lra.
Qed.

Definition nsumL (q : R -> R) (N j : nat) : R :=
  Sum N (fun k => q (cnt N k) * legendre j (2 * cnt N k - 1) * (1 / INR N)).

Lemma snap x : isclose (Fin x) (Fin 0) = Rleb (Rabs x) (1 / 100000000).
Proof. unfold isclose. f_equal; [f_equal; ring|]. rewrite Rabs_R0. ring. Qed.

Lemma normal_on N q j : (0 < N)%nat ->
  l_moment_normal_on (N + 1) q (S j) =
  Ok (if isclose (Fin (nsumL q N j)) (Fin 0) then Fin 0 else Fin (nsumL q N j)).
Proof.
  intros HN. unfold l_moment_normal_on. set (e := linspace 0 1 (N + 1)).
  assert (HNp : 0 < INR N) by (apply lt_0_INR; lia).
  assert (He : arr_is e [(N + 1)%nat] (fun idx => Fin (INR (hd 0%nat idx) / INR N))).
  { split; [reflexivity|]. intros idx Hi. inb_inv. cbn. replace (N + 1 - 1)%nat with N by lia. f_equal. field. lra. }
  pose proof (tail0_is e _ _ _ He ltac:(lia)) as HT. pose proof (init0_is e _ _ _ He) as HI.
  replace (N + 1 - 1)%nat with N in * by lia.
  destruct (bop_same_is nsub _ _ _ (proj1 HT) (proj1 HI)) as (dF & EdF & HdFs & HdFe). rewrite EdF; cbn [bind].
  destruct (bop_same_is nadd _ _ _ (proj1 HI) (proj1 HT)) as (s & Es & Hss & Hse). rewrite Es; cbn [bind].
  set (x := amap (nppf q) (halve s)). set (g := amap _ (halve s)).
  assert (Hx : shp x = [N]) by exact Hss. assert (Hg : shp g = [N]) by exact Hss.
  destruct (bop_same_is nmul x g _ Hx Hg) as (y & Ey & Hys & Hye). rewrite Ey; cbn [bind].
  destruct (bop_same_is nmul y dF _ Hys HdFs) as (w & Ew & Hws & Hwe). rewrite Ew; cbn [bind].
  destruct (asum0_is w _ _ Hws) as (t & Et & Hts & Hte). rewrite Et; cbn [bind].
  assert (E : ent t [] = Fin (nsumL q N j)).
  { rewrite Hte by constructor. apply nsum_seq. intros k Hk.
    assert (Hb : inb [k] [N]) by (repeat constructor; assumption).
    assert (Ec : ent (halve s) [k] = Fin (cnt N k)).
    { cbn [halve amap ent]. rewrite Hse, (proj2 HT), (proj2 HI) by assumption. cbn [hd tl].
      rewrite nadd_Fin, ndiv_Fin by lra. f_equal. unfold cnt. rewrite S_INR. field. lra. }
    rewrite Hwe, Hye, HdFe, (proj2 HT), (proj2 HI) by assumption. cbn [hd tl].
    unfold x, g. cbn [amap ent]. cbn [halve amap ent] in Ec. cbn [halve amap ent]. rewrite Ec.
    pose proof (cnt_in N k Hk) as [C0 C1]. unfold nppf. rewrite (proj2 (Rltb_true _ _) C0), (proj2 (Rltb_true _ _) C1).
    rewrite !nmul_Fin, !nsub_Fin. cbn [npoly]. rewrite !nmul_Fin. f_equal. f_equal. rewrite S_INR. field. lra. }
  rewrite E. reflexivity.
Qed.

Section Normal.
Context (q : R -> R) (Hq : normal_quantile q).
Lemma nsum_odd N j : Nat.Even j -> nsumL q N j = 0.
Proof.
  intros [h Hh]. assert (K : nsumL q N j = - nsumL q N j); [|lra].
  unfold nsumL at 1. rewrite <- Sum_rev. 
  transitivity (Sum N (fun k => -1 * (q (cnt N k) * legendre j (2 * cnt N k - 1) * (1 / INR N)))).
  - apply Sum_ext. intros k Hk. rewrite cnt_rev by assumption. rewrite (quantile_odd q _ Hq (cnt_in N k Hk)).
    replace (2 * (1 - cnt N k) - 1) with (- (2 * cnt N k - 1)) by ring. rewrite legendre_parity.
    assert (E : (-1) ^ j = 1) by (rewrite Hh; apply pow_1_even). rewrite E. ring.
  - rewrite Sum_scal. unfold nsumL. ring.
Qed.
Lemma nsum_two N : (2 <= N)%nat -> 1 / (8 * INR N) <= nsumL q N 1.
Proof.
  intros HN. assert (HNp : 2 <= INR N) by (apply (le_INR 2); assumption).
  assert (E : forall u, legendre 1 u = u) by (intros; reflexivity).
  apply Rle_trans with (q (cnt N (N - 1)) * legendre 1 (2 * cnt N (N - 1) - 1) * (1 / INR N)).
  - assert (EC : cnt N (N - 1) = 1 - 1 / 2 / INR N) by (unfold cnt; rewrite minus_INR by lia; cbn [INR]; field; lra).
    assert (C1 : 3 / 4 <= cnt N (N - 1) < 1).
    { rewrite EC. assert (0 < / INR N) by (apply Rinv_0_lt_compat; lra).
      assert (/ INR N <= / 2) by (apply Rinv_le_contravar; lra). lra. }
    pose proof (quantile_large q _ Hq C1). rewrite E. set (c := cnt N (N - 1)) in *. set (x := q c) in *.
    replace (1 / (8 * INR N)) with (1 / 8 * (1 / INR N)) by (field; lra).
    apply Rmult_le_compat_r; [apply Rlt_le, Rdiv_lt_0_compat; lra|]. nra.
  - unfold nsumL. apply (Sum_ge_term N (fun k => q (cnt N k) * legendre 1 (2 * cnt N k - 1) * (1 / INR N))); [lia|].
    intros k Hk. rewrite E. apply Rmult_le_pos; [apply quantile_sign, cnt_in; assumption|]. apply Rlt_le, Rdiv_lt_0_compat; lra.
Qed.

Lemma nodes_eq : exists N, normal_nodes = (N + 1)%nat /\ (2 <= N)%nat /\ INR N = 99999.
Proof.
  exists (Z.to_nat 99999). split; [unfold normal_nodes; lia|]. split; [lia|].
  rewrite INR_IZR_INZ, Z2Nat.id by lia. reflexivity.
Qed.
Lemma normal_zero : get_l_moment_normal q 0 = Err ValueError. Proof. reflexivity. Qed.
Lemma normal_finite j : exists l, get_l_moment_normal q (S j) = Ok (Fin l) /\ (Nat.Even j -> l = 0) /\ (j = 1%nat -> 0 < l).
Proof.
  unfold get_l_moment_normal. destruct nodes_eq as (N & -> & P2 & P3).
  rewrite (normal_on N q j) by lia. rewrite snap.
  destruct (Rleb (Rabs (nsumL q N j)) (1 / 100000000)) eqn:E.
  - exists 0. split; [reflexivity|]. split; [reflexivity|]. intros ->. exfalso. apply Rleb_true in E.
    pose proof (nsum_two N ltac:(lia)) as K. rewrite P3 in K. pose proof (Rle_abs (nsumL q N 1)). lra.
  - eexists. split; [reflexivity|]. split; [apply nsum_odd|]. intros ->.
    pose proof (nsum_two N ltac:(lia)) as K. rewrite P3 in K. lra.
Qed.
Lemma normal_value order : (1 <= order <= 4)%nat -> exists N, INR N = 99999 /\
  let s := midpoint_sum q N order in
  (Rabs s <= 1 / 100000000 -> get_l_moment_normal q order = Ok (Fin 0)) /\
  (1 / 100000000 < Rabs s -> get_l_moment_normal q order = Ok (Fin s)).
Proof.
  intros Ho. unfold get_l_moment_normal. destruct nodes_eq as (N & -> & P2 & P3). exists N. split; [exact P3|].
  destruct order as [|j]; [lia|]. rewrite (normal_on N q j) by lia. rewrite snap.
  assert (E : nsumL q N j = midpoint_sum q N (S j)).
  { unfold nsumL, midpoint_sum. apply Sum_ext. intros k _. replace j with (S j - 1)%nat at 1 by lia.
    rewrite legendre_weight by assumption. unfold cnt. cbv zeta. unfold Rdiv. ring. }
  rewrite E. set (s := midpoint_sum q N (S j)). cbv zeta. split; intros Hs.
  - apply Rleb_true in Hs. rewrite Hs. reflexivity.
  - destruct (Rleb (Rabs s) (1 / 100000000)) eqn:X; [apply Rleb_true in X; lra|reflexivity].
Qed.
End Normal.

(** ** integrals of cubic polynomials *)
Lemma poly_int a b c0 c1 c2 c3 : a <= b ->
  integral (fun w => c0 + c1 * w + c2 * w ^ 2 + c3 * w ^ 3) a b
    (c0 * (b - a) + c1 * (b ^ 2 - a ^ 2) / 2 + c2 * (b ^ 3 - a ^ 3) / 3 + c3 * (b ^ 4 - a ^ 4) / 4).
Proof.
  intros H. set (F := fun w => c0 * w + c1 / 2 * w ^ 2 + c2 / 3 * w ^ 3 + c3 / 4 * w ^ 4).
  set (f := fun w => c0 + c1 * w + c2 * w ^ 2 + c3 * w ^ 3).
  replace (c0 * (b - a) + c1 * (b ^ 2 - a ^ 2) / 2 + c2 * (b ^ 3 - a ^ 3) / 3 + c3 * (b ^ 4 - a ^ 4) / 4) with (F b - F a)
    by (unfold F; field).
  apply integral_derive; [assumption| |].
  - intros x. unfold F, f.
    replace (c0 + c1 * x + c2 * x ^ 2 + c3 * x ^ 3) with
      (c0 * 1 + c1 / 2 * (INR 2 * x ^ pred 2) + c2 / 3 * (INR 3 * x ^ pred 3) + c3 / 4 * (INR 4 * x ^ pred 4)) by (cbn; field).
    apply (derivable_pt_lim_plus (fun w => c0 * w + c1 / 2 * w ^ 2 + c2 / 3 * w ^ 3) (fun w => c3 / 4 * w ^ 4)).
    + apply (derivable_pt_lim_plus (fun w => c0 * w + c1 / 2 * w ^ 2) (fun w => c2 / 3 * w ^ 3)).
      * apply (derivable_pt_lim_plus (fun w => c0 * w) (fun w => c1 / 2 * w ^ 2)).
        -- apply (derivable_pt_lim_scal id c0 x 1), derivable_pt_lim_id.
        -- apply (derivable_pt_lim_scal (fun w => w ^ 2)), derivable_pt_lim_pow.
      * apply (derivable_pt_lim_scal (fun w => w ^ 3)), derivable_pt_lim_pow.
    + apply (derivable_pt_lim_scal (fun w => w ^ 4)), derivable_pt_lim_pow.
  - unfold f. intros x. apply derivable_continuous_pt. 
    apply (derivable_pt_plus (fun w => c0 + c1 * w + c2 * w ^ 2) (fun w => c3 * w ^ 3)).
    + apply (derivable_pt_plus (fun w => c0 + c1 * w) (fun w => c2 * w ^ 2)).
      * apply (derivable_pt_plus (fun w => c0) (fun w => c1 * w)); [apply derivable_pt_const|].
        apply (derivable_pt_scal id), derivable_pt_id.
      * apply (derivable_pt_scal (fun w => w ^ 2)), derivable_pt_pow.
    + apply (derivable_pt_scal (fun w => w ^ 3)), derivable_pt_pow.
Qed.
