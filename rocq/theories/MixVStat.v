(** * MixVStat: dispersion, skewness and kurtosis of the velocities of mixtures with
    base and parametric members. *)
From Coq Require Import Reals Lra Lia List Bool Arith ZArith String Ascii.
From Verif Require Import Num NumLemmas Arr ArrLemmas PyStr StrLemmas Cube Base Spec SpecLemmas Repr CubeLemmas CondLemmas
  DistLemmas StringClaims Moments MomArr MomSpec MomLemmas MomLemmas2 MomLemmas3 MomLemmas4 MomLemmas5 Stat MomClaims Parametric ParSpec ParRepr ParLemmas ParMoments
  GaussSpec GaussLemmas ParMomSpec ParMomMath ParMomArr ParMomLemmas ParMomMeans ParMomClaims VStatMath ParVStat
  Mixture MixSpec MixGen MixLemmas MixMom MixParSpec MixParLemmas MixParClaims MixParExample MixStat.
Import ListNotations.
Local Open Scope R_scope.

Lemma gmom_no_s d j : gmom d 0 j = d ^ j.
Proof.
  cut (gmom d 0 j = d ^ j /\ gmom d 0 (S j) = d ^ S j); [tauto|]. induction j as [|j [IH1 IH2]].
  - split; [reflexivity|]. rewrite gmom_1. ring.
  - split; [exact IH2|]. rewrite gmom_SS, IH2, IH1. cbn [pow]. ring.
Qed.
Lemma E_zero {A} (l : list A) w h k : (forall j, In j l -> 0 <= w j) -> (forall j, In j l -> 0 <= h j) -> E l w h = 0 ->
  (forall j, In j l -> h j = 0 -> k j = 0) -> E l w k = 0.
Proof.
  intros Hw Hh HE Hk. unfold E. transitivity (sumR (map (fun _ : A => 0 * 0) l)); [|rewrite sumR_map_scal; ring].
  apply sumR_map_ext. intros j Hj.
  pose proof (sumR_zero_terms (fun j => h j * w j) l (fun j Hj => Rmult_le_pos _ _ (Hh j Hj) (Hw j Hj)) HE j Hj) as K. cbn in K.
  apply Rmult_integral in K as [K|K]; [rewrite (Hk j Hj K)|rewrite K]; ring.
Qed.

Section Vel.
Context (self : mixture) (g : grid) (l : kinds) (H : mixed_on self g l) (Hg : good_grid g).
Context (lw : bool) (C : vset) (Hv : has_v C = false) (i : bin) (Hi : in_grid g i).
Context (Hm : forall q, (q < List.length l)%nat -> lit_ok g (kmass g (kk l q) false) lw).
Context (Ht : all_there g l lw C i).
Let n := List.length l.
Let HDv : disjoint (cvar Cv) C = true.
Proof. destruct C as [[] [] [] []]; try discriminate Hv; reflexivity. Qed.
Let Hm' : forall q, (q < List.length l)%nat -> lit_ok g (kmass g (kk l q) (has_v C)) lw.
Proof. rewrite Hv. exact Hm. Qed.

(** a member as a mixture of normal distributions, of dispersion 0 for a base
    component *)
Definition k_list (k : kind) : list bin := match k with KBase _ => bins_over g (cvar Cv) i | KPar _ => bins_over g (rest C) i end.
Definition k_w (k : kind) : bin -> R := match k with KBase f => cw g (prob g f lw) (cvar Cv) C i | KPar m => weight g m lw C i end.
Definition k_u (k : kind) (b : bin) : R := match k with KBase _ => cmid g Cv b | KPar m => pm_mu m (bt b) (bx b) (by_ b) end.
Definition k_s (k : kind) (b : bin) : R := match k with KBase _ => 0 | KPar m => pm_sig m (bt b) (bx b) (by_ b) end.
Definition Kq (c : R) (q j : nat) : R := E (k_list (kk l q)) (k_w (kk l q)) (fun b => gmom (k_u (kk l q) b - c) (k_s (kk l q) b) j).

Lemma member_facts q : (q < n)%nat -> (forall b, In b (k_list (kk l q)) -> 0 <= k_w (kk l q) b) /\ sumR (map (k_w (kk l q)) (k_list (kk l q))) = 1 /\
  k_v_mean g (kk l q) lw C i = E (k_list (kk l q)) (k_w (kk l q)) (k_u (kk l q)) /\
  (forall c j, k_v_moment g (kk l q) lw C i c j (Kq c q j)) /\
  (forall c j M, k_v_moment g (kk l q) lw C i c j M -> M = Kq c q j) /\
  ((exists m, kk l q = KPar m) -> forall c, 0 < Kq c q 2).
Proof.
  intros Hq. pose proof (Ht q Hq) as Hp. pose proof (Hm q Hq) as Hl.
  destruct (nth_error (mx_members self) q) as [mb|] eqn:Eq; [|apply nth_error_None in Eq; rewrite (mp_len _ _ _ H) in Eq; lia].
  pose proof (mp_member _ _ _ H q mb Eq) as Hmb. unfold Kq. destruct (kk l q) as [f|m]; cbn [k_list k_w k_u k_s kmass kind_on k_v_mean k_v_moment] in *.
  - destruct Hmb as (c0 & _ & _ & Hf). change (weighted g lw (mass g f)) with (prob g f lw) in Hp.
    pose proof (prob_nonneg g f lw Hg Hf Hl) as HP.
    assert (EM : forall c j, Moment g (prob g f lw) Cv C j c i =
       E (bins_over g (cvar Cv) i) (cw g (prob g f lw) (cvar Cv) C i) (fun b => gmom (cmid g Cv b - c) 0 j)).
    { intros c j. unfold Moment. rewrite Ex_E. apply E_ext. intros; rewrite gmom_no_s. reflexivity. }
    split; [apply cw_nonneg; assumption|]. split; [apply cw_sum; assumption|]. split; [unfold Mean; apply Ex_E|].
    split; [intros; symmetry; apply EM|]. split; [intros c j M ->; apply EM|]. intros (m & E0); discriminate E0.
  - destruct Hmb as (L & s & _ & Hs & Hgm). rewrite (par_marg g m lw C i Hg Hi) in Hp. apply (par_lit_ok g Hg) in Hl.
    pose proof (w_nonneg g m lw Hg Hgm Hl C Hv i Hi Hp) as W0. pose proof (w_sum g m lw C Hv i Hp) as W1.
    assert (MO : forall c j, mixture_moment g m lw C i c j (E (bins_over g (rest C) i) (weight g m lw C i)
        (fun b => gmom (pm_mu m (bt b) (bx b) (by_ b) - c) (pm_sig m (bt b) (bx b) (by_ b)) j))).
    { intros c j. exists (fun t x y => gmom (pm_mu m t x y - c) (pm_sig m t x y) j). split; [|symmetry; apply over_rest_E].
      intros t x y Htt Hx Hy. apply gmom_ok. apply (gp_sig _ _ Hgm); assumption. }
    split; [exact W0|]. split; [exact W1|]. split; [apply over_rest_E|]. split; [exact MO|]. split.
    + intros c j M K. exact (mixture_moment_unique g m lw C i c j _ _ Hi K (MO c j)).
    + intros _ c. apply (E_pos _ _ W0 W1). intros b Hb. rewrite gmom_2. apply bins_over_in in Hb as [(? & _ & ? & ? & _) _]; [|exact Hi].
      pose proof (pow_lt _ 2 (gp_sig _ _ Hgm (bt b) (bx b) (by_ b) ltac:(assumption) ltac:(assumption) ltac:(assumption))).
      pose proof (pow2_ge_0 (pm_mu m (bt b) (bx b) (by_ b) - c)). lra.
Qed.

Let qs := seq 0 n.
Let gv := k_given g l lw C i.
Lemma in_qs q : In q qs <-> (q < n)%nat.
Proof. unfold qs. rewrite in_seq. lia. Qed.
Lemma gv_pos q : In q qs -> 0 < gv q.
Proof.
  rewrite in_qs. intros Hq. unfold gv, k_given. pose proof (P_pos self g l H Hg lw C Hm' i Hi Ht) as HP.
  apply Rdiv_lt_0_compat; [|exact HP]. pose proof (Ht q Hq) as K. pose proof (mp_pos _ _ _ H q Hq) as W.
  unfold kshare, weighted in *. destruct lw eqn:El.
  - pose proof (Hm' q Hq eq_refl) as T.
    assert (TT : 0 < total g (lit g (kmix g l (has_v C)))).
    { pose proof (lights_lw_ok self g (kl g l) (mixed_gen self g l H Hg) (has_v C) true (mixed_lights g l Hg true C Hm') eq_refl) as TT.
      rewrite (total_ext g _ _ (lit_ext g _ _ (mass_mix g Hg l (has_v C)))) in TT. exact TT. }
    set (Tq := total g (lit g (kmass g (kk l q) (has_v C)))) in *. set (Tm := total g (lit g (kmix g l (has_v C)))) in *.
    assert (E0 : marg g (fun t v x y z => kw l q * lit g (kmass g (kk l q) (has_v C)) t v x y z / Tm) C i =
      kw l q * Tq / Tm * marg g (light g (kmass g (kk l q) (has_v C))) C i).
    { rewrite <- (marg_scal g). apply marg_ext; [exact Hi|]. intros t v x y z ? ? ? ? ?. unfold light. fold Tq. field. split; lra. }
    rewrite E0. apply Rmult_lt_0_compat; [|exact K]. apply Rdiv_lt_0_compat; [|exact TT]. apply Rmult_lt_0_compat; assumption.
  - rewrite (marg_scal g). apply Rmult_lt_0_compat; assumption.
Qed.
Lemma gv_sum : sumR (map gv qs) = 1.
Proof.
  unfold qs. rewrite sumR_map_seq. pose proof (P_pos self g l H Hg lw C Hm' i Hi Ht) as HP.
  assert (One : forall P, 0 < marg g P C i -> Ex g P (cvar Cv) C (fun _ => 1) i = 1).
  { intros P K. rewrite Ex_E. apply E_const. apply cw_sum; assumption. }
  rewrite <- (One _ HP), <- (given_Ex self g l H Hg lw C Hm' (cvar Cv) (fun _ => 1) i Hi HDv Ht).
  apply Sum_ext. intros q Hq. rewrite One by (apply Ht; exact Hq). unfold gv. ring.
Qed.
Let gv0 q : In q qs -> 0 <= gv q.
Proof. intros Hq. left. apply gv_pos, Hq. Qed.
Let c := k_mean_v g l lw C i.
Definition Mk (j : nat) : R := E qs gv (fun q => Kq c q j).
Lemma Mk_ok j M : k_moment_v g l lw C i (fun _ => c) j M <-> M = Mk j.
Proof.
  assert (S : forall F, Sum n (fun q => gv q * F q) = E qs gv F).
  { intros F. unfold E, qs. rewrite sumR_map_seq. apply Sum_ext; intros; ring. }
  split.
  - intros (Ms & HM & ->). unfold Mk. rewrite <- S. fold n gv. apply Sum_ext. intros q Hq.
    destruct (member_facts q Hq) as (_ & _ & _ & _ & U & _). rewrite (U _ _ _ (HM q Hq)). reflexivity.
  - intros ->. exists (fun q => Kq c q j). split.
    + intros q Hq. destruct (member_facts q Hq) as (_ & _ & _ & U & _). apply U.
    + symmetry. apply S.
Qed.
Lemma Mk_0 : Mk 0 = 1.
Proof.
  unfold Mk. rewrite (E_ext qs gv _ (fun _ => 1)); [apply (E_const qs gv gv_sum)|]. intros q Hq. apply in_qs in Hq.
  destruct (member_facts q Hq) as (_ & W1 & _). unfold Kq. apply (E_const _ _ W1 1).
Qed.
Lemma Mk_1 : Mk 1 = 0.
Proof.
  unfold Mk. rewrite (E_ext qs gv _ (fun q => k_v_mean g (kk l q) lw C i - c)).
  - rewrite E_minus, (E_const qs gv gv_sum). unfold c, k_mean_v. unfold E, qs. rewrite sumR_map_seq.
    rewrite (Sum_ext n _ (fun q => k_given g l lw C i q * k_v_mean g (kk l q) lw C i)) by (intros; unfold gv; ring). apply Rminus_eq_0.
  - intros q Hq. apply in_qs in Hq. destruct (member_facts q Hq) as (_ & W1 & EM & _). rewrite EM. unfold Kq.
    rewrite (E_ext _ _ _ (fun b => k_u (kk l q) b - c)) by (intros; apply gmom_1). rewrite E_minus, (E_const _ _ W1). reflexivity.
Qed.
Lemma Kq_2 q : (q < n)%nat -> 0 <= Kq c q 2.
Proof.
  intros Hq. destruct (member_facts q Hq) as (W0 & _). apply E_nonneg; [exact W0|]. intros b _. rewrite gmom_2.
  pose proof (pow2_ge_0 (k_u (kk l q) b - c)). pose proof (pow2_ge_0 (k_s (kk l q) b)). lra.
Qed.
Lemma Mk_2 : 0 <= Mk 2.
Proof. apply E_nonneg; [exact gv0|]. intros q Hq. apply in_qs in Hq. apply Kq_2, Hq. Qed.
Lemma Mk_par : (exists q m, (q < n)%nat /\ kk l q = KPar m) -> 0 < Mk 2.
Proof.
  intros (q & m & Hq & Em). destruct Mk_2 as [K|K]; [exact K|]. exfalso.
  pose proof (sumR_zero_terms (fun q => Kq c q 2 * gv q) qs) as T. cbn in T. specialize (T (fun q Hq => Rmult_le_pos _ _ (Kq_2 q (proj1 (in_qs q) Hq)) (gv0 q Hq)) (eq_sym K) q (proj2 (in_qs q) Hq)).
  destruct (member_facts q Hq) as (_ & _ & _ & _ & _ & P). specialize (P (ex_intro _ m Em) c). pose proof (gv_pos q (proj2 (in_qs q) Hq)) as G.
  pose proof (Rmult_lt_0_compat _ _ P G). lra.
Qed.
Lemma Mk_zero j : (j = 3 \/ j = 4)%nat -> Mk 2 = 0 -> Mk j = 0.
Proof.
  intros Hj Z. refine (E_zero qs gv _ _ gv0 _ Z _).
  - intros q Hq. apply in_qs in Hq. apply Kq_2, Hq.
  - intros q Hq K. apply in_qs in Hq. destruct (member_facts q Hq) as (W0 & _). refine (E_zero _ _ _ _ W0 _ K _).
    + intros b _. rewrite gmom_2. pose proof (pow2_ge_0 (k_u (kk l q) b - c)). pose proof (pow2_ge_0 (k_s (kk l q) b)). lra.
    + intros b _. rewrite gmom_2. set (d := k_u _ b - c). set (s := k_s _ b). intros Q.
      assert (d = 0) by (pose proof (pow2_ge_0 s); pose proof (pow2_ge_0 d); nra).
      assert (s = 0) by (pose proof (pow2_ge_0 s); pose proof (pow2_ge_0 d); nra).
      destruct Hj as [->| ->]; [rewrite gmom_3|rewrite gmom_4]; rewrite H0, H1; ring.
Qed.
Lemma Mk_kurt : 0 < Mk 2 -> (Mk 3 / sqrt (Mk 2) ^ 3) ^ 2 + 1 <= Mk 4 / sqrt (Mk 2) ^ 4.
Proof.
  intros VP. apply (quart_kurt Mk Mk_0 Mk_1 VP). set (a := - _). set (b := - (_ / _)).
  assert (K : quart a b Mk = E qs gv (fun q => quart a b (Kq c q))). { rewrite E_quart. unfold quart. reflexivity. }
  rewrite K. apply E_nonneg; [exact gv0|]. intros q Hq. apply in_qs in Hq. destruct (member_facts q Hq) as (W0 & _).
  assert (K2 : quart a b (Kq c q) = E (k_list (kk l q)) (k_w (kk l q)) (fun j => quart a b (gmom (k_u (kk l q) j - c) (k_s (kk l q) j)))).
  { rewrite E_quart. reflexivity. }
  rewrite K2. apply E_nonneg; [exact W0|]. intros j Hj. rewrite quart_gauss. set (d := k_u _ j - c). set (s := k_s _ j).
  pose proof (pow2_ge_0 (a + b * d + d ^ 2 + s ^ 2)). assert (0 <= (b + 2 * d) ^ 2 * s ^ 2) by (apply Rmult_le_pos; apply pow2_ge_0).
  assert (0 <= s ^ 4) by (replace (s ^ 4) with ((s ^ 2) ^ 2) by ring; apply pow2_ge_0). lra.
Qed.
End Vel.

Section Stats.
Context (self : mixture) (g : grid) (l : kinds) (H : mixed_on self g l) (Hg : good_grid g).
Context (lw : bool) (C : vset) (Hv : has_v C = false) (Htxz : C <> V_txz).
Context (Hm : forall q, (q < List.length l)%nat -> lit_ok g (kmass g (kk l q) false) lw).
Context (HN : nonempty C = false -> lw = false -> k_normal g l).
Lemma central_Mk j : exists a, mix_central_moment self (dname V_v C) j lw = Ok a /\ shp a = dims C g /\
  forall i, in_grid g i -> all_there g l lw C i -> ent a (coords C i) = Fin (Mk g l lw C i j).
Proof.
  destruct (v_central_claim self g l H Hg lw C Hv Htxz Hm HN j) as (a & Ea & Sa & He). exists a. do 2 (split; [assumption|]).
  intros i Hi Ht. destruct (He i Hi Ht) as (M & EM & HM). apply (Mk_ok self g l H Hg lw C Hv i Hi Hm Ht) in HM. rewrite EM, HM. reflexivity.
Qed.
Lemma mix_v_stats f2m1 :
  exists s sk ku ek, mix_dispersion self (dname V_v C) lw = Ok s /\ mix_skewness self (dname V_v C) lw = Ok sk /\
    mix_kurtosis self (dname V_v C) lw = Ok ku /\ mix_excess_kurtosis f2m1 self (dname V_v C) lw = Ok ek /\
    shp s = dims C g /\ shp sk = dims C g /\ shp ku = dims C g /\ shp ek = dims C g /\
    forall i, in_grid g i -> all_there g l lw C i ->
      exists V T K, k_moment_v g l lw C i (fun _ => k_mean_v g l lw C i) 2 V /\ k_moment_v g l lw C i (fun _ => k_mean_v g l lw C i) 3 T /\
        k_moment_v g l lw C i (fun _ => k_mean_v g l lw C i) 4 K /\ 0 <= V /\
        ((exists q m, (q < List.length l)%nat /\ kk l q = KPar m) -> 0 < V) /\
        ent s (coords C i) = Fin (sqrt V) /\
        (0 < V -> ent sk (coords C i) = Fin (T / sqrt V ^ 3) /\ ent ku (coords C i) = Fin (K / sqrt V ^ 4) /\
           ent ek (coords C i) = Fin (K / sqrt V ^ 4 - 3) /\ (T / sqrt V ^ 3) ^ 2 + 1 <= K / sqrt V ^ 4) /\
        (V = 0 -> ent sk (coords C i) = NaN /\ ent ku (coords C i) = NaN /\ ent ek (coords C i) = NaN).
Proof.
  destruct (central_Mk 2) as (v & Ev & Sv & Hve). destruct (central_Mk 3) as (m3 & E3 & S3 & H3). destruct (central_Mk 4) as (m4 & E4 & S4 & H4).
  destruct (nrm_arr m3 v _ 3 S3 Sv) as (sk & Esk & Ssk & Hsk). destruct (nrm_arr m4 v _ 4 S4 Sv) as (ku & Eku & Sku & Hku).
  destruct (bop_is nsub ku (scal (get_normalised_central_moment_normal f2m1 4)) _ _ _ _ (dims C g) (self_is ku _ Sku) (scal_is _) (bshape_nil_r _)) as (ek & Eek & Sek & Hek).
  exists (amap nsqrt v), sk, ku, ek.
  assert (K2 : mix_dispersion self (dname V_v C) lw = Ok (amap nsqrt v)) by (unfold mix_dispersion; rewrite Ev; reflexivity).
  assert (K4 : mix_kurtosis self (dname V_v C) lw = Ok ku).
  { unfold mix_kurtosis, mix_normalised. rewrite E4, K2. exact Eku. }
  split; [exact K2|]. split; [unfold mix_skewness, mix_normalised; rewrite E3, K2; exact Esk|].
  split; [exact K4|]. split; [unfold mix_excess_kurtosis, mix_excess; unfold mix_kurtosis in K4; rewrite K4; exact Eek|].
  do 4 (split; [assumption|]). intros i Hi Ht. assert (Hin : inb (coords C i) (dims C g)) by (apply coords_inb; assumption).
  pose proof (Mk_2 self g l H Hg lw C Hv i Hi Hm Ht) as V0.
  exists (Mk g l lw C i 2), (Mk g l lw C i 3), (Mk g l lw C i 4).
  do 3 (split; [apply (Mk_ok self g l H Hg lw C Hv i Hi Hm Ht); reflexivity|]). split; [exact V0|].
  split; [exact (Mk_par self g l H Hg lw C Hv i Hi Hm Ht)|].
  rewrite Hek, bidx_self by assumption. rewrite Hku, Hsk by assumption. cbn [amap ent].
  rewrite (Hve i Hi Ht), (H3 i Hi Ht), (H4 i Hi Ht).
  split; [apply nsqrt_Fin; exact V0|]. split.
  - intros VP. rewrite !nrm_pos by exact VP. do 2 (split; [reflexivity|]).
    split; [cbn -[pow]; rewrite nsub_Fin; f_equal; cbn; lra|]. exact (Mk_kurt self g l H Hg lw C Hv i Hi Hm Ht VP).
  - intros VZ. rewrite (Mk_zero self g l H Hg lw C Hv i Hi Hm Ht 3 (or_introl eq_refl) VZ), (Mk_zero self g l H Hg lw C Hv i Hi Hm Ht 4 (or_intror eq_refl) VZ), VZ.
    rewrite !nrm_zero by lia. auto.
Qed.
End Stats.
Lemma mix_v_unique self g l : mixed_on self g l -> good_grid g -> forall lw C, has_v C = false ->
  forall i, in_grid g i -> (forall q, (q < List.length l)%nat -> lit_ok g (kmass g (kk l q) false) lw) -> all_there g l lw C i ->
  forall j M M', k_moment_v g l lw C i (fun _ => k_mean_v g l lw C i) j M -> k_moment_v g l lw C i (fun _ => k_mean_v g l lw C i) j M' -> M = M'.
Proof.
  intros H Hg lw C Hv i Hi Hm Ht j M M' K K'.
  apply (Mk_ok self g l H Hg lw C Hv i Hi Hm Ht) in K, K'. congruence.
Qed.
