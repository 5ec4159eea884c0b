(** * ParVStat: dispersion, skewness and kurtosis of the velocities of parametric
    components. *)
From Coq Require Import Reals Lra Lia List Bool Arith ZArith String Ascii.
From Verif Require Import Num NumLemmas Arr ArrLemmas PyStr StrLemmas Cube Base Spec SpecLemmas Repr CubeLemmas CondLemmas
  DistLemmas StringClaims Moments MomArr MomSpec MomLemmas MomLemmas2 MomLemmas3 MomLemmas4 MomLemmas5 Stat Parametric ParSpec ParRepr ParLemmas ParMoments
  GaussSpec GaussLemmas ParMomSpec ParMomMath ParMomArr ParMomLemmas ParMomMeans ParMomClaims VStatMath.
Import ListNotations.
Local Open Scope R_scope.

Section Claims.
Context (L : stats_lib) (self : par) (g : grid) (m : par_model) (lw : bool).
Context (H : par_on L self g m) (Hg : good_grid g) (Hm : good_par g m) (Hl : par_lw_ok g m lw false).

Lemma over_rest_E C i G : over_rest g m lw C i G = E (bins_over g (rest C) i) (weight g m lw C i) (fun b => G (bt b) (bx b) (by_ b)).
Proof. unfold over_rest, E. rewrite <- sum_bins_over. apply sumR_map_ext. intros; ring. Qed.

Section At.
Context (C : vset) (Hv : has_v C = false) (i : bin) (Hi : in_grid g i) (Hp : 0 < par_prob g m lw C i).
Let l := bins_over g (rest C) i.
Let w := weight g m lw C i.
Lemma w_nonneg : forall b, In b l -> 0 <= w b.
Proof.
  intros b Hb. apply bins_over_in in Hb as [Hb _]; [|exact Hi]. unfold w, weight.
  apply Rmult_le_pos; [|left; apply Rinv_0_lt_compat; exact Hp]. apply par_prob_ge0; try assumption.
  destruct C as [[] [] [] []]; try discriminate Hv; exact Hl.
Qed.
Lemma w_sum : sumR (map w l) = 1.
Proof.
  pose proof (over_rest_one g m lw C i Hv Hp) as K. rewrite over_rest_E in K. unfold E in K.
  etransitivity; [|exact K]. apply sumR_map_ext. intros; unfold w; ring.
Qed.
Let mean := mixture_mean g m lw C i.
Definition Mv (j : nat) : R := over_rest g m lw C i (fun t x y => gmom (pm_mu m t x y - mean) (pm_sig m t x y) j).
Lemma sig_pos b : In b l -> 0 < pm_sig m (bt b) (bx b) (by_ b).
Proof. intros Hb. apply bins_over_in in Hb as [(Ht & _ & Hx & Hy & _) _]; [|exact Hi]. apply (gp_sig _ _ Hm); assumption. Qed.
Lemma Mv_ok j : mixture_moment g m lw C i mean j (Mv j).
Proof.
  exists (fun t x y => gmom (pm_mu m t x y - mean) (pm_sig m t x y) j). split; [|reflexivity].
  intros t x y Ht Hx Hy. apply gmom_ok. apply (gp_sig _ _ Hm); assumption.
Qed.
Lemma Mv_E j : Mv j = E l w (fun b => gmom (pm_mu m (bt b) (bx b) (by_ b) - mean) (pm_sig m (bt b) (bx b) (by_ b)) j).
Proof. apply over_rest_E. Qed.
Lemma Mv_0 : Mv 0 = 1.
Proof. rewrite Mv_E. apply (E_const l w w_sum 1). Qed.
Lemma Mv_1 : Mv 1 = 0.
Proof.
  rewrite Mv_E. rewrite (E_ext l w _ (fun b => pm_mu m (bt b) (bx b) (by_ b) - mean)) by (intros; apply gmom_1).
  rewrite (E_minus l w (fun b => pm_mu m (bt b) (bx b) (by_ b)) (fun _ => mean)), (E_const l w w_sum).
  unfold mean, mixture_mean. rewrite over_rest_E. apply Rminus_eq_0.
Qed.
Lemma Mv_2 : Mv 2 = v_variance g m lw C i.
Proof.
  unfold v_variance. rewrite !over_rest_E, Mv_E. fold l w mean. rewrite <- E_plus. apply E_ext. intros; rewrite gmom_2. ring.
Qed.
Lemma Mv_2_pos : 0 < Mv 2.
Proof.
  rewrite Mv_E. apply (E_pos l w w_nonneg w_sum). intros b Hb. rewrite gmom_2. pose proof (sig_pos b Hb) as K.
  pose proof (pow_lt _ 2 K). pose proof (pow2_ge_0 (pm_mu m (bt b) (bx b) (by_ b) - mean)). lra.
Qed.
Lemma Mv_kurt : (Mv 3 / sqrt (Mv 2) ^ 3) ^ 2 + 1 < Mv 4 / sqrt (Mv 2) ^ 4.
Proof.
  apply (quart_kurt_strict Mv Mv_0 Mv_1 Mv_2_pos). set (a := - _). set (b := - (_ / _)).
  assert (K : quart a b Mv = E l w (fun j => quart a b (gmom (pm_mu m (bt j) (bx j) (by_ j) - mean) (pm_sig m (bt j) (bx j) (by_ j))))).
  { rewrite E_quart. unfold quart. rewrite <- !Mv_E. reflexivity. }
  rewrite K. apply (E_pos l w w_nonneg w_sum). intros j Hj. rewrite quart_gauss. pose proof (pow_lt _ 4 (sig_pos j Hj)).
  set (d := pm_mu _ _ _ _ - mean). set (s := pm_sig _ _ _ _) in *. pose proof (pow2_ge_0 (a + b * d + d ^ 2 + s ^ 2)).
  assert (0 <= (b + 2 * d) ^ 2 * s ^ 2) by (apply Rmult_le_pos; apply pow2_ge_0). lra.
Qed.
(** all the means which occur are the same *)
Definition one_mean : Prop := forall b, In b l -> 0 < w b -> pm_mu m (bt b) (bx b) (by_ b) = mean.
Lemma E_ext_pos h k : (forall b, In b l -> 0 < w b -> h b = k b) -> E l w h = E l w k.
Proof.
  intros Hk. unfold E. apply sumR_map_ext. intros b Hb. destruct (w_nonneg b Hb) as [K|K]; [rewrite (Hk b Hb K); reflexivity|rewrite <- K; ring].
Qed.
Lemma one_mean_3 : one_mean -> Mv 3 = 0.
Proof.
  intros Ho. rewrite Mv_E, (E_ext_pos _ (fun _ => 0)); [apply (E_const l w w_sum)|]. intros b Hb Hw. rewrite (Ho b Hb Hw), gmom_3. ring.
Qed.
Lemma one_mean_4 : one_mean -> 3 * Mv 2 ^ 2 <= Mv 4 /\
  (Mv 4 = 3 * Mv 2 ^ 2 <-> forall b, In b l -> 0 < w b -> pm_sig m (bt b) (bx b) (by_ b) ^ 2 = Mv 2).
Proof.
  intros Ho. set (h := fun b => pm_sig m (bt b) (bx b) (by_ b) ^ 2).
  assert (E2 : Mv 2 = E l w h). { rewrite Mv_E. apply E_ext_pos. intros b Hb Hw. rewrite (Ho b Hb Hw), gmom_2. unfold h. ring. }
  assert (E4 : Mv 4 = 3 * E l w (fun b => h b ^ 2)).
  { rewrite Mv_E, <- E_scal. apply E_ext_pos. intros b Hb Hw. rewrite (Ho b Hb Hw), gmom_4. unfold h. ring. }
  pose proof (Var_eq l w w_sum h) as EV. pose proof (Var_nonneg l w w_nonneg h) as V0. pose proof (Var_zero_iff l w w_nonneg h) as VZ.
  rewrite <- E2 in VZ, EV. split; [lra|]. rewrite E4. split.
  - intros K. apply VZ. lra.
  - intros K. apply VZ in K. lra.
Qed.
End At.

Definition par_there (C : vset) (i : bin) : Prop :=
  0 < par_prob g m lw C i /\ (nonempty C = false -> lw = false -> par_prob g m false no_vars i = 1).
Lemma central_Mv C j : has_v C = false ->
  exists a, get_central_moment (par_obj L (Fin 1) self) (dname V_v C) j lw = Ok a /\ shp a = dims C g /\
    forall i, in_grid g i -> par_there C i -> ent a (coords C i) = Fin (Mv C i j).
Proof.
  intros Hv. destruct (central_at L self g m lw H Hg Hm Hl 1 C j Hv) as (a & Ea & S1 & He). exists a. split; [exact Ea|]. split; [exact S1|].
  intros i Hi [Hp Hn]. rewrite He by (auto; intros; apply norm_empty; auto). f_equal. unfold gsum, Mv. apply over_rest_ext; [assumption|].
  intros; apply gval_1.
Qed.
Lemma v_stats C : has_v C = false ->
  exists s sk ku ek, get_dispersion (par_obj L (Fin 1) self) (dname V_v C) lw = Ok s /\
    get_skewness (par_obj L (Fin 1) self) (dname V_v C) lw = Ok sk /\ get_kurtosis (par_obj L (Fin 1) self) (dname V_v C) lw = Ok ku /\
    get_excess_kurtosis (Fin 1) (par_obj L (Fin 1) self) (dname V_v C) lw = Ok ek /\
    shp s = dims C g /\ shp sk = dims C g /\ shp ku = dims C g /\ shp ek = dims C g /\
    forall i, in_grid g i -> par_there C i ->
      ent s (coords C i) = Fin (sqrt (Mv C i 2)) /\ ent sk (coords C i) = Fin (Mv C i 3 / sqrt (Mv C i 2) ^ 3) /\
      ent ku (coords C i) = Fin (Mv C i 4 / sqrt (Mv C i 2) ^ 4) /\ ent ek (coords C i) = Fin (Mv C i 4 / sqrt (Mv C i 2) ^ 4 - 3).
Proof.
  intros Hv. destruct (central_Mv C 2 Hv) as (v & Ev & Sv & Hve). destruct (central_Mv C 3 Hv) as (m3 & E3 & S3 & H3). destruct (central_Mv C 4 Hv) as (m4 & E4 & S4 & H4).
  destruct (nrm_arr m3 v _ 3 S3 Sv) as (sk & Esk & Ssk & Hsk). destruct (nrm_arr m4 v _ 4 S4 Sv) as (ku & Eku & Sku & Hku).
  destruct (bop_is nsub ku (scal (get_normalised_central_moment_normal (Fin 1) 4)) _ _ _ _ (dims C g) (self_is ku _ Sku) (scal_is _) (bshape_nil_r _)) as (ek & Eek & Sek & Hek).
  exists (amap nsqrt v), sk, ku, ek.
  assert (K2 : get_dispersion (par_obj L (Fin 1) self) (dname V_v C) lw = Ok (amap nsqrt v)) by (unfold get_dispersion; rewrite Ev; reflexivity).
  assert (K4 : get_kurtosis (par_obj L (Fin 1) self) (dname V_v C) lw = Ok ku).
  { unfold get_kurtosis, get_normalised_central_moment. rewrite E4, K2. exact Eku. }
  split; [exact K2|]. split; [unfold get_skewness, get_normalised_central_moment; rewrite E3, K2; exact Esk|].
  split; [exact K4|]. split; [unfold get_excess_kurtosis, get_excess_central_moment; unfold get_kurtosis in K4; rewrite K4; exact Eek|].
  do 4 (split; [assumption|]). intros i Hi Ht. assert (Hin : inb (coords C i) (dims C g)) by (apply coords_inb; assumption).
  pose proof (Mv_2_pos C Hv i Hi (proj1 Ht)) as VP.
  rewrite Hek, bidx_self by assumption. rewrite Hku, Hsk by assumption. cbn [amap ent].
  rewrite (Hve i Hi Ht), (H3 i Hi Ht), (H4 i Hi Ht), !nrm_pos, nsqrt_Fin by (exact VP || lra).
  do 3 (split; [reflexivity|]). cbn -[pow]. rewrite nsub_Fin. f_equal. cbn. lra.
Qed.
Lemma par_v_shape C : has_v C = false ->
  exists s sk ku ek, get_dispersion (par_obj L (Fin 1) self) (dname V_v C) lw = Ok s /\
    get_skewness (par_obj L (Fin 1) self) (dname V_v C) lw = Ok sk /\ get_kurtosis (par_obj L (Fin 1) self) (dname V_v C) lw = Ok ku /\
    get_excess_kurtosis (Fin 1) (par_obj L (Fin 1) self) (dname V_v C) lw = Ok ek /\
    shp s = dims C g /\ shp sk = dims C g /\ shp ku = dims C g /\ shp ek = dims C g /\
    forall i, in_grid g i -> 0 < par_prob g m lw C i -> (nonempty C = false -> lw = false -> par_prob g m false no_vars i = 1) ->
      let V := v_variance g m lw C i in let c := mixture_mean g m lw C i in
      exists T K, mixture_moment g m lw C i c 2 V /\ mixture_moment g m lw C i c 3 T /\ mixture_moment g m lw C i c 4 K /\
        0 < V /\ ent s (coords C i) = Fin (sqrt V) /\ ent sk (coords C i) = Fin (T / sqrt V ^ 3) /\
        ent ku (coords C i) = Fin (K / sqrt V ^ 4) /\ ent ek (coords C i) = Fin (K / sqrt V ^ 4 - 3) /\
        (T / sqrt V ^ 3) ^ 2 + 1 < K / sqrt V ^ 4.
Proof.
  intros Hv. destruct (v_stats C Hv) as (s & sk & ku & ek & E1 & E2 & E3 & E4 & S1 & S2 & S3 & S4 & He).
  exists s, sk, ku, ek. do 8 (split; [assumption|]). intros i Hi Hp Hn V c.
  destruct (He i Hi (conj Hp Hn)) as (A1 & A2 & A3 & A4). pose proof (Mv_2 C i) as E0. fold V in E0.
  pose proof (Mv_2_pos C Hv i Hi Hp) as VP. pose proof (Mv_kurt C Hv i Hi Hp) as VK. rewrite E0 in *.
  exists (Mv C i 3), (Mv C i 4). split; [rewrite <- E0; apply Mv_ok|]. split; [apply Mv_ok|]. split; [apply Mv_ok|].
  do 5 (split; [assumption|]). exact VK.
Qed.
Lemma par_v_one_mean C : has_v C = false ->
  exists sk ku ek, get_skewness (par_obj L (Fin 1) self) (dname V_v C) lw = Ok sk /\ get_kurtosis (par_obj L (Fin 1) self) (dname V_v C) lw = Ok ku /\
    get_excess_kurtosis (Fin 1) (par_obj L (Fin 1) self) (dname V_v C) lw = Ok ek /\
    forall i, in_grid g i -> 0 < par_prob g m lw C i -> (nonempty C = false -> lw = false -> par_prob g m false no_vars i = 1) ->
      (forall b, In b (bins_over g (rest C) i) -> 0 < weight g m lw C i b -> pm_mu m (bt b) (bx b) (by_ b) = mixture_mean g m lw C i) ->
      exists k, ent sk (coords C i) = Fin 0 /\ ent ku (coords C i) = Fin k /\ ent ek (coords C i) = Fin (k - 3) /\ 3 <= k /\
        (k = 3 <-> forall b, In b (bins_over g (rest C) i) -> 0 < weight g m lw C i b ->
                   pm_sig m (bt b) (bx b) (by_ b) ^ 2 = v_variance g m lw C i).
Proof.
  intros Hv. destruct (v_stats C Hv) as (s & sk & ku & ek & E1 & E2 & E3 & E4 & S1 & S2 & S3 & S4 & He).
  exists sk, ku, ek. do 3 (split; [assumption|]). intros i Hi Hp Hn Ho.
  destruct (He i Hi (conj Hp Hn)) as (A1 & A2 & A3 & A4). pose proof (one_mean_3 C Hv i Hi Hp Ho) as O3. destruct (one_mean_4 C Hv i Hi Hp Ho) as [O4 O5].
  pose proof (Mv_2_pos C Hv i Hi Hp) as VP. pose proof (Mv_2 C i) as E0. rewrite <- E0 in *. clear E0.
  exists (Mv C i 4 / sqrt (Mv C i 2) ^ 4). rewrite O3 in A2. split; [rewrite A2; f_equal; unfold Rdiv; ring|]. do 2 (split; [assumption|]).
  pose proof (sqrt_sqrt (Mv C i 2) ltac:(lra)) as S. replace (sqrt (Mv C i 2) ^ 4) with (Mv C i 2 ^ 2) by (rewrite <- S at 1; ring).
  assert (V2 : 0 < Mv C i 2 ^ 2) by (apply pow_lt; exact VP). split.
  - apply Rmult_le_reg_r with (Mv C i 2 ^ 2); [exact V2|]. replace (Mv C i 4 / Mv C i 2 ^ 2 * Mv C i 2 ^ 2) with (Mv C i 4) by (field; lra). exact O4.
  - rewrite <- O5. split; intros K.
    + rewrite <- K. field. lra.
    + rewrite K. field. lra.
Qed.
Lemma par_v_given_tx C : has_v C = false -> has_t C = true -> has_x C = true ->
  exists s sk ku ek, get_dispersion (par_obj L (Fin 1) self) (dname V_v C) lw = Ok s /\
    get_skewness (par_obj L (Fin 1) self) (dname V_v C) lw = Ok sk /\ get_kurtosis (par_obj L (Fin 1) self) (dname V_v C) lw = Ok ku /\
    get_excess_kurtosis (Fin 1) (par_obj L (Fin 1) self) (dname V_v C) lw = Ok ek /\
    forall i, in_grid g i -> 0 < par_prob g m lw C i ->
      ent s (coords C i) = Fin (pm_sig m (bt i) (bx i) (by_ i)) /\ ent sk (coords C i) = Fin 0 /\
      ent ku (coords C i) = Fin 3 /\ ent ek (coords C i) = Fin 0.
Proof.
  intros Hv Et Ex. destruct (v_stats C Hv) as (s & sk & ku & ek & E1 & E2 & E3 & E4 & S1 & S2 & S3 & S4 & He).
  exists s, sk, ku, ek. do 4 (split; [assumption|]). intros i Hi Hp.
  destruct (He i Hi) as (A1 & A2 & A3 & A4). { split; [exact Hp|]. intros K. destruct C as [[] ? ? ?]; [discriminate K|discriminate Et]. }
  assert (EG : forall G, over_rest g m lw C i G = G (bt i) (bx i) (by_ i)).
  { intros G. unfold over_rest, sum_over, rest, weight. rewrite Et, Ex. cbn -[par_prob].
    replace (union (rest C) C) with C by (destruct C as [[] [] [] []]; try discriminate Et; try discriminate Ex; reflexivity).
    destruct i as [t v x y z]. cbn [bt bv bx by_ bz]. field. apply Rgt_not_eq. exact Hp. }
  assert (EMn : mixture_mean g m lw C i = pm_mu m (bt i) (bx i) (by_ i)) by apply EG.
  assert (EM : forall j, Mv C i j = gmom 0 (pm_sig m (bt i) (bx i) (by_ i)) j).
  { intros j. unfold Mv. rewrite EG, EMn, Rminus_eq_0. reflexivity. }
  assert (SP : 0 < pm_sig m (bt i) (bx i) (by_ i)). { destruct Hi as (? & _ & ? & ? & _). apply (gp_sig _ _ Hm); assumption. }
  rewrite !EM, gmom_2 in *. rewrite gmom_3 in A2. rewrite gmom_4 in A3, A4. set (q := pm_sig m (bt i) (bx i) (by_ i)) in *.
  assert (Q : sqrt (0 ^ 2 + q ^ 2) = q). { replace (0 ^ 2 + q ^ 2) with (q * q) by ring. apply sqrt_square. lra. }
  rewrite Q in *. split; [exact A1|]. split; [rewrite A2; f_equal; field; lra|].
  split; [rewrite A3; f_equal; field; lra|]. rewrite A4; f_equal; field; lra.
Qed.
End Claims.
