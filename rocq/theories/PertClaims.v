(** * PertClaims: components with nearby densities (claim C107). *)
From Coq Require Import Reals Lra Lia List Bool Arith ZArith String Ascii.
From Verif Require Import Num NumLemmas Arr ArrLemmas PyStr Cube Base Spec SpecLemmas Repr CubeLemmas BaseLemmas CondLemmas DistLemmas
  Moments MomSpec MomLemmas MomLemmas2 Stat MomLemmas3 MomLemmas4 MomClaims Mixture MixSpec MixLemmas MixClaims MixCond
  Datacube DatacubeSpec DatacubeLemmas DatacubeMain DatacubeClaims PertSpec Pert.
Import ListNotations.
Local Open Scope R_scope.

(** ** light *)
Lemma lit_apart g P P' : good_grid g -> nonneg g P -> nonneg g P' -> 0 < total g (lit g P) -> 0 < total g (lit g P') ->
  forall M i, in_grid g i -> (forall t z, (t < nt g)%nat -> (z < nz g)%nat -> Lw g t z <= M) ->
  apart g all_vars i (marg g (light g P) all_vars) (marg g (light g P') all_vars) <=
  2 * M / total g (lit g P) * apart g all_vars i (marg g P all_vars) (marg g P' all_vars).
Proof.
  intros Hg HP HP' HT HT' M i Hi HM. set (T := total g (lit g P)) in *. set (T' := total g (lit g P')) in *.
  set (a := fun j => lit g P (bt j) (bv j) (bx j) (by_ j) (bz j)). set (a' := fun j => lit g P' (bt j) (bv j) (bx j) (by_ j) (bz j)).
  assert (E : sumR (map a (bins_over g all_vars i)) = T) by (rewrite sum_bins_over; exact (marg_total_sum g (lit g P) all_vars i)).
  assert (E' : sumR (map a' (bins_over g all_vars i)) = T') by (rewrite sum_bins_over; exact (marg_total_sum g (lit g P') all_vars i)).
  assert (HB : forall j, In j (bins_over g all_vars i) -> in_grid g j) by (intros j Hj; apply (bins_over_in g all_vars i j Hi Hj)).
  rewrite !apart_list. eapply Rle_trans; [exact (quotients_apart a a' (bins_over g all_vars i) T T'
    ltac:(intros j Hj; destruct (HB j Hj) as (H1 & H2 & H3 & H4 & H5); unfold a', lit; apply Rmult_le_pos; [apply HP'; assumption|apply (gg_L g Hg); assumption])
    HT HT' E E')|].
  assert (B : sumR (map (fun j => Rabs (a j - a' j)) (bins_over g all_vars i)) <=
    M * sumR (map (fun j => Rabs (marg g P all_vars j - marg g P' all_vars j)) (bins_over g all_vars i))).
  { rewrite <- sumR_map_scal. apply sumR_map_le. intros j Hj. destruct (HB j Hj) as (H1 & H2 & H3 & H4 & H5).
    rewrite !marg_all. unfold a, a', lit. rewrite <- Rmult_minus_distr_r, Rabs_mult, Rmult_comm.
    apply Rmult_le_compat_r; [apply Rabs_pos|]. rewrite Rabs_pos_eq by (apply (gg_L g Hg); assumption). apply HM; assumption. }
  replace (2 * M / T) with (2 / T * M) by (field; lra). unfold Rdiv at 1. rewrite (Rmult_comm (2 * _)), <- Rmult_assoc, (Rmult_comm (/ T)).
  change (2 * / T) with (2 / T). rewrite Rmult_assoc. apply Rmult_le_compat_l; [|exact B].
  unfold Rdiv. apply Rmult_le_pos; [lra|left; apply Rinv_0_lt_compat; exact HT].
Qed.

Section Two.
Context (self self' : component) (g : grid) (f f' : joint) (lw : bool).
Context (H : comp_on self g f) (H' : comp_on self' g f') (Hg : good_grid g) (Hf : nonneg g f) (Hf' : nonneg g f').
Context (Hl : lw_ok g f lw) (Hl' : lw_ok g f' lw).
Let P := prob g f lw.
Let P' := prob g f' lw.
Let HP : nonneg g P := prob_nonneg g f lw Hg Hf Hl.
Let HP' : nonneg g P' := prob_nonneg g f' lw Hg Hf' Hl'.

Lemma read_marg c h : comp_on c g h -> nonneg g h -> lw_ok g h lw -> forall S, nonempty S = true ->
  exists p, get_p c (name S) false lw = Ok p /\ reads g p S (marg g (prob g h lw) S).
Proof.
  intros Hc Hh Hlh S HS. destruct (get_p_marg c g h Hc Hg Hh S false lw HS Hlh) as (p & E & _ & V).
  exists p. split; [exact E|]. intros i Hi. rewrite (V i Hi). f_equal. field.
Qed.
Lemma marg_claim A C : nonempty C = true -> disjoint A C = true ->
  exists p p' q q' r r' s s', get_p self (name (union A C)) false lw = Ok p /\ get_p self' (name (union A C)) false lw = Ok p' /\
    get_p self (name C) false lw = Ok q /\ get_p self' (name C) false lw = Ok q' /\
    reads g p (union A C) r /\ reads g p' (union A C) r' /\ reads g q C s /\ reads g q' C s' /\
    forall i, in_grid g i -> Rabs (s i - s' i) <= apart g A i r r' /\ apart g C i s s' <= apart g (union A C) i r r'.
Proof.
  intros HC HD. assert (HU : nonempty (union A C) = true) by (rewrite union_comm; apply nonempty_union, HC).
  destruct (read_marg self f H Hf Hl _ HU) as (p & Ep & Vp). destruct (read_marg self' f' H' Hf' Hl' _ HU) as (p' & Ep' & Vp').
  destruct (read_marg self f H Hf Hl _ HC) as (q & Eq & Vq). destruct (read_marg self' f' H' Hf' Hl' _ HC) as (q' & Eq' & Vq').
  exists p, p', q, q', (marg g P (union A C)), (marg g P' (union A C)), (marg g P C), (marg g P' C).
  do 8 (split; [assumption|]). intros i Hi. split; [apply marg_apart_at, HD|apply marg_apart, HD].
Qed.

Definition column (Q : joint) (A C : vset) (i : bin) : bin -> R := cw g Q A C i.
Lemma read_given c h A C : comp_on c g h -> nonneg g h -> lw_ok g h lw -> nonempty A = true -> disjoint A C = true ->
  (nonempty C = false -> total g (prob g h lw) = 1) ->
  exists p, get_p c (dname A C) false lw = Ok p /\
    forall i, in_grid g i -> 0 < marg g (prob g h lw) C i -> reads_given g p A C i (column (prob g h lw) A C i).
Proof.
  intros Hc Hh Hlh HA HD HT. destruct (base_gives c g h lw A C Hc Hg Hh Hlh HA HD HT) as (p & E & _ & V).
  exists p. split; [exact E|]. intros i Hi Hm j Hj. destruct (bins_over_in g A i j Hi Hj) as (Hj' & Ha).
  assert (Ac : agree C j i).
  { eapply agree_subset; [|exact Ha]. revert HD. destruct A as [[] [] [] []], C as [[] [] [] []]; cbn; intros; try discriminate; reflexivity. }
  rewrite <- (coords_agree C j i Ac). unfold column, cw. rewrite <- (marg_agree g _ C j i Ac). apply (V j Hj').
  rewrite (marg_agree g _ C j i Ac). exact Hm.
Qed.
Lemma cond_apart A C i : disjoint A C = true -> in_grid g i -> 0 < marg g P C i -> 0 < marg g P' C i ->
  apart g A i (column P A C i) (column P' A C i) <= 2 * apart g A i (marg g P (union A C)) (marg g P' (union A C)) / marg g P C i.
Proof.
  intros HD Hi Hm Hm'. rewrite !apart_list. unfold column, cw. apply quotients_apart; try assumption.
  - intros j Hj. apply marg_nonneg; [apply (bins_over_in g A i j Hi Hj)|exact HP'].
  - rewrite sum_bins_over. apply sum_over_marg, HD.
  - rewrite sum_bins_over. apply sum_over_marg, HD.
Qed.
Lemma cond_claim A C : nonempty A = true -> nonempty C = true -> disjoint A C = true ->
  exists p p' q q' r r' , get_p self (name (union A C)) false lw = Ok p /\ get_p self' (name (union A C)) false lw = Ok p' /\
    get_p self (cname A C) false lw = Ok q /\ get_p self' (cname A C) false lw = Ok q' /\
    reads g p (union A C) r /\ reads g p' (union A C) r' /\
    forall i, in_grid g i -> 0 < marg g (prob g f lw) C i -> 0 < marg g (prob g f' lw) C i ->
      exists s s', reads_given g q A C i s /\ reads_given g q' A C i s' /\
        apart g A i s s' <= 2 * apart g A i r r' / marg g (prob g f lw) C i.
Proof.
  intros HA HC HD. pose proof (nonempty_union A C HA) as HU.
  destruct (read_marg self f H Hf Hl _ HU) as (p & Ep & Vp). destruct (read_marg self' f' H' Hf' Hl' _ HU) as (p' & Ep' & Vp').
  assert (K : forall X : Prop, nonempty C = false -> X) by (intros; congruence).
  destruct (read_given self f A C H Hf Hl HA HD (K _)) as (q & Eq & Vq).
  destruct (read_given self' f' A C H' Hf' Hl' HA HD (K _)) as (q' & Eq' & Vq').
  unfold dname in Eq, Eq'. rewrite HC in Eq, Eq'.
  exists p, p', q, q', (marg g P (union A C)), (marg g P' (union A C)). do 6 (split; [assumption|]).
  intros i Hi Hm Hm'. exists (column P A C i), (column P' A C i). split; [apply Vq; assumption|]. split; [apply Vq'; assumption|].
  apply cond_apart; assumption.
Qed.

(** ** means and variances *)
Lemma E_apart k C i (h : bin -> R) lo hi : disjoint (cvar k) C = true -> in_grid g i -> 0 < marg g P C i -> 0 < marg g P' C i ->
  (forall j, in_grid g j -> lo <= h j <= hi) ->
  Rabs (Ex g P (cvar k) C h i - Ex g P' (cvar k) C h i) <= (hi - lo) / 2 * apart g (cvar k) i (column P (cvar k) C i) (column P' (cvar k) C i).
Proof.
  intros HD Hi Hm Hm' Hh. rewrite !Ex_E, apart_list. unfold E. apply averages_apart.
  - intros j Hj. apply Hh, (bins_over_in g (cvar k) i j Hi Hj).
  - unfold column. rewrite !cw_sum by assumption. reflexivity.
Qed.
Lemma mean_apart k C i : disjoint (cvar k) C = true -> in_grid g i -> 0 < marg g P C i -> 0 < marg g P' C i ->
  Rabs (Mean g P k C i - Mean g P' k C i) <= span g k / 2 * apart g (cvar k) i (column P (cvar k) C i) (column P' (cvar k) C i).
Proof. intros HD Hi Hm Hm'. apply (E_apart k C i (cmid g k)); try assumption. intros j Hj. apply cmid_range; assumption. Qed.

Lemma var_least {A} (l : list A) w h m : sumR (map w l) = 1 -> Var l w h <= E l w (fun j => (h j - m) ^ 2).
Proof.
  intros Hw. rewrite Var_eq by exact Hw.
  rewrite (E_ext l w (fun j => (h j - m) ^ 2) (fun j => h j ^ 2 + ((-2 * m) * h j + m ^ 2))) by (intros; ring).
  rewrite E_plus, E_plus, E_scal, E_const by exact Hw. pose proof (pow2_ge_0 (E l w h - m)). nra.
Qed.
Lemma sq_range x m lo hi : lo <= x <= hi -> lo <= m <= hi -> 0 <= (x - m) ^ 2 <= (hi - lo) ^ 2.
Proof. intros. split; [apply pow2_ge_0|]. assert (0 <= (hi - lo - (x - m)) * (hi - lo + (x - m))) by (apply Rmult_le_pos; lra). nra. Qed.
End Two.

Lemma var_half g k C i P P' : good_grid g -> nonneg g P -> nonneg g P' -> disjoint (cvar k) C = true -> in_grid g i -> 0 < marg g P C i -> 0 < marg g P' C i ->
  Variance g P k C i - Variance g P' k C i <= span g k ^ 2 / 2 * apart g (cvar k) i (cw g P (cvar k) C i) (cw g P' (cvar k) C i).
Proof.
  intros Hg HP HP' HD Hi Hm Hm'. rewrite !Variance_E.
  set (l := bins_over g (cvar k) i). set (w := cw g P (cvar k) C i). set (w' := cw g P' (cvar k) C i).
  assert (W : sumR (map w l) = 1) by (apply cw_sum; assumption). assert (W' : sumR (map w' l) = 1) by (apply cw_sum; assumption).
  pose proof (Mean_bounds g P' HP' k C i _ _ HD Hi Hm' (fun j Hj => cmid_range g k j Hg Hj)) as MB.
  change (Mean g P' k C i) with (Ex g P' (cvar k) C (cmid g k) i) in MB. rewrite Ex_E in MB. fold l w' in MB.
  set (m := E l w' (cmid g k)) in *.
  pose proof (var_least l w (cmid g k) m W) as V.
  pose proof (averages_apart (fun j => (cmid g k j - m) ^ 2) w w' l 0 (span g k ^ 2)) as B.
  assert (B' := B ltac:(intros j Hj; apply sq_range; [apply cmid_range; [exact Hg|apply (bins_over_in g (cvar k) i j Hi Hj)]|exact MB]) ltac:(congruence)). clear B. cbv beta in B'.
  rewrite apart_list. fold l.
  change (Var l w' (cmid g k)) with (E l w' (fun j => (cmid g k j - m) ^ 2)).
  change (sumR (map (fun j => (cmid g k j - m) ^ 2 * w j) l)) with (E l w (fun j => (cmid g k j - m) ^ 2)) in B'.
  change (sumR (map (fun j => (cmid g k j - m) ^ 2 * w' j) l)) with (E l w' (fun j => (cmid g k j - m) ^ 2)) in B'.
  pose proof (Rle_abs (E l w (fun j => (cmid g k j - m) ^ 2) - E l w' (fun j => (cmid g k j - m) ^ 2))). lra.
Qed.

Section Stats.
Context (self self' : component) (g : grid) (f f' : joint) (lw : bool).
Context (H : comp_on self g f) (H' : comp_on self' g f') (Hg : good_grid g) (Hf : nonneg g f) (Hf' : nonneg g f').
Context (Hl : lw_ok g f lw) (Hl' : lw_ok g f' lw).
Let HP : nonneg g (prob g f lw) := prob_nonneg g f lw Hg Hf Hl.
Let HP' : nonneg g (prob g f' lw) := prob_nonneg g f' lw Hg Hf' Hl'.
Lemma apart_sym S i r r' : apart g S i r r' = apart g S i r' r.
Proof. rewrite !apart_list. apply sumR_map_ext. intros; apply Rabs_minus_sym. Qed.
Lemma stats_claim k C : disjoint (cvar k) C = true ->
  (nonempty C = false -> total g (prob g f lw) = 1) -> (nonempty C = false -> total g (prob g f' lw) = 1) ->
  exists q q' m m' v v', get_p self (dname (cvar k) C) false lw = Ok q /\ get_p self' (dname (cvar k) C) false lw = Ok q' /\
    get_mean (base_obj self) (dname (cvar k) C) lw = Ok m /\ get_mean (base_obj self') (dname (cvar k) C) lw = Ok m' /\
    get_variance (base_obj self) (dname (cvar k) C) lw = Ok v /\ get_variance (base_obj self') (dname (cvar k) C) lw = Ok v' /\
    forall i, in_grid g i -> 0 < marg g (prob g f lw) C i -> 0 < marg g (prob g f' lw) C i ->
      exists s s' M M' V V', reads_given g q (cvar k) C i s /\ reads_given g q' (cvar k) C i s' /\
        ent m (mcoords k C i) = Fin M /\ ent m' (mcoords k C i) = Fin M' /\
        ent v (mcoords k C i) = Fin V /\ ent v' (mcoords k C i) = Fin V' /\
        Rabs (M - M') <= span g k / 2 * apart g (cvar k) i s s' /\
        Rabs (V - V') <= span g k ^ 2 / 2 * apart g (cvar k) i s s'.
Proof.
  intros HD HT HT'.
  destruct (read_given g lw Hg self f (cvar k) C H Hf Hl (cvar_nonempty k) HD HT) as (q & Eq & Vq).
  destruct (read_given g lw Hg self' f' (cvar k) C H' Hf' Hl' (cvar_nonempty k) HD HT') as (q' & Eq' & Vq').
  destruct (mean_claim self g f lw H Hg Hf Hl k C HD HT) as (m & Em & _ & Vm).
  destruct (mean_claim self' g f' lw H' Hg Hf' Hl' k C HD HT') as (m' & Em' & _ & Vm').
  destruct (variance_claim self g f lw H Hg Hf Hl k C HD HT) as (v & s0 & Ev & _ & _ & _ & Vv).
  destruct (variance_claim self' g f' lw H' Hg Hf' Hl' k C HD HT') as (v' & s0' & Ev' & _ & _ & _ & Vv').
  exists q, q', m, m', v, v'. do 6 (split; [assumption|]). intros i Hi Hm Hm'.
  destruct (Vv i Hi Hm) as (V & EV & _ & DV & _). destruct (Vv' i Hi Hm') as (V' & EV' & _ & DV' & _).
  exists (column g (prob g f lw) (cvar k) C i), (column g (prob g f' lw) (cvar k) C i),
    (Mean g (prob g f lw) k C i), (Mean g (prob g f' lw) k C i), V, V'.
  split; [apply Vq; assumption|]. split; [apply Vq'; assumption|].
  split; [apply (Vm i Hi), Hm|]. split; [apply (Vm' i Hi), Hm'|]. split; [exact EV|]. split; [exact EV'|].
  split; [apply (mean_apart g f f' lw Hg k C i HD Hi Hm Hm')|].
  assert (X : V = Variance g (prob g f lw) k C i).
  { rewrite DV, Variance_E, Var_eq by (apply cw_sum; assumption). unfold Mean. rewrite !Ex_E. reflexivity. }
  assert (X' : V' = Variance g (prob g f' lw) k C i).
  { rewrite DV', Variance_E, Var_eq by (apply cw_sum; assumption). unfold Mean. rewrite !Ex_E. reflexivity. }
  rewrite X, X'. apply Rabs_le. unfold column. split.
  - rewrite apart_sym. pose proof (var_half g k C i _ _ Hg HP' HP HD Hi Hm' Hm). lra.
  - apply var_half; assumption.
Qed.
End Stats.

(** ** mixtures: members and weights may differ *)
Lemma mix_marg g (l : parts) S i : in_grid g i ->
  marg g (mass g (mixf l)) S i = Sum (List.length l) (fun k => pw l k * marg g (mass g (pf l k)) S i).
Proof.
  intros Hi. rewrite (marg_ext g _ _ S i Hi (mass_mixf g l)), marg_Sum. apply Sum_ext. intros; apply marg_scal.
Qed.
Lemma sum_over_Sum g S i n (F : nat -> bin -> R) : sum_over g S i (fun j => Sum n (fun k => F k j)) = Sum n (fun k => sum_over g S i (F k)).
Proof.
  induction n as [|n IH].
  - cbn [Sum]. rewrite <- sum_bins_over. induction (bins_over g S i) as [|b bs IHb]; [reflexivity|]. cbn in *. unfold sumR in *. lra.
  - cbn [Sum]. rewrite <- IH. transitivity (sum_over g S i (fun j => 1 * Sum n (fun k => F k j) + 1 * F n j)).
    + rewrite <- !sum_bins_over. apply sumR_map_ext. intros; ring.
    + rewrite sum_over_lin. ring.
Qed.
Lemma Sum_Rabs n F : Rabs (Sum n F) <= Sum n (fun k => Rabs (F k)).
Proof. induction n as [|n IH]; cbn [Sum]; [rewrite Rabs_R0; lra|]. eapply Rle_trans; [apply Rabs_triang|]. lra. Qed.
Lemma mix_apart g (l l' : parts) S i : good_grid g -> in_grid g i -> List.length l' = List.length l ->
  (forall k, (k < List.length l)%nat -> 0 <= pw l k /\ nonneg g (pf l' k)) ->
  apart g S i (marg g (mass g (mixf l)) S) (marg g (mass g (mixf l')) S) <=
  Sum (List.length l) (fun k => pw l k * apart g S i (marg g (mass g (pf l k)) S) (marg g (mass g (pf l' k)) S) +
                                Rabs (pw l k - pw l' k) * total g (mass g (pf l' k))).
Proof.
  intros Hg Hi En Hp.
  eapply Rle_trans with (sum_over g S i (fun j => Sum (List.length l) (fun k =>
     pw l k * Rabs (marg g (mass g (pf l k)) S j - marg g (mass g (pf l' k)) S j) +
     Rabs (pw l k - pw l' k) * marg g (mass g (pf l' k)) S j))).
  - unfold apart. apply sum_over_le. intros j Hj. destruct (bins_over_in g S i j Hi Hj) as (Hj' & _).
    rewrite !mix_marg, En, <- Sum_minus by assumption. eapply Rle_trans; [apply Sum_Rabs|]. apply Sum_le. intros k Hk.
    destruct (Hp k Hk) as (P1 & P2).
    replace (pw l k * marg g (mass g (pf l k)) S j - pw l' k * marg g (mass g (pf l' k)) S j)
      with (pw l k * (marg g (mass g (pf l k)) S j - marg g (mass g (pf l' k)) S j) + (pw l k - pw l' k) * marg g (mass g (pf l' k)) S j) by ring.
    eapply Rle_trans; [apply Rabs_triang|]. rewrite !Rabs_mult, (Rabs_pos_eq (pw l k)) by exact P1.
    rewrite (Rabs_pos_eq (marg g (mass g (pf l' k)) S j)); [apply Rle_refl|]. apply marg_nonneg; [exact Hj'|apply mass_nonneg; assumption].
  - rewrite sum_over_Sum. apply Sum_le. intros k Hk. rewrite sum_over_lin, marg_total_sum. apply Rle_refl.
Qed.
Lemma mix_read self g comps l : mix_on self g comps l -> good_grid g -> forall S, nonempty S = true ->
  exists p, mix_get_p self (name S) true false false = Ok p /\ reads g p S (marg g (mass g (mixf l)) S).
Proof.
  intros H Hg S HS. destruct (marg_split self g comps l H Hg S false false HS ltac:(discriminate)) as (a & b & Ea & _ & _ & _ & V).
  exists a. split; [exact Ea|]. intros i Hi. destruct (V i Hi) as (V1 & V2). rewrite <- V2.
  rewrite (nsum_map_Fin _ (fun k => pw l k * marg g (mass g (pf l k)) S i)).
  - rewrite sumR_map_seq, mix_marg by exact Hi. reflexivity.
  - intros k Hk. apply in_seq in Hk. rewrite (V1 k) by lia. f_equal. unfold share. rewrite marg_scal. field.
Qed.
Lemma mix_claim self self' g comps comps' l l' : mix_on self g comps l -> mix_on self' g comps' l' -> good_grid g ->
  List.length l' = List.length l -> forall S, nonempty S = true ->
  exists p p' r r', mix_get_p self (name S) true false false = Ok p /\ mix_get_p self' (name S) true false false = Ok p' /\
    reads g p S r /\ reads g p' S r' /\
    (forall k c c', nth_error comps k = Some c -> nth_error comps' k = Some c' -> exists q q', get_p c (name S) false false = Ok q /\
       get_p c' (name S) false false = Ok q' /\ reads g q S (marg g (mass g (pf l k)) S) /\ reads g q' S (marg g (mass g (pf l' k)) S)) /\
    forall i, in_grid g i -> apart g S i r r' <=
      Sum (List.length l) (fun k => pw l k * apart g S i (marg g (mass g (pf l k)) S) (marg g (mass g (pf l' k)) S) +
                                    Rabs (pw l k - pw l' k) * total g (mass g (pf l' k))).
Proof.
  intros H H' Hg En S HS. destruct (mix_read self g comps l H Hg S HS) as (p & Ep & Vp).
  destruct (mix_read self' g comps' l' H' Hg S HS) as (p' & Ep' & Vp').
  exists p, p', (marg g (mass g (mixf l)) S), (marg g (mass g (mixf l')) S). do 4 (split; [assumption|]).
  assert (M : forall s cs ps, mix_on s g cs ps -> forall k, (k < List.length ps)%nat -> exists c, nth_error cs k = Some c /\
    comp_on c g (pf ps k) /\ nonneg g (pf ps k) /\ 0 < pw ps k).
  { intros s cs ps Hs k Hk. destruct (nth_error cs k) as [c|] eqn:Ec; [|apply nth_error_None in Ec; rewrite (mo_len _ _ _ _ Hs) in Ec; lia].
    destruct (nth_error ps k) as [q|] eqn:Eq; [|apply nth_error_None in Eq; lia].
    exists c. split; [reflexivity|]. unfold pf, pw. rewrite (nth_error_nth _ _ _ Eq). apply (mo_comp _ _ _ _ Hs k c q Ec Eq). }
  split.
  - intros k c c' Ec Ec'. assert (Hk : (k < List.length l)%nat).
    { rewrite <- (mo_len _ _ _ _ H). apply nth_error_Some. congruence. }
    destruct (M _ _ _ H k Hk) as (c0 & E0 & C1 & C2 & _). destruct (M _ _ _ H' k ltac:(lia)) as (c0' & E0' & C1' & C2' & _).
    rewrite Ec in E0. rewrite Ec' in E0'. injection E0 as <-. injection E0' as <-.
    destruct (read_marg g false Hg c _ C1 C2 ltac:(discriminate) S HS) as (q & Eq & Vq).
    destruct (read_marg g false Hg c' _ C1' C2' ltac:(discriminate) S HS) as (q' & Eq' & Vq').
    exists q, q'. repeat split; assumption.
  - intros i Hi. apply mix_apart; try assumption. intros k Hk.
    destruct (M _ _ _ H k Hk) as (_ & _ & _ & _ & W). destruct (M _ _ _ H' k ltac:(lia)) as (_ & _ & _ & N & _). split; [lra|exact N].
Qed.

(** ** the datacube *)
Lemma cube_apart W self self' g f f' n dv S v0 batch batch' M : evaluable self g f n dv S v0 -> evaluable self' g f' n dv S v0 ->
  is_batch batch -> is_batch batch' -> (0 < n)%nat -> nv g = n -> identity_on_knots W (n / 2 + 1) ->
  (forall t z w, (t < nt g)%nat -> (z < nz g)%nat -> (w < n)%nat -> Rabs (S t z w) <= M) ->
  exists y y', evaluate_ybar W self batch = Ok y /\ evaluate_ybar W self' batch' = Ok y' /\
    forall w i j, (w < n)%nat -> (i < nx g)%nat -> (j < ny g)%nat -> exists u u', ent y [w; i; j] = Fin u /\ ent y' [w; i; j] = Fin u' /\
      Rabs (u - u') <= M * Sum (nt g) (fun t => Sum (nz g) (fun z => Sum (nv g) (fun v => Rabs (bin_prob g f dv t i j z v - bin_prob g f' dv t i j z v)))).
Proof.
  intros Ev Ev' Hb Hb' Hn Hv HW HM. destruct (evaluate_claim W self g f n dv S v0 batch Ev Hb) as (y & Ey & _ & Vy).
  destruct (evaluate_claim W self' g f' n dv S v0 batch' Ev' Hb') as (y' & Ey' & _ & Vy').
  exists y, y'. split; [exact Ey|]. split; [exact Ey'|]. intros w i j Hw Hi Hj.
  exists (datacube W g f n dv v0 S w i j), (datacube W g f' n dv v0 S w i j). split; [apply Vy; assumption|]. split; [apply Vy'; assumption|].
  assert (V0 : (v0 < nv g)%nat) by apply (vo_in _ _ _ _ (ev_velocity _ _ _ _ _ _ _ Ev)).
  rewrite !convolution_claim by assumption. rewrite <- Sum_minus. eapply Rle_trans; [apply Sum_Rabs|]. rewrite <- Sum_scal. apply Sum_le. intros t Ht.
  rewrite <- Sum_minus. eapply Rle_trans; [apply Sum_Rabs|]. rewrite <- Sum_scal. apply Sum_le. intros z Hz.
  rewrite <- Sum_minus. eapply Rle_trans; [apply Sum_Rabs|]. rewrite <- Sum_scal. apply Sum_le. intros v Hv'.
  rewrite <- Rmult_minus_distr_r, Rabs_mult, Rmult_comm. apply Rmult_le_compat_r; [apply Rabs_pos|]. unfold shifted. apply HM; try assumption.
  assert (0 <= (Z.of_nat w - (Z.of_nat v - Z.of_nat v0)) mod Z.of_nat n < Z.of_nat n)%Z by (apply Z.mod_pos_bound; lia). lia.
Qed.
