(** * CoarseClaims: the same galaxy on a coarser grid. *)
From Coq Require Import Reals Lra Lia List Bool Arith ZArith String Ascii.
From Verif Require Import Num NumLemmas Arr ArrLemmas Cube CubeLemmas Base Spec SpecLemmas Repr Build DistLemmas MomSpec CoarseSpec Coarse
  Particle ParticleSpec ParticleLemmas ParticleClaims.
Import ListNotations.
Local Open Scope R_scope.

Lemma subset_union_r A C : subset C (union A C) = true.
Proof. destruct A as [[] [] [] []], C as [[] [] [] []]; reflexivity. Qed.

Lemma nonempty_union A C : nonempty A = true -> nonempty (union A C) = true.
Proof. destruct A as [[] [] [] []], C as [[] [] [] []]; intros H; try reflexivity; exact H. Qed.

(** ** components with merged probabilities *)
Section Comp.
Context (g g' : grid) (c : cuts) (Hc : coarser g g' c) (Hg : good_grid g) (Hg' : good_grid g').
Context (self self' : component) (f f' : joint) (H : comp_on self g f) (H' : comp_on self' g' f').
Context (Hf : nonneg g f) (HM : merged g' c (mass g f) (mass g' f')).

Lemma merged_nonneg : nonneg g' f'.
Proof.
  intros t v x y z H1 H2 H3 H4 H5. assert (Hi : in_grid g' (Bin t v x y z)) by (unfold in_grid; cbn; auto).
  pose proof (HM _ Hi) as E. cbn [bt bv bx by_ bz] in E.
  assert (N : 0 <= mass g' f' t v x y z).
  { rewrite E. unfold fine_sum. apply sumR_nonneg. intros r Hr. apply in_map_iff in Hr as (j & <- & Hj).
    destruct (fine_grid g g' c Hc _ j Hi Hj) as (A & B & C & D & F). apply (mass_nonneg g f Hg Hf); assumption. }
  unfold mass in N. destruct Hg'.
  pose proof (wid_pos _ _ _ gg_tE H1). pose proof (wid_pos _ _ _ gg_vE H2). pose proof (wid_pos _ _ _ gg_xE H3).
  pose proof (wid_pos _ _ _ gg_yE H4). pose proof (wid_pos _ _ _ gg_zE H5).
  assert (0 < wid (tE g') t * wid (vE g') v * wid (xE g') x * wid (yE g') y * wid (zE g') z) by (repeat apply Rmult_lt_0_compat; assumption).
  destruct (Rle_or_lt 0 (f' t v x y z)) as [|K]; [assumption|exfalso]. nra.
Qed.

(** fine bins with coordinate 0 for the other variables are on the grid *)
Lemma run_if_in n E n' E' s b k j : merges n E n' E' s -> (0 < n)%nat -> (k < n')%nat -> In j (run_if b s k) -> (j < n)%nat.
Proof.
  intros Hm Hn Hk. unfold run_if. destruct b; [intros Hj; apply (run_in _ _ _ _ _ _ _ Hm Hk Hj)|intros [<-|[]]; exact Hn].
Qed.
Lemma fine_on S i j : in_grid g' i -> In j (fine_bins c S i) -> in_grid g j.
Proof.
  intros (I1 & I2 & I3 & I4 & I5) Hj. unfold fine_bins in Hj. destruct Hc, Hg.
  apply in_flat_map in Hj as (t & Ht & Hj). apply in_flat_map in Hj as (v & Hv & Hj). apply in_flat_map in Hj as (x & Hx & Hj).
  apply in_flat_map in Hj as (y & Hy & Hj). apply in_map_iff in Hj as (z & <- & Hz). unfold in_grid; cbn.
  repeat split; eapply run_if_in; eassumption.
Qed.

Lemma coarse_marg S lw : nonempty S = true -> lw_ok g f lw -> (lw = true -> shared_light g g' c) ->
  exists p p', get_p self (name S) false lw = Ok p /\ get_p self' (name S) false lw = Ok p' /\ shp p' = dims S g' /\
    forall i, in_grid g' i -> ent p' (coords S i) = nsum (map (fun j => ent p (coords S j)) (fine_bins c S i)).
Proof.
  intros HS Hl HL. pose proof (merged_lw g g' c Hc f f' lw HL HM Hl) as Hl'.
  destruct (get_p_marg self g f H Hg Hf S false lw HS Hl) as (p & Ep & _ & Hp).
  destruct (get_p_marg self' g' f' H' Hg' merged_nonneg S false lw HS Hl') as (p' & Ep' & Sp & Hp').
  exists p, p'. split; [exact Ep|]. split; [exact Ep'|]. split; [exact Sp|]. intros i Hi. rewrite (Hp' i Hi).
  rewrite (nsum_map_Fin _ (marg g (prob g f lw) S)).
  - f_equal. rewrite (marg_merged g g' c Hc _ _ S i (merged_prob g g' c Hc f f' lw HL HM) Hi). unfold fine_sum. field.
  - intros j Hj. rewrite (Hp j (fine_on S i j Hi Hj)). f_equal. field.
Qed.

Lemma coarse_cond A C lw : nonempty A = true -> nonempty C = true -> disjoint A C = true -> lw_ok g f lw ->
  (lw = true -> shared_light g g' c) ->
  exists p pc p', get_p self (name (union A C)) false lw = Ok p /\ get_p self (name C) false lw = Ok pc /\
    get_p self' (cname A C) false lw = Ok p' /\ shp p' = (dims A g' ++ dims C g')%list /\
    forall i, in_grid g' i -> ent p' (coords A i ++ coords C i) =
      ndiv (nsum (map (fun j => ent p (coords (union A C) j)) (fine_bins c (union A C) i)))
           (nsum (map (fun j => ent pc (coords C j)) (fine_bins c C i))).
Proof.
  intros HA HC HD Hl HL. pose proof (merged_lw g g' c Hc f f' lw HL HM Hl) as Hl'.
  pose proof (nonempty_union A C HA) as HU.
  destruct (coarse_marg (union A C) lw HU Hl HL) as (p & q & Ep & Eq & _ & Hp).
  destruct (coarse_marg C lw HC Hl HL) as (pc & qc & Epc & Eqc & _ & Hpc).
  destruct (get_p_cond self' g' f' H' Hg' merged_nonneg A C false lw HA HC HD Hl') as (p' & Ep' & Sp & Hp').
  destruct (get_p_marg self' g' f' H' Hg' merged_nonneg (union A C) false lw HU Hl') as (q0 & Eq0 & _ & Hq).
  destruct (get_p_marg self' g' f' H' Hg' merged_nonneg C false lw HC Hl') as (qc0 & Eqc0 & _ & Hqc).
  rewrite Eq in Eq0. injection Eq0 as <-. rewrite Eqc in Eqc0. injection Eqc0 as <-.
  exists p, pc, p'. split; [exact Ep|]. split; [exact Epc|]. split; [exact Ep'|]. split; [exact Sp|].
  intros i Hi. rewrite <- (Hp i Hi), <- (Hpc i Hi), (Hq i Hi), (Hqc i Hi). destruct (Hp' i Hi) as [P0 P1].
  assert (N : 0 <= marg g' (prob g' f' lw) C i) by (apply marg_nonneg; [exact Hi|apply prob_nonneg; [exact Hg'|exact merged_nonneg|exact Hl']]).
  unfold Rdiv. rewrite Rinv_1, !Rmult_1_r. destruct N as [N|N].
  - rewrite (P0 N), ndiv_Fin by lra. f_equal. unfold Rdiv. rewrite Rinv_1, Rmult_1_r. reflexivity.
  - rewrite (P1 (eq_sym N)), <- N.
    assert (Z : marg g' (prob g' f' lw) (union A C) i = 0).
    { assert (NN : nonneg g' (prob g' f' lw)) by (apply prob_nonneg; [exact Hg'|exact merged_nonneg|exact Hl']).
      pose proof (marg_nonneg g' _ (union A C) i Hi NN).
      pose proof (marg_mono g' _ C (union A C) i Hi NN (subset_union_r A C)). lra. }
    rewrite Z. unfold ndiv, inf_of_sign. repeat destruct Req_EM_T; try lra. all: repeat destruct Rlt_dec; try lra; reflexivity.
Qed.
End Comp.

(** ** particles *)
Definition ind (b : bool) : R := if b then 1 else 0.
Lemma ind_and a b : ind (a && b) = ind a * ind b.
Proof. destruct a, b; unfold ind; cbn; lra. Qed.
Lemma L_seq_from a m f : L (seq a m) f = Sum m (fun d => f (a + d)%nat).
Proof.
  rewrite <- L_seq. unfold L. f_equal. rewrite <- (map_map (fun d => (a + d)%nat) f). f_equal.
  revert a. induction m as [|m IH]; intros a; [reflexivity|]. cbn [seq map]. rewrite Nat.add_0_r. f_equal.
  rewrite IH, <- seq_shift, map_map. apply map_ext. intros. lia.
Qed.
Lemma inc_le n E i j : increasing n E -> (i <= j)%nat -> (j <= n)%nat -> E i <= E j.
Proof.
  intros HE Hij. induction Hij as [|j Hij IH]; intros Hj; [lra|]. specialize (HE j ltac:(lia)). specialize (IH ltac:(lia)). lra.
Qed.

Section Axis.
Context (n : nat) (E : nat -> R) (n' : nat) (E' : nat -> R) (s : nat -> nat) (HE : increasing n E) (Hn : (0 < n)%nat)
  (Hm : merges n E n' E' s).

Lemma cut_le i j : (i <= j)%nat -> (j <= n')%nat -> (s i <= s j)%nat.
Proof.
  intros Hij. induction Hij as [|j Hij IH]; intros Hj; [lia|]. pose proof (mg_rise _ _ _ _ _ Hm j ltac:(lia)). specialize (IH ltac:(lia)). lia.
Qed.
Lemma cut_lt i j : (i < j)%nat -> (j <= n')%nat -> (s i < s j)%nat.
Proof.
  intros Hij Hj. pose proof (mg_rise _ _ _ _ _ Hm i ltac:(lia)). pose proof (cut_le (S i) j ltac:(lia) Hj). lia.
Qed.
Lemma in_bin_iff m F k r : in_bin m F k (Fin r) = true <-> (F k <= r < F (S k) \/ S k = m /\ r = F m).
Proof. cbn [in_bin]. rewrite orb_true_iff, !andb_true_iff, Rleb_iff, Rltb_iff, Nat.eqb_eq, Reqb_iff. tauto. Qed.

Lemma range_same x : in_range n E x = in_range n' E' x.
Proof.
  clear Hn HE. destruct x as [r| | |]; try reflexivity. cbn. destruct Hm as [H0 Hl Hr He]. rewrite (He 0%nat) by lia. rewrite (He n') by lia.
  rewrite H0, Hl. reflexivity.
Qed.
(** a fine bin of the run lies inside the coarse bin *)
Lemma fine_coarse k j x : (k < n')%nat -> In j (run s k) -> in_bin n E j x = true -> in_bin n' E' k x = true.
Proof.
  intros Hk Hj. destruct (run_in _ _ _ _ _ _ _ Hm Hk Hj) as [[J1 J2] J3].
  destruct x as [r| | |]; try discriminate. rewrite !in_bin_iff. rewrite !(mg_edge _ _ _ _ _ Hm) by lia.
  pose proof (cut_le (S k) n' ltac:(lia) ltac:(lia)) as J4. rewrite (mg_last _ _ _ _ _ Hm) in *. intros [[A B]|[A B]].
  - left. pose proof (inc_le n E (s k) j HE J1 ltac:(lia)). pose proof (inc_le n E (S j) (s (S k)) HE ltac:(lia) ltac:(lia)). lra.
  - right. split; [|exact B]. destruct (Nat.eq_dec (S k) n') as [|D]; [assumption|exfalso].
    pose proof (cut_lt (S k) n' ltac:(lia) ltac:(lia)) as J5. rewrite (mg_last _ _ _ _ _ Hm) in J5. lia.
Qed.
(** a point of the coarse bin is in a fine bin of the run *)
Lemma coarse_fine k x : (k < n')%nat -> in_bin n' E' k x = true -> exists j, In j (run s k) /\ in_bin n E j x = true.
Proof.
  intros Hk. destruct x as [r| | |]; try discriminate. intros HB.
  pose proof (cut_le (S k) n' ltac:(lia) ltac:(lia)) as J4. pose proof (cut_lt k (S k) ltac:(lia) ltac:(lia)) as J5.
  pose proof (mg_last _ _ _ _ _ Hm) as HL.
  apply in_bin_iff in HB. rewrite !(mg_edge _ _ _ _ _ Hm), HL in * by lia.
  assert (R : in_range n E (Fin r) = true).
  { cbn. rewrite andb_true_iff, !Rleb_iff.
    pose proof (inc_le n E 0 (s k) HE ltac:(lia) ltac:(lia)). pose proof (inc_le n E (s k) n HE ltac:(lia) ltac:(lia)).
    pose proof (inc_le n E (s (S k)) n HE ltac:(lia) ltac:(lia)). lra. }
  destruct (in_range_bin n E HE Hn (Fin r) R) as (j & J & B & _). exists j. split; [|exact B].
  apply in_bin_iff in B. unfold run. apply in_seq.
  enough (s k <= j < s (S k))%nat by lia. split.
  - destruct (Nat.le_gt_cases (s k) j) as [|K]; [assumption|exfalso].
    destruct B as [[B1 B2]|[B1 B2]]; [|lia]. pose proof (inc_le n E (S j) (s k) HE ltac:(lia) ltac:(lia)).
    destruct HB as [[C1 C2]|[C1 C2]]; [lra|]. pose proof (inc_le n E (S j) n HE ltac:(lia) ltac:(lia)). lra.
  - destruct (Nat.lt_ge_cases j (s (S k))) as [|K]; [assumption|exfalso].
    destruct HB as [[C1 C2]|[C1 C2]].
    + destruct B as [[B1 B2]|[B1 B2]]; [pose proof (inc_le n E (s (S k)) j HE ltac:(lia) ltac:(lia)); lra|].
      pose proof (inc_le n E (s (S k)) n HE ltac:(lia) ltac:(lia)). lra.
    + rewrite C1, HL in K. lia.
Qed.
Lemma axis_ind k x : (k < n')%nat -> ind (in_bin n' E' k x) = L (run s k) (fun j => ind (in_bin n E j x)).
Proof.
  intros Hk. destruct (in_bin n' E' k x) eqn:B.
  - destruct (coarse_fine k x Hk B) as (j & J & BJ). unfold run. rewrite L_seq_from. unfold run in J. apply in_seq in J.
    rewrite (Sum_single _ _ (j - s k)%nat); [|lia|].
    + replace (s k + (j - s k))%nat with j by lia. rewrite BJ. reflexivity.
    + intros d Hd Dd. destruct (in_bin n E (s k + d) x) eqn:Q; [exfalso|reflexivity].
      destruct (run_in _ _ _ _ _ k j Hm Hk) as [_ J3]; [unfold run; apply in_seq; lia|].
      destruct (run_in _ _ _ _ _ k (s k + d)%nat Hm Hk) as [_ J4]; [unfold run; apply in_seq; lia|].
      destruct (in_range_bin n E HE Hn x (in_bin_range n E HE Hn j x J3 BJ)) as (m & _ & _ & U).
      pose proof (U j J3 BJ). pose proof (U (s k + d)%nat J4 Q). lia.
  - symmetry. change (ind false) with 0. etransitivity; [|exact (L_zero (run s k))]. apply L_ext. intros j J. destruct (in_bin n E j x) eqn:Q; [|reflexivity].
    rewrite (fine_coarse k j x Hk J Q) in B. discriminate.
Qed.
End Axis.

Lemma L5_prod a b d e h (f1 f2 f3 f4 f5 : nat -> R) :
  L5 a b d e h (fun t v x y z => f1 t * f2 v * f3 x * f4 y * f5 z) = L a f1 * L b f2 * L d f3 * L e f4 * L h f5.
Proof.
  unfold L5. transitivity (L a (fun t => f1 t * (L b f2 * L d f3 * L e f4 * L h f5))); [|rewrite L_scal_r; ring].
  apply L_ext; intros t _. transitivity (L b (fun v => f2 v * (f1 t * L d f3 * L e f4 * L h f5))); [|rewrite L_scal_r; ring].
  apply L_ext; intros v _. transitivity (L d (fun x => f3 x * (f1 t * f2 v * L e f4 * L h f5))); [|rewrite L_scal_r; ring].
  apply L_ext; intros x _. transitivity (L e (fun y => f4 y * (f1 t * f2 v * f3 x * L h f5))); [|rewrite L_scal_r; ring].
  apply L_ext; intros y _. rewrite L_scal. ring.
Qed.

Section Pts.
Context (g g' : grid) (c : cuts) (Hc : coarser g g' c) (Hg : good_grid g) (Hg' : good_grid g').

Lemma inside_ind i p : in_grid g' i -> ind (inside g' i p) = fine_sum c all_vars i (fun j => ind (inside g j p)).
Proof.
  intros (I1 & I2 & I3 & I4 & I5). rewrite fine_sum_L. cbn [has_t has_v has_x has_z all_vars run_if].
  rewrite (L5_ext _ _ _ _ _ (fun t v x y z => ind (inside g (Bin t v x y z) p))
    (fun t v x y z => ind (in_bin (nt g) (tE g) t (p_t p)) * ind (in_bin (nv g) (vE g) v (p_v p)) *
       ind (in_bin (nx g) (xE g) x (p_x1 p)) * ind (in_bin (ny g) (yE g) y (p_x2 p)) * ind (in_bin (nz g) (zE g) z (p_z p))))
    by (intros t v x y z _ _ _ _ _; unfold inside; cbn [bt bv bx by_ bz]; rewrite !ind_and; reflexivity).
  rewrite (L5_prod _ _ _ _ _ (fun t => ind (in_bin (nt g) (tE g) t (p_t p))) (fun v => ind (in_bin (nv g) (vE g) v (p_v p)))
    (fun x => ind (in_bin (nx g) (xE g) x (p_x1 p))) (fun y => ind (in_bin (ny g) (yE g) y (p_x2 p)))
    (fun z => ind (in_bin (nz g) (zE g) z (p_z p)))).
  destruct Hc, Hg. unfold inside. rewrite !ind_and.
  rewrite (axis_ind _ _ _ _ _ gg_tE gg_t co_t _ _ I1), (axis_ind _ _ _ _ _ gg_vE gg_v co_v _ _ I2), (axis_ind _ _ _ _ _ gg_xE gg_x co_x _ _ I3),
    (axis_ind _ _ _ _ _ gg_yE gg_y co_y _ _ I4), (axis_ind _ _ _ _ _ gg_zE gg_z co_z _ _ I5). reflexivity.
Qed.
Lemma bounds_same p : in_bounds g p = in_bounds g' p.
Proof.
  destruct Hc. unfold in_bounds. rewrite (range_same _ _ _ _ _ co_t), (range_same _ _ _ _ _ co_v), (range_same _ _ _ _ _ co_x),
    (range_same _ _ _ _ _ co_y), (range_same _ _ _ _ _ co_z). reflexivity.
Qed.
Lemma weight_ind P pw : weight P pw = sumR (map (fun q => ind (P (fst q)) * snd q) pw).
Proof. unfold weight. f_equal. apply map_ext. intros q. unfold ind. destruct (P (fst q)); lra. Qed.
Lemma weight_merged pw i : in_grid g' i -> weight (inside g' i) pw = fine_sum c all_vars i (fun j => weight (inside g j) pw).
Proof.
  intros Hi. rewrite weight_ind. unfold fine_sum. induction pw as [|q pw IH].
  - cbn [map]. unfold sumR at 1; cbn [fold_right]. symmetry. etransitivity; [apply sumR_map_ext; intros; reflexivity|].
    induction (fine_bins c all_vars i) as [|a l IH]; [reflexivity|]. cbn [map]. unfold sumR in *; cbn [fold_right]. rewrite IH.
    unfold weight, sumR; cbn; lra.
  - cbn [map]. unfold sumR at 1; cbn [fold_right]. fold (sumR (map (fun q => ind (inside g' i (fst q)) * snd q) pw)).
    rewrite IH, (inside_ind i _ Hi). unfold fine_sum. clear IH.
    induction (fine_bins c all_vars i) as [|a l IH]; [cbn; unfold sumR; cbn; lra|].
    cbn [map]. unfold sumR in *; cbn [fold_right] in *. rewrite weight_cons. unfold ind in *. destruct (inside g a (fst q)); lra.
Qed.
Lemma part_mass h pw i : good_grid h -> in_grid h i -> weight (in_bounds h) pw <> 0 ->
  mass h (particle_density h pw) (bt i) (bv i) (bx i) (by_ i) (bz i) = weight (inside h i) pw / weight (in_bounds h) pw.
Proof.
  intros Hh (H1 & H2 & H3 & H4 & H5) Hw. destruct Hh, i as [t v x y z]. unfold mass, particle_density. cbn [bt bv bx by_ bz] in *.
  pose proof (wid_pos _ _ _ gg_tE H1). pose proof (wid_pos _ _ _ gg_vE H2). pose proof (wid_pos _ _ _ gg_xE H3).
  pose proof (wid_pos _ _ _ gg_yE H4). pose proof (wid_pos _ _ _ gg_zE H5). field. repeat split; lra.
Qed.
Lemma total_weight_same pw : weight (in_bounds g') pw = weight (in_bounds g) pw.
Proof. unfold weight. f_equal. apply map_ext. intros q. rewrite bounds_same. reflexivity. Qed.
Lemma particles_merged pw : weight (in_bounds g) pw <> 0 ->
  merged g' c (mass g (particle_density g pw)) (mass g' (particle_density g' pw)).
Proof.
  intros Hw i Hi. rewrite part_mass, total_weight_same by (rewrite ?total_weight_same; assumption).
  rewrite (weight_merged pw i Hi). unfold fine_sum, Rdiv.
  transitivity (sumR (map (fun j => weight (inside g j) pw * / weight (in_bounds g) pw) (fine_bins c all_vars i))).
  - induction (fine_bins c all_vars i) as [|a l IH]; [cbn; unfold sumR; cbn; lra|].
    cbn [map]. unfold sumR in *; cbn [fold_right] in *. rewrite Rmult_plus_distr_r, IH. reflexivity.
  - apply sumR_map_ext. intros j Hj. rewrite part_mass; [reflexivity|exact Hg|exact (fine_grid g g' c Hc i j Hi Hj)|exact Hw].
Qed.

Lemma particles_coarse k k' pw : cube_on k g -> cube_on k' g' -> (forall q, In q pw -> 0 <= snd q) -> 0 < weight (in_bounds g) pw ->
  exists n n' comp comp', from_particle k (map fst pw) (Some (map Fin (map snd pw))) = Ok (n, comp) /\
    from_particle k' (map fst pw) (Some (map Fin (map snd pw))) = Ok (n', comp') /\ n_lost n = n_lost n' /\ lost_lo_hi n = lost_lo_hi n' /\
    forall S lw, nonempty S = true -> lw_ok g (particle_density g pw) lw -> (lw = true -> shared_light g g' c) ->
      exists p p', get_p comp (name S) false lw = Ok p /\ get_p comp' (name S) false lw = Ok p' /\ shp p' = dims S g' /\
        forall i, in_grid g' i -> ent p' (coords S i) = nsum (map (fun j => ent p (coords S j)) (fine_bins c S i)).
Proof.
  intros Hk Hk' Hp Hw. destruct (density_claim k g Hk Hg pw Hw) as (comp & E & On).
  assert (Hw' : 0 < weight (in_bounds g') pw) by (rewrite total_weight_same; exact Hw).
  destruct (density_claim k' g' Hk' Hg' pw Hw') as (comp' & E' & On').
  eexists _, _, comp, comp'. split; [exact E|]. split; [exact E'|]. split; [|split].
  - unfold note_of. cbn [n_lost]. unfold count. f_equal. apply filter_ext. intros p. rewrite bounds_same. reflexivity.
  - unfold note_of. cbn [lost_lo_hi]. destruct Hc as [[A1 A2 _ A4] [B1 B2 _ B4] [C1 C2 _ C4] [D1 D2 _ D4] [E1 E2 _ E4]].
    rewrite !A4, !B4, !C4, !D4, !E4, A1, A2, B1, B2, C1, C2, D1, D2, E1, E2 by lia. reflexivity.
  - intros S lw HS Hl HL. apply (coarse_marg g g' c Hc Hg Hg' comp comp' _ _ On On'); try assumption.
    + apply particle_density_nonneg; assumption.
    + apply particles_merged. lra.
Qed.
End Pts.

(** ** which densities have merged probabilities *)
Lemma merged_iff g g' c f f' : good_grid g' ->
  (merged g' c (mass g f) (mass g' f') <->
   forall i, in_grid g' i -> f' (bt i) (bv i) (bx i) (by_ i) (bz i) = coarse_density g g' c f (bt i) (bv i) (bx i) (by_ i) (bz i)).
Proof.
  intros Hg'. split; intros H i Hi; specialize (H i Hi); destruct i as [t v x y z]; destruct Hi as (H1 & H2 & H3 & H4 & H5);
    unfold coarse_density in *; cbn [bt bv bx by_ bz] in *; destruct Hg';
    pose proof (wid_pos _ _ _ gg_tE H1); pose proof (wid_pos _ _ _ gg_vE H2); pose proof (wid_pos _ _ _ gg_xE H3);
    pose proof (wid_pos _ _ _ gg_yE H4); pose proof (wid_pos _ _ _ gg_zE H5).
  - rewrite <- H. unfold mass. field. repeat split; lra.
  - unfold mass at 1. rewrite H. field. repeat split; lra.
Qed.
