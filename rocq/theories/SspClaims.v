(** * SspClaims: claims C26-C31 on the template grid. *)
From Coq Require Import Reals Lra Lia List Bool Arith ZArith String.
From Verif Require Import Num NumLemmas Arr ArrLemmas PyStr Cube Spec SpecLemmas Repr CubeGeom ReadMiles MilesSpec MilesLemmas
  MilesLemmas3 MilesClaims Ssps VecLemmas SspLemmas.
Import ListNotations.
Local Open Scope R_scope.

(** ** C26, C27 *)
Definition template_values (n : nat) (x : nat -> R) : Prop := forall i, (S i < n)%nat -> x i < x (S i).
Lemma edges_claim a n x : (2 <= n)%nat -> vec a n x -> template_values n x ->
  exists e E, get_par_edge_lims a = Ok e /\ vec e (S n) E /\
    (forall i, (0 < i < n)%nat -> E i = (x (i - 1)%nat + x i) / 2) /\
    (E 0%nat = x 0%nat - (x 1%nat - x 0%nat) / 2 \/
     (E 0%nat = 0 /\ Rabs (x 0%nat - (x 1%nat - x 0%nat) / 2) < 0.011)) /\
    E n = x (n - 1)%nat + (x (n - 1)%nat - x (n - 2)%nat) / 2 /\
    (E 0%nat < x 0%nat -> increasing n E /\ forall i, (i < n)%nat -> E i < x i < E (S i)).
Proof.
  intros Hn Ha Hx. destruct (edge_lims_ok a n x Hn Ha) as (e & Ee & He).
  exists e, (edges_of n x). split; [exact Ee|]. split; [exact He|]. split; [|split; [|split]].
  - intros i Hi. unfold edges_of. destruct (Nat.eqb_spec i 0); [lia|]. destruct (Nat.ltb_spec i n); [reflexivity|lia].
  - unfold edges_of, clamp. cbn [Nat.eqb]. destruct (Rltb (Rabs (x 0%nat - (x 1%nat - x 0%nat) / 2)) 0.011) eqn:C.
    + right. split; [reflexivity|]. apply Rltb_true. exact C.
    + left. reflexivity.
  - unfold edges_of. destruct (Nat.eqb_spec n 0); [lia|]. rewrite Nat.ltb_irrefl. reflexivity.
  - apply edges_of_increasing; assumption.
Qed.
Lemma centre_claim a n x i : (2 <= n)%nat -> vec a n x -> (0 < i)%nat -> (S i < n)%nat ->
  exists e c E C, get_par_edge_lims a = Ok e /\ vec e (S n) E /\ mids e = Ok c /\ vec c n C /\
    (C i = x i <-> x (S i) - x i = x i - x (i - 1)%nat).
Proof.
  intros Hn Ha Hi Hi2. destruct (edge_lims_ok a n x Hn Ha) as (e & Ee & He). destruct (mids_ok _ _ _ He) as (c & Ec & Hc).
  exists e, c, (edges_of n x), (mid (edges_of n x)). split; [exact Ee|]. split; [exact He|]. split; [exact Ec|].
  split; [exact Hc|]. unfold mid, edges_of. destruct (Nat.eqb_spec i 0); [lia|]. cbn [Nat.eqb].
  destruct (Nat.ltb_spec i n); [|lia]. destruct (Nat.ltb_spec (S i) n); [|lia]. replace (S i - 1)%nat with i by lia. split; lra.
Qed.
Lemma centre_ends_claim a n x : (2 <= n)%nat -> vec a n x -> 0.011 <= Rabs (x 0%nat - (x 1%nat - x 0%nat) / 2) ->
  exists e c C, get_par_edge_lims a = Ok e /\ mids e = Ok c /\ vec c n C /\ C 0%nat = x 0%nat /\ C (n - 1)%nat = x (n - 1)%nat.
Proof.
  intros Hn Ha H0. destruct (edge_lims_ok a n x Hn Ha) as (e & Ee & He). destruct (mids_ok _ _ _ He) as (c & Ec & Hc).
  exists e, c, (mid (edges_of n x)). split; [exact Ee|]. split; [exact Ec|]. split; [exact Hc|].
  assert (Cl : edges_of n x 0 = x 0%nat - (x 1%nat - x 0%nat) / 2).
  { unfold edges_of, clamp. cbn [Nat.eqb]. destruct (Rltb _ _) eqn:C; [|reflexivity]. apply Rltb_true in C. lra. }
  unfold mid. split.
  - rewrite Cl. unfold edges_of. cbn [Nat.eqb]. destruct (Nat.ltb_spec 1 n); [|lia]. cbn [Nat.sub]. lra.
  - replace (S (n - 1)) with n by lia.
    assert (L : edges_of n x n = x (n - 1)%nat + (x (n - 1)%nat - x (n - 2)%nat) / 2).
    { unfold edges_of. destruct (Nat.eqb_spec n 0); [lia|]. rewrite Nat.ltb_irrefl. reflexivity. }
    rewrite L. unfold edges_of. destruct (Nat.eqb_spec (n - 1) 0); [lia|]. destruct (Nat.ltb_spec (n - 1) n); [|lia].
    replace (n - 1 - 1)%nat with (n - 2)%nat by lia. lra.
Qed.

(** ** C28 *)
Definition total (nz nt : nat) (f : nat -> nat -> R) : R := Sum nz (fun z => Sum nt (fun t => f z t)).

Lemma merged_total kz ka nz nt f : (0 < kz)%nat -> (0 < ka)%nat ->
  total (merged kz nz) (merged ka nt) (fun i j => merged_sum kz ka nz nt i j f) = total nz nt f.
Proof.
  intros Hz Ha. unfold total, merged_sum.
  rewrite <- (Sum_groups kz nz (merged kz nz) (fun z => Sum nt (fun t => f z t)) Hz (merged_bound nz kz Hz)).
  apply Sum_ext. intros i Hi. rewrite Sum_swap. apply Sum_ext. intros z Hz'.
  destruct (in_group kz i z); cbn [andb].
  - apply (Sum_groups ka nt (merged ka nt) (f z) Ha (merged_bound nt ka Ha)).
  - rewrite (Sum_ext (merged ka nt) _ (fun _ => 0)) by (intros; apply Sum_0). apply Sum_0.
Qed.

(** [E'] are the edges E left after merging runs of k bins: a sublist with the
    same ends; old bin b lies in new bin b/k *)
Definition coarsens (k n : nat) (E : nat -> R) (n' : nat) (E' : nat -> R) : Prop :=
  (n <= n' * k)%nat /\ (forall i, (i < n')%nat -> (i * k < n)%nat) /\
  E' O = E O /\ E' n' = E n /\ (forall i, (i < n')%nat -> E' i = E (i * k)%nat) /\ increasing n' E' /\
  (forall b, (b < n)%nat -> (b / k < n')%nat /\ E' (b / k)%nat <= E b /\ E (S b) <= E' (S (b / k))).
Lemma merged_coarsens k n E : (0 < k)%nat -> (0 < n)%nat -> increasing n E ->
  coarsens k n E (merged k n) (merged_edges k n E).
Proof.
  intros Hk Hn HE. pose proof (merged_bound n k Hk). split; [assumption|]. split; [intros i Hi; apply merged_lt; assumption|].
  unfold merged_edges at 1 2 3. split; [reflexivity|]. split; [f_equal; lia|].
  split; [intros i Hi; apply merged_lt in Hi; [|exact Hk]; f_equal; lia|].
  split; [apply merged_increasing; assumption|].
  assert (mono : forall i j, (i <= j <= n)%nat -> E i <= E j).
  { intros i j [L1 L2]. destruct (Nat.eq_dec i j) as [->|]; [lra|]. left. apply (increasing_lt n); [exact HE|lia]. }
  intros b Hb. pose proof (Nat.mul_div_le b k ltac:(lia)). pose proof (Nat.mul_succ_div_gt b k ltac:(lia)).
  split; [apply merged_lt; [assumption|nia]|]. unfold merged_edges. split; apply mono.
  - split; [|lia]. etransitivity; [apply Nat.le_min_l|nia].
  - split; [apply Nat.min_glb; nia|lia].
Qed.

Lemma rebin_claim kz ka g nL nz nt zE tE F : (0 < kz)%nat -> (0 < ka)%nat -> (0 < nz)%nat -> (0 < nt)%nat ->
  increasing nz zE -> increasing nt tE -> templates_on g nL nz nt zE tE F ->
  exists g' nz' nt' zE' tE' F', rebin_par_grid ka kz g = Ok g' /\ templates_on g' nL nz' nt' zE' tE' F' /\
    coarsens kz nz zE nz' zE' /\ coarsens ka nt tE nt' tE' /\
    (forall l i j, (i < nz')%nat -> (j < nt')%nat ->
      F' l i j * (wid zE' i * wid tE' j) =
      total nz nt (fun z t => if ((z / kz =? i) && (t / ka =? j))%nat%bool then F l z t * (wid zE z * wid tE t) else 0)) /\
    (forall l, total nz' nt' (fun i j => F' l i j * (wid zE' i * wid tE' j)) =
               total nz nt (fun z t => F l z t * (wid zE z * wid tE t))) /\
    (forall l c, (forall z t, (z < nz)%nat -> (t < nt)%nat -> F l z t = c) ->
       forall i j, (i < nz')%nat -> (j < nt')%nat -> F' l i j = c).
Proof.
  intros Hkz Hka Hnz Hnt HzE HtE Hg. destruct (rebin_ok kz ka g nL nz nt zE tE F Hkz Hka Hnz Hnt HzE HtE Hg) as (g' & E & Hg' & _).
  exists g', (merged kz nz), (merged ka nt), (merged_edges kz nz zE), (merged_edges ka nt tE), (merged_F kz ka nz nt zE tE F).
  assert (Pos : forall i j, (i < merged kz nz)%nat -> (j < merged ka nt)%nat ->
     0 < wid (merged_edges kz nz zE) i * wid (merged_edges ka nt tE) j).
  { intros i j Hi Hj. pose proof (merged_increasing kz nz zE Hkz HzE i Hi). pose proof (merged_increasing ka nt tE Hka HtE j Hj).
    apply Rmult_lt_0_compat; unfold wid; lra. }
  split; [exact E|]. split; [exact Hg'|]. split; [apply merged_coarsens; assumption|]. split; [apply merged_coarsens; assumption|].
  assert (A : forall l i j, (i < merged kz nz)%nat -> (j < merged ka nt)%nat ->
     merged_F kz ka nz nt zE tE F l i j * (wid (merged_edges kz nz zE) i * wid (merged_edges ka nt tE) j) =
     merged_sum kz ka nz nt i j (fun z t => F l z t * (wid zE z * wid tE t))).
  { intros l i j Hi Hj. specialize (Pos i j Hi Hj). unfold merged_F. field. split; intros Q; rewrite Q in Pos; lra. }
  split; [exact A|]. split.
  - intros l. rewrite <- (merged_total kz ka nz nt) by assumption. unfold total. apply Sum_ext. intros i Hi. apply Sum_ext.
    intros j Hj. apply A; assumption.
  - intros l c Hc i j Hi Hj. apply (Rmult_eq_reg_r (wid (merged_edges kz nz zE) i * wid (merged_edges ka nt tE) j)).
    2:{ specialize (Pos i j Hi Hj). lra. }
    rewrite A by assumption. rewrite <- merged_area by assumption. unfold merged_sum. rewrite <- Sum_scal. apply Sum_ext. intros z Hz.
    rewrite <- Sum_scal. apply Sum_ext. intros t Ht. destruct (_ && _)%bool; [rewrite Hc by assumption|]; ring.
Qed.

Lemma merged_1 n : merged 1 n = n.
Proof. unfold merged, stride_len. rewrite Nat.div_1_r. lia. Qed.
Lemma templates_ext g nL nz nt zE tE F zE' tE' F' : templates_on g nL nz nt zE tE F ->
  (forall i, (i <= nz)%nat -> zE i = zE' i) -> (forall i, (i <= nt)%nat -> tE i = tE' i) ->
  (forall l z t, (l < nL)%nat -> (z < nz)%nat -> (t < nt)%nat -> F l z t = F' l z t) ->
  templates_on g nL nz nt zE' tE' F'.
Proof.
  intros [A B C D E H I J K] Hz Ht HF. split; try assumption.
  - eapply vec_ext; [exact A|]. intros; apply Hz; lia.
  - eapply vec_ext; [exact B|]. intros; apply Ht; lia.
  - eapply vec_ext; [exact C|]. intros; unfold mid; rewrite !Hz by lia; reflexivity.
  - eapply vec_ext; [exact D|]. intros; unfold mid; rewrite !Ht by lia; reflexivity.
  - eapply vec_ext; [exact E|]. intros; unfold wid; rewrite !Hz by lia; reflexivity.
  - eapply vec_ext; [exact H|]. intros; unfold wid; rewrite !Ht by lia; reflexivity.
  - intros l z t Hl Hz' Ht'. rewrite K, HF by assumption. reflexivity.
Qed.
Lemma merged_F_1 nz nt zE tE F l z t : (z < nz)%nat -> (t < nt)%nat -> increasing nz zE -> increasing nt tE ->
  merged_F 1 1 nz nt zE tE F l z t = F l z t.
Proof.
  intros Hz Ht HzE HtE. unfold merged_F, merged_sum. rewrite (Sum_single nz _ z Hz).
  - rewrite (Sum_single nt _ t Ht).
    + unfold in_group. rewrite !Nat.div_1_r, !Nat.eqb_refl. cbn [andb].
      assert (W : forall n E i, (i < n)%nat -> wid (merged_edges 1 n E) i = wid E i).
      { intros n E i Hi. unfold wid, merged_edges. rewrite !Nat.mul_1_r, !Nat.min_l by lia. reflexivity. }
      rewrite !W by assumption. specialize (HzE z Hz). specialize (HtE t Ht).
      field. unfold wid. split; lra.
    + intros i Hi N. unfold in_group. rewrite !Nat.div_1_r. destruct (Nat.eqb_spec i t); [congruence|]. rewrite andb_false_r. reflexivity.
  - intros i Hi N. apply Sum_all_0. intros j Hj. unfold in_group. rewrite !Nat.div_1_r. destruct (Nat.eqb_spec i z); [congruence|]. reflexivity.
Qed.
Lemma rebin_1_claim g nL nz nt zE tE F : (0 < nz)%nat -> (0 < nt)%nat ->
  increasing nz zE -> increasing nt tE -> templates_on g nL nz nt zE tE F ->
  exists g', rebin_par_grid 1 1 g = Ok g' /\ templates_on g' nL nz nt zE tE F.
Proof.
  intros Hnz Hnt HzE HtE Hg. destruct (rebin_ok 1 1 g nL nz nt zE tE F ltac:(lia) ltac:(lia) Hnz Hnt HzE HtE Hg) as (g' & E & Hg' & _).
  exists g'. split; [exact E|]. rewrite !merged_1 in Hg'. eapply templates_ext; [exact Hg'| | |].
  - intros i Hi. unfold merged_edges. f_equal. lia.
  - intros i Hi. unfold merged_edges. f_equal. lia.
  - intros. apply merged_F_1; assumption.
Qed.
Lemma rebin_0_claim ka g : rebin_par_grid ka 0 g = Err ValueError.
Proof. reflexivity. Qed.
Lemma rebin_0_age_claim kz g nL nz nt zE tE F : (0 < kz)%nat -> (0 < nz)%nat -> increasing nz zE -> templates_on g nL nz nt zE tE F ->
  rebin_par_grid 0 kz g = Err ValueError.
Proof.
  intros Hk Hnz HzE Hg. unfold rebin_par_grid.
  destruct (rebin_edges_ok kz _ _ _ Hk Hnz HzE (to_ze _ _ _ _ _ _ _ Hg)) as (ez & E1 & Hez). rewrite E1. cbn [bind].
  destruct (mids_ok _ _ _ Hez) as (cz & E2 & Hcz). rewrite E2. cbn [bind].
  destruct (diffs_ok _ _ _ Hez) as (dz' & E3 & Hdz'). rewrite E3. cbn [bind]. reflexivity.
Qed.

(** ** C29 *)
Lemma light_claim g nL nz nt zE tE F : templates_on g nL nz nt zE tE F ->
  exists lw, get_light_weights g = Ok lw /\ shp lw = [nt; nz] /\
    forall t z, (t < nt)%nat -> (z < nz)%nat -> ent lw [t; z] = Fin (Sum nL (fun l => F l z t)).
Proof.
  intros Hg. unfold get_light_weights.
  assert (Ha : arr_is (g_X g) [nL; (nz * nt)%nat] (ent (g_X g))) by (split; [apply Hg|reflexivity]).
  destruct (asum_is [0%Z] [O] _ _ _ Ha eq_refl) as (s & Es & Hs). rewrite Es. cbn [bind].
  rewrite (to_dims _ _ _ _ _ _ _ Hg). cbn [fst snd].
  change (keep false (axis_mask (List.length [nL; (nz * nt)%nat]) [O]) [nL; (nz * nt)%nat]) with [(nz * nt)%nat] in Hs.
  destruct Hs as [Hs1 Hs2]. unfold reshape. rewrite Hs1. cbn [size_of fold_right]. rewrite !Nat.mul_1_r, Nat.eqb_refl. cbn [bind].
  eexists; split; [reflexivity|]. split; [reflexivity|]. intros t z Ht Hz. cbn [T ent rev app shp].
  cbn [ravel_idx unravel_idx size_of fold_right]. rewrite !Nat.mul_1_r, !Nat.add_0_r, Nat.div_1_r.
  rewrite Hs2 by (repeat constructor; nia).
  change (keep true (axis_mask (List.length [nL; (nz * nt)%nat]) [O]) [nL; (nz * nt)%nat]) with [nL].
  rewrite (nsum_map_Fin _ (fun idx => F (hd O idx) z t)).
  - f_equal. rewrite sum_all_idx_cons. apply Sum_ext. intros l Hl. rewrite sum_all_idx_nil. reflexivity.
  - intros idx Hi. apply in_all_idx in Hi. inb_inv. apply (to_x _ _ _ _ _ _ _ Hg); assumption.
Qed.

(** ** the constructor *)
(** the reader object holds the templates X l z t of metallicities zs and ages ts *)
Record reads (s : miles) (nL nz nt : nat) (zs ts : nat -> R) (X : nat -> nat -> nat -> R) : Prop := {
  rd_z : List.length (z_unq s) = nz /\ forall i, (i < nz)%nat -> nth i (z_unq s) 0 = zs i;
  rd_t : List.length (t_unq s) = nt /\ forall i, (i < nt)%nat -> nth i (t_unq s) 0 = ts i;
  rd_n : m_nz s = nz /\ m_nt s = nt;
  rd_l : List.length (lmd s) = nL;
  rd_x : exists x, m_X s = Some x /\ shp x = [nL; (nz * nt)%nat] /\
         forall l z t, (l < nL)%nat -> (z < nz)%nat -> (t < nt)%nat -> ent x [l; (z * nt + t)%nat] = Fin (X l z t)
}.
Lemma index_table_item nz nt z t : (z < nz)%nat -> (t < nt)%nat -> item (index_table nz nt) (z * nt + t) = Ok (z, t).
Proof.
  intros Hz Ht. unfold item, index_table.
  assert (G : forall a n, (z < n)%nat -> nth_error (flat_map (fun i => map (fun j => (i, j)) (seq 0 nt)) (seq a n)) (z * nt + t) = Some ((a + z)%nat, t)).
  { induction z as [|z IH]; intros a n Hn; destruct n as [|n]; try lia; cbn [seq flat_map].
    - rewrite nth_error_app1 by (rewrite map_length, seq_length; lia). rewrite Nat.add_0_r. cbn [Nat.mul Nat.add].
      rewrite nth_error_map, (nth_error_nth' _ 0%nat) by (rewrite seq_length; lia). rewrite seq_nth by lia. reflexivity.
    - rewrite nth_error_app2 by (rewrite map_length, seq_length; lia). rewrite map_length, seq_length.
      replace (S z * nt + t - nt)%nat with (z * nt + t)%nat by (cbn; lia). rewrite IH by lia. f_equal. f_equal. lia. }
  rewrite (G 0%nat nz Hz). reflexivity.
Qed.
Lemma vec_list_ext (l : list R) n f : List.length l = n -> (forall i, (i < n)%nat -> nth i l 0 = f i) ->
  vec (arr1 (map Fin l) NaN) n f.
Proof. intros <- H. eapply vec_ext; [apply vec_list|exact H]. Qed.

Definition edges_below (n : nat) (x : nat -> R) : Prop := edges_of n x 0 < x 0%nat.

Lemma construct_ok s nL nz nt zs ts X : (2 <= nz)%nat -> (2 <= nt)%nat -> (0 < nL)%nat ->
  (Z.of_nat nz * Z.of_nat nt <= 100000)%Z -> reads s nL nz nt zs ts X ->
  exists g, grid_of_templates s = Ok g /\
    templates_on g nL nz nt (edges_of nz zs) (edges_of nt ts) X /\ g_n g = nL /\ g_lmd g = lmd s /\
    g_p g = (nz * nt)%nat /\
    g_par_idx g = index_table nz nt.
Proof.
  intros Hnz Hnt HL Hbig [[Lz Hz] [Lt Ht] [Nz Nt] Hl (x & Hx & Hxs & HX)]. unfold grid_of_templates, get_X. rewrite Hx. cbn [bind].
  assert (I0 : exists w, item (lmd s) 0 = Ok w).
  { unfold item. destruct (lmd s); [cbn in Hl; lia|]. eexists; reflexivity. }
  destruct I0 as (w & ->). cbn [bind].
  destruct (edge_lims_ok _ nt ts Hnt (vec_list_ext _ _ _ Lt Ht)) as (et & E1 & Het). rewrite E1. cbn [bind].
  destruct (edge_lims_ok _ nz zs Hnz (vec_list_ext _ _ _ Lz Hz)) as (ez & E2 & Hez). rewrite E2. cbn [bind].
  rewrite Nz, Nt. destruct (Z.ltb_spec 100000 (Z.of_nat nz * Z.of_nat nt)); [lia|].
  destruct (mids_ok _ _ _ Hez) as (cz & E3 & Hcz). rewrite E3. cbn [bind].
  destruct (mids_ok _ _ _ Het) as (ct & E4 & Hct). rewrite E4. cbn [bind].
  destruct (diffs_ok _ _ _ Hez) as (dz & E5 & Hdz). rewrite E5. cbn [bind].
  destruct (diffs_ok _ _ _ Het) as (dt & E6 & Hdt). rewrite E6. cbn [bind].
  rewrite (vec_len _ _ _ Hcz), (vec_len _ _ _ Hct), Nat.eqb_refl. cbn [negb].
  unfold kept_ticks. rewrite (vec_first _ _ _ Het), (vec_first _ _ _ Hez) by lia. rewrite (vec_last_ _ _ _ Het), (vec_last_ _ _ _ Hez).
  cbn [bind]. eexists; split; [reflexivity|]. split; [split; cbn; assumption || reflexivity|].
  cbn. split; [unfold len0; rewrite Hxs; reflexivity|]. repeat split; reflexivity.
Qed.

(** ** C30 *)
Lemma get_ssp_gen g xw nL nz nt zE tE F a b id w : templates_on g nL nz nt zE tE F ->
  item (g_par_idx g) id = Ok (a, b) -> (a < nz)%nat -> (b < nt)%nat -> (id < nz * nt)%nat -> w = "wavelength"%string ->
  exists sp, get_ssp g xw id w = Ok (Fin (mid tE b), Fin (mid zE a), sp) /\
    vec sp nL (fun l => F l (id / nt)%nat (id mod nt)%nat).
Proof.
  intros Hg Hi Ha Hb Hid ->. unfold get_ssp. rewrite Hi. cbn [bind fst snd].
  destruct (vec_get _ _ _ a (to_zc _ _ _ _ _ _ _ Hg) Ha) as (ez & E1 & H1). rewrite E1. cbn [bind].
  destruct (vec_get _ _ _ b (to_tc _ _ _ _ _ _ _ Hg) Hb) as (et & E2 & H2). rewrite E2. cbn [bind String.eqb].
  change (String.eqb "wavelength" "wavelength") with true. cbn [bind].
  assert (G : gi_shape [IAll; IInt (Z.of_nat id)] [nL; (nz * nt)%nat] = Some [nL]).
  { cbn [gi_shape tl hd]. unfold int_ok. 
    replace ((- Z.of_nat (nz * nt) <=? Z.of_nat id)%Z && (Z.of_nat id <? Z.of_nat (nz * nt))%Z)%bool with true; [reflexivity|].
    symmetry. apply andb_true_intro. split; [apply Z.leb_le|apply Z.ltb_lt]; lia. }
  assert (Ax : arr_is (g_X g) [nL; (nz * nt)%nat] (ent (g_X g))) by (split; [apply Hg|reflexivity]).
  destruct (getitem_is' _ _ _ _ _ Ax G) as (sp & E3 & H3). rewrite E3. cbn [bind]. rewrite H1, H2.
  exists sp. split; [reflexivity|]. split; [apply H3|]. intros l Hl. rewrite (proj2 H3) by (repeat constructor; exact Hl).
  cbn [gi_idx hd tl]. unfold int_pos. destruct (Z.leb_spec 0 (Z.of_nat id)); [|lia]. rewrite Nat2Z.id.
  rewrite <- (to_x _ _ _ _ _ _ _ Hg l (id / nt) (id mod nt)).
  - f_equal. f_equal. f_equal. rewrite (Nat.mul_comm (id / nt)). apply Nat.div_mod. nia.
  - exact Hl.
  - apply Nat.div_lt_upper_bound; nia.
  - apply Nat.mod_upper_bound. nia.
Qed.

(** the object built from the reader: constructor followed by rebinning *)
Definition build (s : miles) (ka kz : nat) : res mgrid := g <- grid_of_templates s ;; rebin_par_grid ka kz g.

Lemma build_ok s nL nz nt zs ts X ka kz : (2 <= nz)%nat -> (2 <= nt)%nat -> (0 < nL)%nat -> (0 < ka)%nat -> (0 < kz)%nat ->
  (Z.of_nat nz * Z.of_nat nt <= 100000)%Z -> reads s nL nz nt zs ts X ->
  template_values nz zs -> template_values nt ts -> edges_below nz zs -> edges_below nt ts ->
  exists g, build s ka kz = Ok g /\
    templates_on g nL (merged kz nz) (merged ka nt) (merged_edges kz nz (edges_of nz zs)) (merged_edges ka nt (edges_of nt ts))
      (merged_F kz ka nz nt (edges_of nz zs) (edges_of nt ts) X) /\
    g_par_idx g = index_table nz nt /\ g_lmd g = lmd s.
Proof.
  intros Hnz Hnt HL Hka Hkz Hbig Hs Tz Tt Bz Bt.
  destruct (construct_ok s nL nz nt zs ts X Hnz Hnt HL Hbig Hs) as (g & E & Hg & _ & Hl & _ & Hi).
  destruct (edges_of_increasing nz zs Hnz Tz Bz) as [Iz _]. destruct (edges_of_increasing nt ts Hnt Tt Bt) as [It _].
  destruct (rebin_ok kz ka g nL nz nt _ _ X Hkz Hka ltac:(lia) ltac:(lia) Iz It Hg) as (g' & E' & Hg' & _ & Hl' & Hi' & _).
  exists g'. unfold build. rewrite E. cbn [bind]. split; [exact E'|]. split; [exact Hg'|]. split; congruence.
Qed.

Lemma get_ssp_claim s nL nz nt zs ts X kz xw : (2 <= nz)%nat -> (2 <= nt)%nat -> (0 < nL)%nat -> (0 < kz)%nat ->
  (Z.of_nat nz * Z.of_nat nt <= 100000)%Z -> reads s nL nz nt zs ts X ->
  template_values nz zs -> template_values nt ts -> edges_below nz zs -> edges_below nt ts ->
  exists g nz' zE tE F, build s 1 kz = Ok g /\ templates_on g nL nz' nt zE tE F /\
    forall z t, (z < nz')%nat -> (t < nt)%nat ->
      exists sp, get_ssp g xw (z * nt + t) "wavelength" = Ok (Fin (mid tE t), Fin (mid zE z), sp) /\ vec sp nL (fun l => F l z t).
Proof.
  intros Hnz Hnt HL Hkz Hbig Hs Tz Tt Bz Bt.
  destruct (build_ok s nL nz nt zs ts X 1 kz Hnz Hnt HL ltac:(lia) Hkz Hbig Hs Tz Tt Bz Bt) as (g & E & Hg & Hi & _).
  rewrite merged_1 in Hg. do 5 eexists. split; [exact E|]. split; [exact Hg|]. intros z t Hz Ht.
  assert (Hz' : (z < nz)%nat) by (apply merged_lt in Hz; [nia|exact Hkz]).
  destruct (get_ssp_gen g xw _ _ _ _ _ _ z t (z * nt + t) "wavelength"%string Hg) as (sp & E1 & H1).
  - rewrite Hi. apply index_table_item; assumption.
  - exact Hz. - exact Ht. - nia. - reflexivity.
  - exists sp. split; [exact E1|]. eapply vec_ext; [exact H1|]. intros l _.
    replace ((z * nt + t) / nt)%nat with z by (apply (Nat.div_unique _ _ _ t); lia).
    replace ((z * nt + t) mod nt)%nat with t by (apply (Nat.mod_unique _ _ z); lia). reflexivity.
Qed.

Lemma merged_smaller k n : (2 <= k)%nat -> (2 <= n)%nat -> (merged k n < n)%nat.
Proof.
  intros Hk Hn. destruct (Nat.lt_ge_cases (merged k n) n) as [L|L]; [exact L|].
  assert (Q : (n - 1 < merged k n)%nat) by lia. apply merged_lt in Q; nia.
Qed.
Lemma merged_two k n : (0 < k < n)%nat -> (2 <= merged k n)%nat.
Proof. intros H. assert (1 < merged k n)%nat by (apply merged_lt; lia). lia. Qed.

Lemma get_ssp_error_claim s nL nz nt zs ts X ka kz xw sp : (2 <= nz)%nat -> (2 <= nt)%nat -> (0 < nL)%nat ->
  (2 <= ka)%nat -> (0 < kz < nz)%nat ->
  (Z.of_nat nz * Z.of_nat nt <= 100000)%Z -> reads s nL nz nt zs ts X ->
  template_values nz zs -> template_values nt ts -> edges_below nz zs -> edges_below nt ts ->
  exists g nz' nt' zE tE F, build s ka kz = Ok g /\ templates_on g nL nz' nt' zE tE F /\
    (nt' < nz' * nt')%nat /\ get_ssp g xw nt' sp = Err IndexError.
Proof.
  intros Hnz Hnt HL Hka Hkz Hbig Hs Tz Tt Bz Bt.
  destruct (build_ok s nL nz nt zs ts X ka kz Hnz Hnt HL ltac:(lia) ltac:(lia) Hbig Hs Tz Tt Bz Bt) as (g & E & Hg & Hi & _).
  do 6 eexists. split; [exact E|]. split; [exact Hg|].
  pose proof (merged_smaller ka nt Hka Hnt). pose proof (merged_two kz nz Hkz). pose proof (merged_pos nt ka ltac:(lia) ltac:(lia)).
  split; [nia|]. unfold get_ssp. rewrite Hi.
  replace (merged ka nt) with (0 * nt + merged ka nt)%nat at 1 by lia. rewrite index_table_item by lia. cbn [bind fst snd].
  destruct (vec_get _ _ _ 0 (to_zc _ _ _ _ _ _ _ Hg) ltac:(lia)) as (ez & E1 & _). rewrite E1. cbn [bind].
  unfold getitem. rewrite (proj1 (to_tc _ _ _ _ _ _ _ Hg)). cbn [gi_shape hd tl]. unfold int_ok.
  replace ((Z.of_nat (merged ka nt) <? Z.of_nat (merged ka nt))%Z) with false by (symmetry; apply Z.ltb_irrefl).
  rewrite andb_false_r. reflexivity.
Qed.
Lemma get_ssp_label_claim s nL nz nt zs ts X ka kz xw : (2 <= nz)%nat -> (2 <= nt)%nat -> (0 < nL)%nat ->
  (2 <= ka)%nat -> (0 < kz < nz)%nat ->
  (Z.of_nat nz * Z.of_nat nt <= 100000)%Z -> reads s nL nz nt zs ts X ->
  template_values nz zs -> template_values nt ts -> edges_below nz zs -> edges_below nt ts ->
  exists g nz' nt' zE tE F, build s ka kz = Ok g /\ templates_on g nL nz' nt' zE tE F /\
    ((nt < nz' * nt')%nat -> exists z t sp, (z < nz')%nat /\ (t < nt')%nat /\ nt = (z * nt' + t)%nat /\
      get_ssp g xw nt "wavelength" = Ok (Fin (mid tE 0), Fin (mid zE 1), sp) /\ vec sp nL (fun l => F l z t) /\
      (z, t) <> (1, 0)%nat /\ (mid zE 1 <> mid zE z \/ mid tE 0 <> mid tE t)).
Proof.
  intros Hnz Hnt HL Hka Hkz Hbig Hs Tz Tt Bz Bt.
  destruct (build_ok s nL nz nt zs ts X ka kz Hnz Hnt HL ltac:(lia) ltac:(lia) Hbig Hs Tz Tt Bz Bt) as (g & E & Hg & Hi & _).
  do 6 eexists. split; [exact E|]. split; [exact Hg|]. intros Hin.
  pose proof (merged_smaller ka nt Hka Hnt) as S1. pose proof (merged_two kz nz Hkz) as S2.
  pose proof (merged_pos nt ka ltac:(lia) ltac:(lia)) as S3.
  destruct (edges_of_increasing nz zs Hnz Tz Bz) as [Iz _]. destruct (edges_of_increasing nt ts Hnt Tt Bt) as [It _].
  assert (Iz' := merged_increasing kz nz _ ltac:(lia) Iz). assert (It' := merged_increasing ka nt _ ltac:(lia) It).
  exists (nt / merged ka nt)%nat, (nt mod merged ka nt)%nat.
  destruct (get_ssp_gen g xw _ _ _ _ _ _ 1 0 nt "wavelength"%string Hg) as (sp & E1 & H1).
  - rewrite Hi. replace nt with (1 * nt + 0)%nat at 2 by lia. apply index_table_item; lia.
  - lia. - lia. - exact Hin. - reflexivity.
  - exists sp.
    assert (A1 : (nt / merged ka nt < merged kz nz)%nat) by (apply Nat.div_lt_upper_bound; lia).
    assert (A2 : (nt mod merged ka nt < merged ka nt)%nat) by (apply Nat.mod_upper_bound; lia).
    assert (A3 : (nt = nt / merged ka nt * merged ka nt + nt mod merged ka nt)%nat) by (rewrite Nat.mul_comm; apply Nat.div_mod; lia).
    split; [exact A1|]. split; [exact A2|]. split; [exact A3|]. split; [exact E1|]. split; [exact H1|].
    set (z := (nt / merged ka nt)%nat) in *. set (t := (nt mod merged ka nt)%nat) in *.
    assert (N : (z, t) <> (1, 0)%nat) by (intros Q; injection Q as Qz Qt; lia). split; [exact N|].
    assert (Mid : forall n E i j, increasing n E -> (i < j < n)%nat -> mid E i < mid E j).
    { intros n E0 i j HE Hij. unfold mid. pose proof (increasing_lt n E0 i j HE ltac:(lia)).
      pose proof (increasing_lt n E0 (S i) (S j) HE ltac:(lia)). lra. }
    destruct (Nat.eq_dec z 1) as [Qz|Qz].
    + right. assert (0 < t)%nat by (destruct t; [congruence|lia]). pose proof (Mid _ _ 0%nat t It' ltac:(lia)). lra.
    + left. assert (z = 0 \/ 1 < z)%nat as [Z0|Z1] by lia.
      * exfalso. rewrite Z0 in A3. lia.
      * pose proof (Mid _ _ 1%nat z Iz' ltac:(lia)). lra.
Qed.

(** ** C31 *)
Lemma interp_aux_ok E f x : forall m a, (forall i, (i < m)%nat -> E (a + i)%nat < E (S (a + i))) -> E a <= x -> x < E (a + m)%nat ->
  exists i, (i < m)%nat /\ E (a + i)%nat <= x < E (S (a + i)) /\
    interp_aux x (map E (seq a (S m))) (map f (seq a (S m))) =
    f (a + i)%nat + (x - E (a + i)%nat) * ((f (S (a + i)) - f (a + i)%nat) / (E (S (a + i)) - E (a + i)%nat)).
Proof.
  induction m as [|m IH]; intros a HE Hlo Hhi; [rewrite Nat.add_0_r in Hhi; lra|].
  cbn [seq map]. cbn [interp_aux]. destruct (Rltb x (E (S a))) eqn:C.
  - apply Rltb_true in C. exists 0%nat. rewrite !Nat.add_0_r. split; [lia|]. split; [lra|]. reflexivity.
  - apply Rltb_false in C. destruct (IH (S a)) as (i & Hi & HB & HV).
    + intros i Hi. replace (S a + i)%nat with (a + S i)%nat by lia. apply HE. lia.
    + lra.
    + replace (S a + m)%nat with (a + S m)%nat by lia. exact Hhi.
    + exists (S i). replace (a + S i)%nat with (S a + i)%nat by lia. split; [lia|]. split; [exact HB|]. exact HV.
Qed.
(** image position of value x: the bin index plus the fraction of the bin below x, over n *)
Definition image_pos (n : nat) (E : nat -> R) (x p : R) : Prop :=
  exists i, (i < n)%nat /\ E i <= x < E (S i) /\ p = (INR i + (x - E i) / (E (S i) - E i)) / INR n.
Lemma interp_ok n E e x : (0 < n)%nat -> increasing n E -> vec e (S n) E -> E 0%nat < x < E n ->
  image_pos n E x (interp x (reals e) (reals (linspace 0 1 (n + 1)))).
Proof.
  intros Hn HE He Hx. rewrite (vec_reals _ _ _ He), (vec_reals _ _ _ (linspace_vec 0 1 n)). replace (n + 1)%nat with (S n) by lia.
  destruct (interp_aux_ok E (lin 0 1 n) x n 0) as (i & Hi & HB & HV); [intros i Hi; apply HE; exact Hi|lra|apply Hx|].
  unfold interp. cbn [seq map] in *. destruct (Rltb x (E 0%nat)) eqn:C; [apply Rltb_true in C; lra|].
  exists i. cbn [Nat.add] in *. split; [exact Hi|]. split; [exact HB|]. rewrite HV. unfold lin.
  assert (INR n <> 0) by (apply not_0_INR; lia). rewrite S_INR. field. split; lra.
Qed.
Lemma image_pos_range n E x p : increasing n E -> E 0%nat < x < E n -> image_pos n E x p -> 0 < p < 1.
Proof.
  intros HE Hx (i & Hi & HB & ->). assert (Hn : 0 < INR n) by (apply (lt_INR 0); lia).
  assert (F0 : 0 <= (x - E i) / (E (S i) - E i)) by (apply Rmult_le_pos; [lra|left; apply Rinv_0_lt_compat; lra]).
  assert (F1 : (x - E i) / (E (S i) - E i) < 1).
  { apply (Rmult_lt_reg_r (E (S i) - E i)); [lra|]. unfold Rdiv. rewrite Rmult_assoc, Rinv_l by lra. lra. }
  split.
  - apply Rmult_lt_0_compat; [|apply Rinv_0_lt_compat; exact Hn]. destruct i as [|i].
    + cbn [INR]. assert (0 < (x - E 0%nat) / (E 1%nat - E 0%nat)) by (apply Rmult_lt_0_compat; [lra|apply Rinv_0_lt_compat; lra]). lra.
    + assert (0 < INR (S i)) by (apply (lt_INR 0); lia). lra.
  - apply (Rmult_lt_reg_r (INR n)); [exact Hn|]. unfold Rdiv. rewrite Rmult_assoc, Rinv_l by lra.
    assert (INR (S i) <= INR n) by (apply le_INR; lia). rewrite S_INR in H. unfold Rdiv in F1. lra.
Qed.
Lemma image_pos_mono n E x y p q : increasing n E -> image_pos n E x p -> image_pos n E y q -> x < y -> p < q.
Proof.
  intros HE (i & Hi & HB & ->) (j & Hj & HC & ->) Hxy. assert (Hn : 0 < INR n) by (apply (lt_INR 0); lia).
  apply Rmult_lt_compat_r; [apply Rinv_0_lt_compat; exact Hn|].
  assert (L : (i <= j)%nat).
  { destruct (Nat.le_gt_cases i j) as [L|L]; [exact L|]. exfalso. assert (E (S j) <= E i).
    { destruct (Nat.eq_dec (S j) i) as [<-|]; [lra|]. left. apply (increasing_lt n); [exact HE|lia]. } lra. }
  assert (F1 : (x - E i) / (E (S i) - E i) < 1).
  { apply (Rmult_lt_reg_r (E (S i) - E i)); [lra|]. unfold Rdiv. rewrite Rmult_assoc, Rinv_l by lra. lra. }
  assert (F0 : 0 <= (y - E j) / (E (S j) - E j)) by (apply Rmult_le_pos; [lra|left; apply Rinv_0_lt_compat; lra]).
  destruct (Nat.eq_dec i j) as [<-|].
  - apply Rplus_lt_compat_l. apply Rmult_lt_compat_r; [apply Rinv_0_lt_compat; lra|lra].
  - assert (INR (S i) <= INR j) by (apply le_INR; lia). rewrite S_INR in H. lra.
Qed.

(** ticks ts are placed at positions ps of an axis with edges E *)
Definition placed (n : nat) (E : nat -> R) (ts ps : list R) : Prop :=
  List.length ps = List.length ts /\
  forall i, (i < List.length ts)%nat ->
    image_pos n E (nth i ts 0) (nth i ps 0) /\ E 0%nat < nth i ts 0 < E n /\ 0 < nth i ps 0 < 1 /\
    forall j, (j < List.length ts)%nat -> nth i ts 0 < nth j ts 0 -> nth i ps 0 < nth j ps 0.

Lemma kept_ticks_ok req old dflt e n E : vec e (S n) E -> kept_ticks req old dflt e =
  Ok (filter (fun x => Rltb (E 0%nat) x && Rltb x (E n))%bool (match req, old with Some t, _ => t | None, Some t => t | None, None => dflt end)).
Proof.
  intros He. unfold kept_ticks. rewrite (vec_first _ _ _ He) by lia. rewrite (vec_last_ _ _ _ He). cbn [bind]. reflexivity.
Qed.
Lemma filter_kept {A} (P : A -> bool) (Q : A -> Prop) l : (forall x, P x = true <-> Q x) -> kept Q l (filter P l).
Proof.
  intros H. induction l as [|x l IH]; cbn [filter]; [constructor|]. destruct (P x) eqn:C.
  - apply kept_yes; [apply H; exact C|exact IH].
  - apply kept_no; [intros Q'; apply H in Q'; congruence|exact IH].
Qed.
Lemma placed_ok n E e l : (0 < n)%nat -> increasing n E -> vec e (S n) E -> (forall x, In x l -> E 0%nat < x < E n) ->
  placed n E l (img_ticks l e n).
Proof.
  intros Hn HE He Hl. unfold img_ticks. split; [apply map_length|].
  set (h := fun x => interp x (reals e) (reals (linspace 0 1 (n + 1)))).
  assert (N : forall i, (i < List.length l)%nat -> nth i (map h l) 0 = h (nth i l 0)).
  { intros i Hi. rewrite (nth_indep _ 0 (h 0)) by (rewrite map_length; exact Hi). apply map_nth. }
  intros i Hi. rewrite N by exact Hi. assert (R1 := Hl _ (nth_In l 0 Hi)).
  assert (P1 := interp_ok n E e _ Hn HE He R1).
  split; [exact P1|]. split; [exact R1|]. split; [eapply image_pos_range; eassumption|].
  intros j Hj Hlt. rewrite N by exact Hj. eapply image_pos_mono; [exact HE|exact P1| |exact Hlt].
  apply interp_ok; try assumption. apply Hl. apply nth_In. exact Hj.
Qed.
Lemma ticks_claim g nL nz nt zE tE F treq zreq : (0 < nz)%nat -> (0 < nt)%nat -> increasing nz zE -> increasing nt tE ->
  templates_on g nL nz nt zE tE F ->
  exists g', set_tick_positions g treq zreq = Ok g' /\ templates_on g' nL nz nt zE tE F /\
    kept (fun x => tE 0%nat < x < tE nt) (match treq with Some l => l | None => g_t_ticks g end) (g_t_ticks g') /\
    kept (fun x => zE 0%nat < x < zE nz) (match zreq with Some l => l | None => g_z_ticks g end) (g_z_ticks g') /\
    placed nt tE (g_t_ticks g') (g_img_t_ticks g') /\ placed nz zE (g_z_ticks g') (g_img_z_ticks g').
Proof.
  intros Hnz Hnt HzE HtE Hg. unfold set_tick_positions.
  rewrite (kept_ticks_ok _ _ _ _ _ _ (to_te _ _ _ _ _ _ _ Hg)), (kept_ticks_ok _ _ _ _ _ _ (to_ze _ _ _ _ _ _ _ Hg)). cbn [bind].
  rewrite (to_dims _ _ _ _ _ _ _ Hg). cbn [fst snd].
  eexists; split; [reflexivity|]. destruct Hg as [A B C D E G H I J].
  split; [split; cbn; assumption || reflexivity|]. cbn [g_t_ticks g_z_ticks g_img_t_ticks g_img_z_ticks].
  assert (K : forall a b x, (Rltb a x && Rltb x b)%bool = true <-> a < x < b).
  { intros. rewrite andb_true_iff, !Rltb_true. tauto. }
  split; [apply filter_kept; apply K|]. split; [apply filter_kept; apply K|].
  split; apply placed_ok; try assumption; intros x Hx; apply filter_In in Hx; apply K; apply Hx.
Qed.
(** merging all ages into one bin leaves the stored tick positions where they were *)
Lemma stale_ticks_claim g nL nz nt zE tE F ka kz i : (0 < kz)%nat -> (nt <= ka)%nat -> (0 < nz)%nat -> (0 < nt)%nat ->
  increasing nz zE -> increasing nt tE -> templates_on g nL nz nt zE tE F ->
  placed nt tE (g_t_ticks g) (g_img_t_ticks g) -> (i < List.length (g_t_ticks g))%nat ->
  nth i (g_img_t_ticks g) 0 <> (nth i (g_t_ticks g) 0 - tE 0%nat) / (tE nt - tE 0%nat) ->
  exists g' zE' nz' tE' F', rebin_par_grid ka kz g = Ok g' /\ templates_on g' nL nz' 1 zE' tE' F' /\
    ~ placed 1 tE' (g_t_ticks g') (g_img_t_ticks g').
Proof.
  intros Hkz Hka Hnz Hnt HzE HtE Hg Hp Hi Hne.
  destruct (rebin_ok kz ka g nL nz nt zE tE F Hkz ltac:(lia) Hnz Hnt HzE HtE Hg) as (g' & E & Hg' & _ & _ & _ & _ & A1 & _ & A2 & _).
  assert (M : merged ka nt = 1%nat).
  { assert (0 < merged ka nt)%nat by (apply merged_pos; lia). destruct (Nat.lt_ge_cases 1 (merged ka nt)) as [L|L]; [|lia].
    apply merged_lt in L; lia. }
  rewrite M in Hg'. do 5 eexists. split; [exact E|]. split; [exact Hg'|]. rewrite A1, A2. intros [_ P].
  destruct (P i Hi) as ((k & Hk & HB & HV) & _). assert (k = 0%nat) as -> by lia. apply Hne. rewrite HV.
  unfold merged_edges. cbn [Nat.mul Nat.add Nat.min]. rewrite Nat.add_0_r, (Nat.min_r ka nt) by lia. cbn [INR].
  assert (tE 0%nat < tE nt) by (apply (increasing_lt nt); [exact HtE|lia]). field. lra.
Qed.
