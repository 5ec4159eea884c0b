(** * Enrich: the enrichment model as a function of age and depletion time (C93). *)
From Coq Require Import Reals Lra Lia List Bool Arith ZArith String Ascii.
From Verif Require Import Num NumLemmas Arr ArrLemmas PyStr Cube Base Parametric GrowingDisk Stream Spec SpecLemmas Repr
  ParSpec ParRepr ParSetSpec CubeLemmas VecLemmas CubeGeom BaseLemmas CondLemmas ParLemmas ParSetLemmas ParEnrich
  DiskLemmas StreamLemmas ParClaims EnrichSpec.
From Verif Require MomClaims.
Import ListNotations.
Local Open Scope R_scope.

(** ** the nearest depletion time of the table *)
Lemma nearest_mono n td td' : (1 < n)%nat -> td <= td' -> (nearest n td <= nearest n td')%nat.
Proof.
  intros Hn Ht. destruct (Nat.le_gt_cases (nearest n td) (nearest n td')) as [|Hlt]; [assumption|exfalso].
  destruct (nearest_ok n td ltac:(lia)) as [H1 H2]. destruct (nearest_ok n td' ltac:(lia)) as [H3 H4].
  specialize (H2 _ H3). specialize (H4 _ H1). pose proof (t_dep_lt n _ _ Hn Hlt) as HT.
  assert (td = td').
  { revert H2 H4. unfold Rabs. repeat destruct (Rcase_abs _); lra. }
  subst td'. lia.
Qed.
Lemma nearest_below n td : (1 < n)%nat -> td <= 1 / 10 -> nearest n td = 0%nat.
Proof.
  intros Hn Htd. destruct (nearest_ok n td ltac:(lia)) as [H0 H].
  destruct (Nat.eq_dec (nearest n td) 0) as [|Hne]; [assumption|exfalso].
  specialize (H 0%nat ltac:(lia)). rewrite t_dep_first in H.
  pose proof (t_dep_lt n 0 (nearest n td) Hn ltac:(lia)) as Hlt. rewrite t_dep_first in Hlt.
  rewrite !Rabs_left1 in H by lra. lra.
Qed.
Definition rho (n : nat) : R := Rpower 10 (2 / INR (n - 1)).
Lemma rho_gt n : (1 < n)%nat -> 1 < rho n.
Proof.
  intros Hn. unfold rho. replace 1 with (Rpower 10 0) by (apply Rpower_O; lra). apply Rpower_lt; [lra|].
  apply Rdiv_lt_0_compat; [lra|apply lt_0_INR; lia].
Qed.
(** relative distance to the nearest one *)
Lemma nearest_rel n td : (1 < n)%nat -> 1 / 10 <= td <= 10 ->
  let T := grid_t_dep n (nearest n td) in Rabs (td - T) <= T * ((rho n - 1) / 2).
Proof.
  intros Hn Htd T. destruct (nearest_within n td Hn Htd) as (k & Hk & Hb & H). fold T in H.
  destruct (nearest_ok n td ltac:(lia)) as [_ HN]. specialize (HN k ltac:(lia)). fold T in HN.
  rewrite (t_dep_step n k Hn) in H. fold (rho n) in H. pose proof (rho_gt n Hn).
  assert (grid_t_dep n k <= T).
  { revert HN. unfold Rabs. repeat destruct (Rcase_abs _); lra. }
  nra.
Qed.
(** depletion times more than a step apart are not represented by the same one *)
Lemma nearest_strict n td td' : (1 < n)%nat -> 1 / 10 <= td -> td' <= 10 -> rho n * td < td' ->
  (nearest n td < nearest n td')%nat.
Proof.
  intros Hn Hlo Hhi Hr. pose proof (rho_gt n Hn) as Hrho.
  destruct (Nat.lt_ge_cases (nearest n td) (nearest n td')) as [|Hge]; [assumption|exfalso].
  destruct (nearest_ok n td ltac:(lia)) as [H1 H2]. destruct (nearest_ok n td' ltac:(lia)) as [H3 H4].
  set (i := nearest n td) in *. set (j := nearest n td') in *. set (T := grid_t_dep n) in *.
  assert (Hup : td' <= (T j + rho n * T j) / 2).
  { destruct (Nat.eq_dec j (n - 1)) as [E|E].
    - rewrite E. unfold T. rewrite (t_dep_last n Hn). lra.
    - specialize (H4 (S j) ltac:(lia)). unfold T in *. rewrite (t_dep_step n j Hn) in H4. fold (rho n) in H4.
      pose proof (t_dep_pos n j). revert H4. unfold Rabs. repeat destruct (Rcase_abs _); nra. }
  destruct j as [|j'].
  - unfold T in Hup. rewrite t_dep_first in Hup. nra.
  - assert (Es : T (S j') = rho n * T j') by (unfold T; rewrite (t_dep_step n j' Hn); fold (rho n); ring).
    specialize (H2 j' ltac:(lia)).
    assert (HTi : T (S j') <= T i).
    { destruct (Nat.eq_dec (S j') i) as [->|]; [lra|]. left. apply t_dep_lt; [assumption|lia]. }
    pose proof (t_dep_pos n j') as Hp. fold T in Hp. rewrite Es in *.
    assert (td < (T j' + rho n * T j') / 2).
    { apply Rmult_lt_reg_l with (rho n); [lra|]. eapply Rlt_le_trans; [exact Hr|]. lra. }
    assert (T j' < rho n * T j') by nra.
    revert H2. unfold Rabs. repeat destruct (Rcase_abs _); lra.
Qed.

(** ** the enrichment relation *)
Definition phi (z : R) : R := z / (1 - ahat * rpow z bhat).
Lemma grid_t_phi tH td z : grid_t tH td z = tH - td * phi z.
Proof. unfold grid_t, phi, Rdiv. ring. Qed.
Lemma phi_ratio z y : 0 <= z <= y -> y <= z_max -> y * phi z <= z * phi y.
Proof.
  intros Hz Hy. unfold phi. pose proof (denom_pos z ltac:(lra)). pose proof (denom_pos y ltac:(lra)).
  pose proof (rpow_le z y bhat bhat_pos ltac:(lra)). pose proof ahat_pos.
  replace (y * (z / (1 - ahat * rpow z bhat))) with (y * z * / (1 - ahat * rpow z bhat)) by (unfold Rdiv; ring).
  replace (z * (y / (1 - ahat * rpow y bhat))) with (y * z * / (1 - ahat * rpow y bhat)) by (unfold Rdiv; ring).
  apply Rmult_le_compat_l; [nra|]. apply Rinv_le_contravar; [assumption|]. nra.
Qed.
Lemma phi_pos z : 0 < z <= z_max -> 0 < phi z.
Proof. intros. unfold phi. apply Rdiv_lt_0_compat; [lra|apply denom_pos; lra]. Qed.
Lemma phi_nonneg z : 0 <= z <= z_max -> 0 <= phi z.
Proof. intros. unfold phi. apply Rmult_le_pos; [lra|left; apply Rinv_0_lt_compat, denom_pos; lra]. Qed.
Lemma phi_lt z y : 0 <= z -> z < y -> y <= z_max -> phi z < phi y.
Proof.
  intros. pose proof (grid_t_anti 0 1 z y ltac:(lra) ltac:(assumption) ltac:(assumption) ltac:(assumption)) as H2.
  rewrite !grid_t_phi in H2. lra.
Qed.
(** metallicities reached at the same age: their ratio is at most that of the times *)
Lemma phi_scale_up z y s : 0 < z <= z_max -> 0 <= y <= z_max -> 0 < s -> phi y <= s * phi z -> y <= Rmax 1 s * z.
Proof.
  intros Hz Hy Hs H. destruct (Rle_dec y z) as [|Hn].
  - pose proof (Rmax_l 1 s). nra.
  - pose proof (phi_ratio z y ltac:(lra) ltac:(lra)) as HR. pose proof (phi_pos z Hz). pose proof (Rmax_r 1 s).
    assert (y * phi z <= z * s * phi z) by nra. assert (y <= z * s) by (apply Rmult_le_reg_r with (phi z); assumption). nra.
Qed.
Lemma phi_scale_down z y s : 0 < z <= z_max -> 0 <= y <= z_max -> 0 < s -> s * phi z <= phi y -> Rmin 1 s * z <= y.
Proof.
  intros Hz Hy Hs H. destruct (Rle_dec z y) as [|Hn].
  - pose proof (Rmin_l 1 s). nra.
  - pose proof (phi_ratio y z ltac:(lra) ltac:(lra)) as HR. pose proof (phi_pos z Hz). pose proof (Rmin_r 1 s).
    assert (z * s * phi z <= y * phi z) by nra. assert (z * s <= y) by (apply Rmult_le_reg_r with (phi z); assumption). nra.
Qed.

Section Table.
Context (n : nat) (Hn : (1 < n)%nat) (tH : R).

Lemma zmean_slow td td' tau : 0 < td -> td < td' -> tau < tH ->
  zmean n tH td' tau <= zmean n tH td tau /\ (zmean n tH td' tau < z_max -> zmean n tH td' tau < zmean n tH td tau).
Proof.
  intros Htd Hlt Ht. pose proof (zmean_range n Hn tH td' tau Ht) as HR.
  destruct (zmean_cases n Hn tH td tau Ht) as [[Hb ->]|(j & Hj & Hb & Hz & E)]; [lra|].
  assert (Hxx : forall k, (k <= n - 1)%nat -> grid_t tH td' (grid_z n k) <= grid_t tH td (grid_z n k)).
  { intros k Hk. rewrite !grid_t_phi. pose proof (phi_nonneg _ (gz_range n Hn k Hk)). nra. }
  destruct (zmean_cases n Hn tH td' tau Ht) as [[Hb' E']|(j' & Hj' & Hb' & Hz' & E')]; cbv beta in *.
  { exfalso. pose proof (Hxx 0%nat ltac:(lia)). destruct (Nat.eq_dec j 0) as [->|]; [lra|].
    pose proof (xp_lt n Hn tH td Htd 0 j ltac:(lia) ltac:(lia)). lra. }
  assert (Hjj : (j <= j')%nat).
  { destruct (Nat.le_gt_cases j j') as [|Hgt]; [assumption|exfalso].
    pose proof (Hxx j ltac:(lia)) as Q.
    destruct (Nat.eq_dec (S j') j) as [<-|]; [lra|].
    pose proof (xp_lt n Hn tH td' ltac:(lra) (S j') j ltac:(lia) ltac:(lia)). lra. }
  enough (zmean n tH td' tau < zmean n tH td tau) by lra.
  destruct (Nat.eq_dec j j') as [<-|Hne].
  - rewrite E, E'. pose proof (gz_step_pos n Hn) as Hs.
    rewrite !grid_t_phi in *. set (a := phi (grid_z n j)) in *. set (b := phi (grid_z n (S j))) in *.
    assert (b < a) by (apply phi_lt; [apply gz_range; [assumption|lia]|apply gz_lt; [assumption|lia]|apply gz_range; [assumption|lia]]).
    enough ((tau - (tH - td * a)) / (tH - td * b - (tH - td * a)) < (tau - (tH - td' * a)) / (tH - td' * b - (tH - td' * a))) by nra.
    replace ((tau - (tH - td * a)) / (tH - td * b - (tH - td * a))) with ((a - (tH - tau) / td) / (a - b)) by (field; split; nra).
    replace ((tau - (tH - td' * a)) / (tH - td' * b - (tH - td' * a))) with ((a - (tH - tau) / td') / (a - b)) by (field; split; nra).
    apply Rmult_lt_compat_r; [apply Rinv_0_lt_compat; lra|].
    enough ((tH - tau) / td' < (tH - tau) / td) by lra.
    apply Rmult_lt_compat_l; [lra|]. apply Rinv_lt_contravar; [nra|assumption].
  - pose proof (gz_le n Hn (S j) j' ltac:(lia)). lra.
Qed.

(** how far the mean is from the solution for another depletion time *)
Lemma zmean_other T td z tau : 0 < T -> 0 < td -> 0 < z <= z_max -> tau < tH -> tH - tau = td * phi z ->
  (Rmin 1 (td / T) - 1) * z - z_max / INR (n - 1) <= zmean n tH T tau - z <= (Rmax 1 (td / T) - 1) * z + z_max / INR (n - 1).
Proof.
  intros HT Htd Hz Ht Hs. pose proof (gz_step_pos n Hn) as Hst.
  assert (Hsp : 0 < td / T) by (apply Rdiv_lt_0_compat; assumption).
  assert (Hconv : forall y, T * phi y = T * phi y) by reflexivity.
  assert (HsT : td / T * phi z * T = tH - tau) by (rewrite Hs; field; lra).
  destruct (zmean_cases n Hn tH T tau Ht) as [[Hb ->]|(j & Hj & Hb & Hzz & _)].
  - rewrite gz_first in Hb by assumption. rewrite grid_t_phi in Hb.
    assert (phi z_max <= td / T * phi z) by (apply Rmult_le_reg_r with T; [assumption|lra]).
    pose proof (phi_scale_up z z_max (td / T) Hz ltac:(pose proof z_max_pos; lra) Hsp ltac:(assumption)).
    split; [|nra]. pose proof (Rmin_l 1 (td / T)). nra.
  - rewrite !grid_t_phi in Hb.
    pose proof (gz_range n Hn j ltac:(lia)) as G1. pose proof (gz_range n Hn (S j) ltac:(lia)) as G2. pose proof (gz_step n Hn j) as Gs.
    assert (A : phi (grid_z n (S j)) <= td / T * phi z) by (apply Rmult_le_reg_r with T; [assumption|lra]).
    assert (B : td / T * phi z <= phi (grid_z n j)) by (apply Rmult_le_reg_r with T; [assumption|lra]).
    pose proof (phi_scale_up z _ (td / T) Hz G2 Hsp A). pose proof (phi_scale_down z _ (td / T) Hz G1 Hsp B).
    split; lra.
Qed.
(** and where the solution for it would be above z_max *)
Lemma zmean_other_young T td tau : 0 < T -> 0 < td -> tau < tH -> td * phi z_max < tH - tau ->
  (Rmin 1 (td / T) - 1) * z_max - z_max / INR (n - 1) <= zmean n tH T tau - z_max.
Proof.
  intros HT Htd Ht Hs. pose proof (gz_step_pos n Hn) as Hst. pose proof z_max_pos as Hm.
  assert (Hsp : 0 < td / T) by (apply Rdiv_lt_0_compat; assumption).
  destruct (zmean_cases n Hn tH T tau Ht) as [[Hb ->]|(j & Hj & Hb & Hzz & _)].
  - pose proof (Rmin_l 1 (td / T)). nra.
  - rewrite !grid_t_phi in Hb.
    pose proof (gz_range n Hn j ltac:(lia)) as G1. pose proof (gz_step n Hn j) as Gs.
    assert (B : td / T * phi z_max <= phi (grid_z n j)).
    { apply Rmult_le_reg_r with T; [assumption|]. replace (td / T * phi z_max * T) with (td * phi z_max) by (field; lra). lra. }
    pose proof (phi_scale_down z_max _ (td / T) ltac:(lra) G1 Hsp B). lra.
Qed.
End Table.

Lemma n_grid_999 : INR (n_grid - 1) = 999.
Proof. assert (E : (n_grid - 1 = 999)%nat) by reflexivity. rewrite E, INR_IZR_INZ. reflexivity. Qed.
Lemma rho_ratio : rho n_grid = t_dep_ratio.
Proof. unfold rho, t_dep_ratio. rewrite n_grid_999. reflexivity. Qed.
Lemma ratio_bounds td : 1 / 10 <= td <= 10 -> let s := td / grid_t_dep n_grid (nearest n_grid td) in
  1 - (t_dep_ratio - 1) / 2 <= Rmin 1 s /\ Rmax 1 s <= 1 + (t_dep_ratio - 1) / 2.
Proof.
  intros Htd. pose proof (nearest_rel n_grid td n_grid_gt Htd) as H. cbv zeta in *. rewrite rho_ratio in H.
  pose proof (t_dep_pos n_grid (nearest n_grid td)) as HT. set (T := grid_t_dep n_grid (nearest n_grid td)) in *.
  pose proof (rho_gt n_grid n_grid_gt) as Hr. rewrite rho_ratio in Hr. set (e := (t_dep_ratio - 1) / 2) in *.
  assert (He : 0 < e) by (unfold e; lra).
  assert (Es : td = td / T * T) by (field; lra). set (s := td / T) in *. rewrite Es in H.
  assert (Hs : Rabs (s - 1) <= e).
  { replace (s * T - T) with (T * (s - 1)) in H by ring. rewrite Rabs_mult, (Rabs_right T) in H by lra. nra. }
  assert (- e <= s - 1 <= e) by (revert Hs; unfold Rabs; destruct (Rcase_abs _); lra). unfold Rmin, Rmax. destruct (Rle_dec 1 s); lra.
Qed.

Lemma zm_law g : good_grid g -> mean_law g (zm g).
Proof.
  intros Hg. split.
  - intros. apply zm_range; assumption.
  - intros td t t' H1 H2. unfold zm. apply zmean_anti; [exact n_grid_gt|apply t_dep_pos|apply (MomClaims.mid_mono (nt g)); [apply (gg_tE _ Hg)|lia|lia]|apply mid_lt; assumption].
  - intros td td' t Ht H. unfold zm. pose proof (nearest_mono n_grid td td' n_grid_gt H) as HN.
    destruct (Nat.eq_dec (nearest n_grid td) (nearest n_grid td')) as [->|Hne]; [lra|].
    apply zmean_slow; [exact n_grid_gt|apply t_dep_pos|apply t_dep_lt; [exact n_grid_gt|lia]|apply mid_lt; assumption].
  - intros td td' t Ht H1 H2 H3. unfold zm. rewrite <- rho_ratio in H3.
    pose proof (nearest_strict n_grid td td' n_grid_gt H1 H2 H3).
    apply zmean_slow; [exact n_grid_gt|apply t_dep_pos|apply t_dep_lt; [exact n_grid_gt|lia]|apply mid_lt; assumption].
  - intros td t z Ht Htd Hz HE. unfold enriched in HE.
    assert (HE' : tE g (nt g) - mid (tE g) t = td * phi z) by (unfold phi; rewrite HE; unfold Rdiv; ring).
    pose proof (zmean_other n_grid n_grid_gt (tE g (nt g)) _ td z (mid (tE g) t) (t_dep_pos n_grid (nearest n_grid td)) ltac:(lra) Hz (mid_lt g t Hg Ht) HE') as HB.
    fold (zm g td t) in HB. rewrite n_grid_999 in HB. pose proof (ratio_bounds td Htd) as HR. cbv zeta in HR.
    apply Rabs_le. nra.
  - intros td t Ht Htd HE.
    assert (HE' : td * phi z_max < tE g (nt g) - mid (tE g) t) by (unfold phi, Rdiv in *; nra).
    pose proof (zmean_other_young n_grid n_grid_gt (tE g (nt g)) _ td (mid (tE g) t) (t_dep_pos n_grid (nearest n_grid td)) ltac:(lra) (mid_lt g t Hg Ht) HE') as HB.
    fold (zm g td t) in HB. rewrite n_grid_999 in HB. pose proof (ratio_bounds td Htd) as HR. cbv zeta in HR. pose proof z_max_pos. nra.
  - intros td t Htd. unfold zm. rewrite !nearest_below; [reflexivity|exact n_grid_gt|lra|exact n_grid_gt|assumption].
  - intros td t Htd. unfold zm. rewrite !nearest_above; [reflexivity|exact n_grid_gt|lra|exact n_grid_gt|assumption].
Qed.

Lemma pz_dist g F mu : good_grid g -> good_norm F -> zdist g F mu (pz g F mu).
Proof.
  intros Hg HF. split; [|split].
  - intros; apply pz_pos; assumption.
  - apply pz_total; assumption.
  - intros k l _ _. unfold pz. change (znorm g F mu (ahat * Rpower mu bhat)) with (zbin g F mu).
    pose proof (zden_pos g F mu Hg HF). field. lra.
Qed.

(** the claims *)
Section Claims.
Context (L : stats_lib) (self : par) (g : grid).
Context (Hc : cube_on (pa_cube self) g) (Hg : good_grid g) (Hz : zgrid_on self g) (HF : good_norm (norm_cdf L)).

Lemma map_claim (t_dep : arr num) (td : map2d) : shp t_dep = [nx g; ny g] ->
  (forall x y, (x < nx g)%nat -> (y < ny g)%nat -> ent t_dep [x; y] = Fin (td x y)) ->
  exists self' a p, set_p_z_tx L self t_dep = Ok self' /\ pa_log_p_z_tx self' = Some a /\ shp a = [nz g; nt g; nx g; ny g] /\
    forall t x y, (t < nt g)%nat -> (x < nx g)%nat -> (y < ny g)%nat ->
      zdist g (norm_cdf L) (zm g (td x y) t) (p t x y) /\
      forall k, (k < nz g)%nat -> ent a [k; t; x; y] = nlog (Fin (p t x y k)).
Proof.
  intros Hs He.
  assert (Ha : arr_is t_dep [nx g; ny g] (fun idx => match idx with [x; y] => Fin (td x y) | _ => NaN end)).
  { split; [exact Hs|]. intros idx Hi; inb_inv. apply He; assumption. }
  destruct (enrichment_ok L self g t_dep td Hc Hg Hz HF Ha) as (a & E & S1 & S2).
  unfold set_p_z_tx. rewrite E. cbn [bind].
  eexists _, a, (fun t x y k => pz g (norm_cdf L) (zm g (td x y) t) k). split; [reflexivity|]. split; [reflexivity|]. split; [exact S1|].
  intros t x y H1 H2 H3. split; [apply pz_dist; assumption|]. intros k H4. exact (S2 [k; t; x; y] ltac:(inbs)).
Qed.
Lemma stream_claim td : exists self' a p, stream_set_t_dep L self td = Ok self' /\ pa_log_p_z_tx self' = Some a /\ shp a = [nz g; nt g; nx g; ny g] /\
    forall t, (t < nt g)%nat -> zdist g (norm_cdf L) (zm g td t) (p t) /\
      forall k x y, (k < nz g)%nat -> (x < nx g)%nat -> (y < ny g)%nat -> ent a [k; t; x; y] = nlog (Fin (p t k)).
Proof.
  destruct (stream_t_dep_ok L self g td Hc Hg Hz HF) as (a & E & S1 & S2).
  eexists _, a, (fun t k => pz g (norm_cdf L) (zm g td t) k). split; [exact E|]. split; [reflexivity|]. split; [exact S1|].
  intros t H1. split; [apply pz_dist; assumption|]. intros k x y H2 H3 H4. exact (S2 [k; t; x; y] ltac:(inbs)).
Qed.
Lemma model_claim td : exists a p, enrichment_model L self td = Ok a /\ shp a = [nz g; nt g] /\
    forall t, (t < nt g)%nat -> zdist g (norm_cdf L) (zm g td t) (p t) /\
      forall k, (k < nz g)%nat -> ent a [k; t] = Fin (p t k).
Proof.
  unfold enrichment_model. rewrite (co_nx _ _ Hc), (co_ny _ _ Hc).
  assert (Ha : arr_is (full [nx g; ny g] (Fin td)) [nx g; ny g] (fun idx => match idx with [x; y] => Fin td | _ => NaN end)).
  { split; [reflexivity|]. intros idx Hi; inb_inv. reflexivity. }
  destruct (enrichment_ok L self g _ (fun _ _ => td) Hc Hg Hz HF Ha) as (a & E & Sa).
  rewrite E. cbn [bind].
  assert (He : arr_is (amap nexp a) [nz g; nt g; nx g; ny g] (fun idx => match idx with
      | [k; t; x; y] => Fin (pz g (norm_cdf L) (zm g td t) k) | _ => NaN end)).
  { apply (amap_is nexp) in Sa. eapply arr_is_ext; [exact Sa|]. intros idx Hi; inb_inv.
    apply nexp_lg. left. apply pz_pos; assumption. }
  revert He. generalize (amap nexp a). intros b Hb. pose proof (gg_x _ Hg). pose proof (gg_y _ Hg).
  assert (P : gi_shape [IAll; IAll; IInt 0; IInt 0] [nz g; nt g; nx g; ny g] = Some [nz g; nt g]).
  { assert (Q : forall d, (0 < d)%nat -> int_ok d 0 = true) by (intros d Hd; unfold int_ok; apply andb_true_iff; split; [apply Z.leb_le|apply Z.ltb_lt]; lia).
    cbn [gi_shape]. rewrite !Q by assumption. reflexivity. }
  destruct (getitem_is' _ b _ _ _ Hb P) as (r & Er & Q1 & Q2). rewrite Er.
  eexists _, (fun t k => pz g (norm_cdf L) (zm g td t) k).
  split; [reflexivity|].
  split; [exact Q1|]. intros t Ht. split; [apply pz_dist; assumption|]. intros k Hk. rewrite Q2 by inbs. reflexivity.
Qed.
End Claims.

Lemma disk_gradient L self g X Y q al a b lo hi : cube_on (pa_cube self) g -> good_grid g -> zgrid_on self g -> good_norm (norm_cdf L) ->
  xy_on self g X Y -> 0 < max_abs g X -> tdep_args_ok q al a b lo hi ->
  exists self' w p mu, disk_set_t_dep L self q al a b lo hi = Ok self' /\ pa_log_p_z_tx self' = Some w /\ shp w = [nz g; nt g; nx g; ny g] /\
    (forall t x y, (t < nt g)%nat -> (x < nx g)%nat -> (y < ny g)%nat ->
      zdist g (norm_cdf L) (mu t x y) (p t x y) /\
      (forall k, (k < nz g)%nat -> ent w [k; t; x; y] = nlog (Fin (p t x y k))) /\
      Rmin (zm g a t) (zm g b t) <= mu t x y <= Rmax (zm g a t) (zm g b t)) /\
    (forall t x y x' y', (t < nt g)%nat -> let r := ell q (X x y) (Y x y) in let r' := ell q (X x' y') (Y x' y') in
      (r <= r' -> a <= b -> mu t x' y' <= mu t x y) /\ (r <= r' -> b <= a -> mu t x y <= mu t x' y') /\
      (r = r' -> mu t x y = mu t x' y' /\ p t x y = p t x' y') /\
      (r = 0 -> 0 < al -> mu t x y = zm g a t) /\ (max_abs g X <= r -> mu t x y = zm g b t)).
Proof.
  intros Hc Hg Hz HF Hxy Hm Hok.
  destruct (disk_t_dep_ok self g X Y Hc Hg Hxy Hm L q al a b lo hi Hz HF Hok) as (td & w & E & _ & W1 & W2).
  eexists _, w, (fun t x y => pz g (norm_cdf L) (zm g (disk_tdep g X Y q al a b x y) t)), (fun t x y => zm g (disk_tdep g X Y q al a b x y) t).
  split; [exact E|]. split; [reflexivity|]. split; [exact W1|]. pose proof (zm_law g Hg) as HM. split.
  - intros t x y Ht Hx Hy. split; [apply pz_dist; assumption|]. split; [intros k Hk; exact (W2 [k; t; x; y] ltac:(inbs))|].
    unfold disk_tdep. pose proof (in_out_between a b (max_abs g X) al (ell q (X x y) (Y x y)) Hm) as HB.
    set (v := in_out _ _ _ _ _) in *.
    assert (A : forall u u', u <= u' -> zm g u' t <= zm g u t) by (intros; apply (ml_slow _ _ HM); assumption).
    revert HB. unfold Rmin at 1, Rmax at 1. destruct (Rle_dec a b) as [Hab|Hab]; intros [B1 B2]; apply A in B1, B2.
    + split; [eapply Rle_trans; [apply Rmin_r|exact B2]|eapply Rle_trans; [exact B1|apply Rmax_l]].
    + split; [eapply Rle_trans; [apply Rmin_l|exact B2]|eapply Rle_trans; [exact B1|apply Rmax_r]].
  - intros t x y x' y' Ht r r'. unfold disk_tdep. fold r r'. destruct Hok as (H1 & H2 & _).
    assert (Hr : 0 <= r) by apply ell_nonneg. assert (Hr' : 0 <= r') by apply ell_nonneg.
    split; [|split; [|split; [|split]]].
    + intros H Hab. apply (ml_slow _ _ HM); [assumption|]. apply (in_out_mono a b (max_abs g X) al r r' Hm H2 (conj Hr H)); assumption.
    + intros H Hab. apply (ml_slow _ _ HM); [assumption|]. apply (in_out_mono a b (max_abs g X) al r r' Hm H2 (conj Hr H)); assumption.
    + intros <-. split; reflexivity.
    + intros -> Hal. rewrite in_out_0 by assumption. reflexivity.
    + intros H. rewrite in_out_far by assumption. reflexivity.
Qed.

Theorem enrichment_claim : forall g, good_grid g -> exists M, mean_law g M /\
  forall L self, cube_on (pa_cube self) g -> zgrid_on self g -> good_norm (norm_cdf L) ->
  (forall (t_dep : arr num) (td : map2d), shp t_dep = [nx g; ny g] ->
    (forall x y, (x < nx g)%nat -> (y < ny g)%nat -> ent t_dep [x; y] = Fin (td x y)) ->
    exists self' a p, set_p_z_tx L self t_dep = Ok self' /\ pa_log_p_z_tx self' = Some a /\ shp a = [nz g; nt g; nx g; ny g] /\
      forall t x y, (t < nt g)%nat -> (x < nx g)%nat -> (y < ny g)%nat ->
        zdist g (norm_cdf L) (M (td x y) t) (p t x y) /\
        forall k, (k < nz g)%nat -> ent a [k; t; x; y] = nlog (Fin (p t x y k))) /\
  (forall td, exists self' a p, stream_set_t_dep L self td = Ok self' /\ pa_log_p_z_tx self' = Some a /\ shp a = [nz g; nt g; nx g; ny g] /\
      forall t, (t < nt g)%nat -> zdist g (norm_cdf L) (M td t) (p t) /\
        forall k x y, (k < nz g)%nat -> (x < nx g)%nat -> (y < ny g)%nat -> ent a [k; t; x; y] = nlog (Fin (p t k))) /\
  (forall td, exists a p, enrichment_model L self td = Ok a /\ shp a = [nz g; nt g] /\
      forall t, (t < nt g)%nat -> zdist g (norm_cdf L) (M td t) (p t) /\ forall k, (k < nz g)%nat -> ent a [k; t] = Fin (p t k)) /\
  (forall X Y q al a b lo hi, xy_on self g X Y -> 0 < max_abs g X -> tdep_args_ok q al a b lo hi ->
    exists self' w p mu, disk_set_t_dep L self q al a b lo hi = Ok self' /\ pa_log_p_z_tx self' = Some w /\ shp w = [nz g; nt g; nx g; ny g] /\
    (forall t x y, (t < nt g)%nat -> (x < nx g)%nat -> (y < ny g)%nat ->
      zdist g (norm_cdf L) (mu t x y) (p t x y) /\
      (forall k, (k < nz g)%nat -> ent w [k; t; x; y] = nlog (Fin (p t x y k))) /\
      Rmin (M a t) (M b t) <= mu t x y <= Rmax (M a t) (M b t)) /\
    (forall t x y x' y', (t < nt g)%nat -> let r := ell q (X x y) (Y x y) in let r' := ell q (X x' y') (Y x' y') in
      (r <= r' -> a <= b -> mu t x' y' <= mu t x y) /\ (r <= r' -> b <= a -> mu t x y <= mu t x' y') /\
      (r = r' -> mu t x y = mu t x' y' /\ p t x y = p t x' y') /\
      (r = 0 -> 0 < al -> mu t x y = M a t) /\ (max_abs g X <= r -> mu t x y = M b t))).
Proof.
  intros g Hg. exists (zm g). split; [apply zm_law; assumption|]. intros L self Hc Hz HF.
  split; [intros; apply map_claim; assumption|]. split; [intros; apply stream_claim; assumption|].
  split; [intros; apply model_claim; assumption|]. intros; apply disk_gradient; assumption.
Qed.

(** the density is determined by the mean *)
Lemma zdist_unique g F mu p q : good_grid g -> good_norm F -> zdist g F mu p -> zdist g F mu q ->
  forall k, (k < nz g)%nat -> p k = q k.
Proof.
  intros Hg HF (P1 & P2 & P3) (Q1 & Q2 & Q3) k Hk.
  change (znorm g F mu (ahat * Rpower mu bhat)) with (zbin g F mu) in *.
  assert (U : forall r : nat -> R, Sum (nz g) (fun j => r j * wid (zE g) j) = 1 ->
    (forall i l, (i < nz g)%nat -> (l < nz g)%nat -> r i * zbin g F mu l = r l * zbin g F mu i) -> r k * zden g F mu = zbin g F mu k).
  { intros r R2 R3. unfold zden. rewrite <- Sum_scal.
    rewrite (Sum_ext _ _ (fun j => zbin g F mu k * (r j * wid (zE g) j))).
    - rewrite Sum_scal, R2. ring.
    - intros j Hj. rewrite <- Rmult_assoc, (R3 k j Hk Hj). ring. }
  pose proof (zden_pos g F mu Hg HF). apply Rmult_eq_reg_r with (zden g F mu); [|lra].
  rewrite (U p P2 P3), (U q Q2 Q3). reflexivity.
Qed.

(** below z_max when the relation stays below it *)
Lemma zmean_uncapped n tH td tau : (1 < n)%nat -> 0 < td -> grid_t tH td z_max < tau < tH -> zmean n tH td tau < z_max.
Proof.
  intros Hn Htd Ht. destruct (zmean_cases n Hn tH td tau ltac:(lra)) as [[Hb _]|(j & Hj & Hb & Hz & E)]; cbv beta in *.
  - rewrite gz_first in Hb by assumption. lra.
  - destruct j as [|j].
    + rewrite E, gz_first by assumption. rewrite gz_first in Hb by assumption. pose proof (gz_step_pos n Hn).
      assert (0 < (tau - grid_t tH td z_max) / (grid_t tH td (grid_z n 1) - grid_t tH td z_max)) by (apply Rdiv_lt_0_compat; lra). nra.
    + pose proof (gz_lt n Hn 0 (S j) ltac:(lia)) as Q. rewrite gz_first in Q by assumption. lra.
Qed.
