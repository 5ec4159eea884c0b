(** * ParEnrich: the chemical enrichment model (claims C47, C48, C74). *)
From Coq Require Import Reals Lra Lia List Bool Arith ZArith String Ascii.
From Verif Require Import Num NumLemmas Arr ArrLemmas PyStr Cube Base Parametric Spec SpecLemmas Repr
  ParSpec ParRepr ParSetSpec CubeLemmas VecLemmas CubeGeom BaseLemmas CondLemmas ParLemmas ParSetLemmas.
Import ListNotations.
Local Open Scope R_scope.

(** ** first smallest entry of a list *)
Lemma argmin_from_ok l : forall b bi i,
  (argmin_from (Fin b) bi i (map Fin l) = bi /\ forall k, (k < List.length l)%nat -> b <= nth k l 0) \/
  (exists k, (k < List.length l)%nat /\ argmin_from (Fin b) bi i (map Fin l) = (i + k)%nat /\
     nth k l 0 < b /\ forall k', (k' < List.length l)%nat -> nth k l 0 <= nth k' l 0).
Proof.
  induction l as [|a l IH]; intros b bi i.
  - left. split; [reflexivity|]. cbn; lia.
  - cbn [map argmin_from is_nan orb nlt]. unfold Rltb. destruct (Rlt_dec a b) as [Hab|Hab].
    + destruct (IH a i (S i)) as [[E H]|(k & Hk & E & H1 & H2)].
      * right. exists 0%nat. cbn [nth List.length]. split; [lia|]. split; [rewrite E; lia|]. split; [assumption|].
        intros [|k'] Hk'; [lra|]. apply H. lia.
      * right. exists (S k). cbn [nth List.length]. split; [lia|]. split; [rewrite E; lia|]. split; [lra|].
        intros [|k'] Hk'; [lra|]. apply H2. lia.
    + destruct (IH b bi (S i)) as [[E H]|(k & Hk & E & H1 & H2)].
      * left. split; [exact E|]. intros [|k'] Hk'; cbn [nth]; [lra|]. apply H. cbn in Hk'. lia.
      * right. exists (S k). cbn [nth List.length]. split; [lia|]. split; [rewrite E; lia|]. split; [assumption|].
        intros [|k'] Hk'; [lra|]. apply H2. lia.
Qed.
Lemma argmin_ok l : l <> [] -> (argmin (map Fin l) < List.length l)%nat /\
  forall k, (k < List.length l)%nat -> nth (argmin (map Fin l)) l 0 <= nth k l 0.
Proof.
  destruct l as [|a l]; [congruence|]. intros _. cbn [map argmin].
  destruct (argmin_from_ok l a 0 1) as [[-> H]|(k & Hk & -> & H1 & H2)].
  - cbn [List.length nth]. split; [lia|]. intros [|k] Hk; [lra|]. apply H. lia.
  - cbn [List.length Nat.add nth]. split; [lia|]. intros [|k'] Hk'; [lra|]. apply H2. lia.
Qed.

(** index of the tabulated depletion time chosen for td *)
Definition nearest (n : nat) (td : R) : nat :=
  argmin (map Fin (map (fun i => Rabs (td - grid_t_dep n i)) (seq 0 n))).
Lemma nearest_ok n td : (0 < n)%nat -> (nearest n td < n)%nat /\
  forall k, (k < n)%nat -> Rabs (td - grid_t_dep n (nearest n td)) <= Rabs (td - grid_t_dep n k).
Proof.
  intros Hn. set (l := map (fun i => Rabs (td - grid_t_dep n i)) (seq 0 n)).
  assert (Hl : List.length l = n) by (unfold l; rewrite map_length, seq_length; reflexivity).
  assert (Hne : l <> []) by (destruct l; cbn in Hl; [lia|discriminate]).
  destruct (argmin_ok l Hne) as [H1 H2]. rewrite Hl in H1, H2. fold (nearest n td) in *.
  change (argmin (map Fin l)) with (nearest n td) in *.
  assert (Hnth : forall k, (k < n)%nat -> nth k l 0 = Rabs (td - grid_t_dep n k)).
  { intros k Hk. unfold l. set (h := fun i => Rabs (td - grid_t_dep n i)).
    rewrite (nth_indep _ 0 (h 0%nat)) by (rewrite map_length, seq_length; assumption).
    rewrite (map_nth h), seq_nth by assumption. reflexivity. }
  split; [assumption|]. intros k Hk. rewrite <- !Hnth by assumption. apply H2; assumption.
Qed.
Lemma idx_t_dep_ok zg n td :
  arr_is (zg_t_dep zg) [n] (fun idx => match idx with [i] => Fin (grid_t_dep n i) | _ => NaN end) ->
  idx_t_dep zg (Fin td) = nearest n td.
Proof.
  intros [Hs He]. unfold idx_t_dep, nearest, to_list, len0. rewrite Hs. cbn [hd]. f_equal.
  rewrite !map_map. apply map_ext_in. intros i Hi. apply in_seq in Hi.
  rewrite He by (constructor; [lia|constructor]). reflexivity.
Qed.

(** the table of depletion times *)
Lemma t_dep_lt n i j : (1 < n)%nat -> (i < j)%nat -> grid_t_dep n i < grid_t_dep n j.
Proof.
  intros Hn Hij. unfold grid_t_dep. apply Rpower_lt; [lra|].
  assert (0 < INR (n - 1)) by (apply lt_0_INR; lia). apply lt_INR in Hij.
  assert (0 < (1 - -1) / INR (n - 1)) by (apply Rdiv_lt_0_compat; lra). nra.
Qed.
Lemma t_dep_first n : grid_t_dep n 0 = 1 / 10.
Proof.
  unfold grid_t_dep. cbn [INR]. rewrite Rmult_0_l, Rplus_0_r. change (-1) with (- (1)). rewrite Rpower_Ropp, Rpower_1 by lra. lra.
Qed.
Lemma t_dep_last n : (1 < n)%nat -> grid_t_dep n (n - 1) = 10.
Proof.
  intros Hn. unfold grid_t_dep. assert (0 < INR (n - 1)) by (apply lt_0_INR; lia).
  replace (-1 + INR (n - 1) * ((1 - -1) / INR (n - 1))) with 1 by (field; lra). apply Rpower_1; lra.
Qed.
Lemma t_dep_pos n i : 0 < grid_t_dep n i.
Proof. apply exp_pos. Qed.
Lemma t_dep_step n i : (1 < n)%nat -> grid_t_dep n (S i) = grid_t_dep n i * Rpower 10 (2 / INR (n - 1)).
Proof.
  intros Hn. unfold grid_t_dep. rewrite <- Rpower_plus. f_equal. rewrite S_INR.
  assert (0 < INR (n - 1)) by (apply lt_0_INR; lia). field. lra.
Qed.

(** a value within the range of an increasing sequence is in one of its intervals *)
Lemma bracket n (E : nat -> R) x : E 0%nat <= x -> x <= E n -> (0 < n)%nat ->
  exists k, (k < n)%nat /\ E k <= x <= E (S k).
Proof.
  induction n as [|n IH]; [lia|]. intros H0 H1 _. destruct (Rle_dec x (E n)) as [H|H].
  - destruct n as [|n].
    + exists 0%nat. split; [lia|]. lra.
    + destruct (IH H0 H ltac:(lia)) as (k & Hk & HE). exists k; split; [lia|assumption].
  - exists n. split; [lia|]. lra.
Qed.

Lemma nearest_within n td : (1 < n)%nat -> 1 / 10 <= td <= 10 ->
  exists k, (S k < n)%nat /\ grid_t_dep n k <= td <= grid_t_dep n (S k) /\
    Rabs (td - grid_t_dep n (nearest n td)) <= (grid_t_dep n (S k) - grid_t_dep n k) / 2.
Proof.
  intros Hn Htd. destruct (bracket (n - 1) (grid_t_dep n) td) as (k & Hk & HE).
  - rewrite t_dep_first; lra.
  - rewrite t_dep_last by assumption; lra.
  - lia.
  - exists k. split; [lia|]. split; [assumption|].
    destruct (nearest_ok n td ltac:(lia)) as [_ H]. pose proof (H k ltac:(lia)) as H1. pose proof (H (S k) ltac:(lia)) as H2.
    rewrite (Rabs_right (td - grid_t_dep n k)) in H1 by lra.
    rewrite (Rabs_left1 (td - grid_t_dep n (S k))) in H2 by lra. lra.
Qed.
Lemma nearest_above n td : (1 < n)%nat -> 10 <= td -> nearest n td = (n - 1)%nat.
Proof.
  intros Hn Htd. destruct (nearest_ok n td ltac:(lia)) as [H0 H].
  destruct (Nat.eq_dec (nearest n td) (n - 1)) as [|Hne]; [assumption|exfalso].
  specialize (H (n - 1)%nat ltac:(lia)). rewrite t_dep_last in H by assumption.
  pose proof (t_dep_lt n (nearest n td) (n - 1) Hn ltac:(lia)) as Hlt. rewrite t_dep_last in Hlt by assumption.
  rewrite !Rabs_right in H by lra. lra.
Qed.

(** ** np.interp *)
Lemma last_le_ok xp x : forall k, xp 0%nat <= x ->
  xp (last_le xp x k) <= x /\ (last_le xp x k <= k)%nat /\ forall j, (last_le xp x k < j <= k)%nat -> x < xp j.
Proof.
  induction k as [|k IH]; intros H0.
  - cbn [last_le]. split; [assumption|]. split; [lia|]. intros j Hj; lia.
  - cbn [last_le]. unfold Rleb. destruct (Rle_dec (xp (S k)) x) as [H|H].
    + split; [assumption|]. split; [lia|]. intros j Hj; lia.
    + destruct (IH H0) as (H1 & H2 & H3). split; [assumption|]. split; [lia|].
      intros j Hj. destruct (Nat.eq_dec j (S k)) as [->|]; [lra|]. apply H3; lia.
Qed.
Lemma interp_cases n xp fp x : (0 < n)%nat -> x < xp (n - 1)%nat ->
  (x < xp 0%nat /\ np_interp n xp fp x = fp 0%nat) \/
  (exists j, (S j < n)%nat /\ xp j <= x < xp (S j) /\
     np_interp n xp fp x = fp j + (fp (S j) - fp j) * ((x - xp j) / (xp (S j) - xp j))).
Proof.
  intros Hn Hx. unfold np_interp, Rltb. destruct (Rlt_dec x (xp 0%nat)); [left; split; [assumption|reflexivity]|right].
  destruct (Rlt_dec (xp (n - 1)%nat) x); [lra|].
  destruct (last_le_ok xp x (n - 1)) as (H1 & H2 & H3); [lra|].
  set (j := last_le xp x (n - 1)) in *. cbv zeta.
  destruct (Nat.eqb_spec j (n - 1)) as [Ej|Ej]; [rewrite Ej in H1; lra|].
  exists j. split; [lia|]. specialize (H3 (S j) ltac:(lia)). split; [lra|]. field. lra.
Qed.

(** ** the enrichment relation *)
Lemma ahat_pos : 0 < ahat. Proof. apply exp_pos. Qed.
Lemma bhat_pos : 0 < bhat. Proof. unfold bhat; lra. Qed.
Lemma z_top_pos : 0 < Rpower ahat (- 1 / bhat). Proof. apply exp_pos. Qed.
Lemma z_max_pos : 0 < z_max.
Proof. unfold z_max. apply Rmult_lt_0_compat; [apply z_top_pos|lra]. Qed.
Lemma rpow_lt x y b : 0 < b -> 0 <= x < y -> rpow x b < rpow y b.
Proof.
  intros Hb [Hx Hxy]. unfold rpow. destruct (Rlt_dec 0 y); [|lra]. destruct (Rlt_dec 0 x).
  - apply Rlt_Rpower_l; lra.
  - apply exp_pos.
Qed.
Lemma rpow_le x y b : 0 < b -> 0 <= x <= y -> rpow x b <= rpow y b.
Proof. intros Hb H. destruct (Req_dec x y) as [->|]; [lra|]. left. apply rpow_lt; [assumption|lra]. Qed.
Lemma rpow_nonneg x b : 0 <= rpow x b.
Proof. unfold rpow. destruct (Rlt_dec 0 x); [left; apply exp_pos|lra]. Qed.
Lemma denom_pos z : 0 <= z <= z_max -> 0 < 1 - ahat * rpow z bhat.
Proof.
  intros Hz. pose proof ahat_pos. pose proof bhat_pos. pose proof z_top_pos.
  pose proof (rpow_le z z_max bhat bhat_pos Hz) as Hle.
  assert (rpow z_max bhat < / ahat).
  { unfold rpow. destruct (Rlt_dec 0 z_max) as [_|n]; [|destruct (n z_max_pos)].
    replace (/ ahat) with (Rpower (Rpower ahat (- 1 / bhat)) bhat).
    - apply Rlt_Rpower_l; [assumption|]. unfold z_max. lra.
    - rewrite Rpower_mult. replace (- 1 / bhat * bhat) with (- (1)) by (field; lra). rewrite Rpower_Ropp, Rpower_1 by assumption. reflexivity. }
  assert (ahat * rpow z bhat < ahat * / ahat) by (apply Rmult_lt_compat_l; lra).
  rewrite Rinv_r in * by lra. lra.
Qed.
Lemma grid_t_anti tH td z z' : 0 < td -> 0 <= z -> z < z' -> z' <= z_max -> grid_t tH td z' < grid_t tH td z.
Proof.
  intros Htd Hz Hzz Hz'. unfold grid_t.
  pose proof (denom_pos z ltac:(lra)). pose proof (denom_pos z' ltac:(lra)).
  pose proof (rpow_lt z z' bhat bhat_pos ltac:(lra)). pose proof ahat_pos.
  enough (td * z / (1 - ahat * rpow z bhat) < td * z' / (1 - ahat * rpow z' bhat)) by lra.
  apply Rle_lt_trans with (td * z / (1 - ahat * rpow z' bhat)).
  - unfold Rdiv. apply Rmult_le_compat_l; [nra|]. apply Rinv_le_contravar; [assumption|]. nra.
  - unfold Rdiv. apply Rmult_lt_compat_r; [apply Rinv_0_lt_compat; assumption|]. nra.
Qed.
Lemma grid_t_0 tH td : grid_t tH td 0 = tH.
Proof. unfold grid_t, Rdiv. ring. Qed.
Lemma grid_t_slower tH td td' z : 0 < z <= z_max -> td < td' -> grid_t tH td' z < grid_t tH td z.
Proof.
  intros Hz Ht. pose proof (denom_pos z ltac:(lra)). unfold grid_t.
  enough (td * z / (1 - ahat * rpow z bhat) < td' * z / (1 - ahat * rpow z bhat)) by lra.
  unfold Rdiv. apply Rmult_lt_compat_r; [apply Rinv_0_lt_compat; assumption|]. nra.
Qed.

Section Table.
Context (n : nat) (Hn : (1 < n)%nat).
Lemma gz_first : grid_z n 0 = z_max. Proof. unfold grid_z; cbn [INR]; ring. Qed.
Lemma gz_last : grid_z n (n - 1) = 0.
Proof. unfold grid_z. assert (0 < INR (n - 1)) by (apply lt_0_INR; lia). field; lra. Qed.
Lemma gz_step k : grid_z n k - grid_z n (S k) = z_max / INR (n - 1).
Proof. unfold grid_z. rewrite S_INR. assert (0 < INR (n - 1)) by (apply lt_0_INR; lia). field; lra. Qed.
Lemma gz_step_pos : 0 < z_max / INR (n - 1).
Proof. apply Rdiv_lt_0_compat; [apply z_max_pos|apply lt_0_INR; lia]. Qed.
Lemma gz_lt i j : (i < j)%nat -> grid_z n j < grid_z n i.
Proof.
  induction 1 as [|j _ IH]; [pose proof (gz_step i)|pose proof (gz_step j)]; pose proof gz_step_pos; lra.
Qed.
Lemma gz_le i j : (i <= j)%nat -> grid_z n j <= grid_z n i.
Proof. intros H. destruct (Nat.eq_dec i j) as [->|]; [lra|]. left; apply gz_lt; lia. Qed.
Lemma gz_range k : (k <= n - 1)%nat -> 0 <= grid_z n k <= z_max.
Proof. intros H. rewrite <- gz_last at 1. rewrite <- gz_first. split; apply gz_le; lia. Qed.

Context (tH td : R) (Htd : 0 < td).
Let xp k := grid_t tH td (grid_z n k).
Lemma xp_lt i j : (i < j)%nat -> (j <= n - 1)%nat -> xp i < xp j.
Proof.
  intros Hij Hj. apply grid_t_anti; [assumption|apply gz_range; lia|apply gz_lt; assumption|apply gz_range; lia].
Qed.
Lemma xp_last : xp (n - 1)%nat = tH.
Proof. unfold xp. rewrite gz_last. apply grid_t_0. Qed.

(** mean metallicity of stars of age tau *)
Definition zmean (tau : R) : R := np_interp n xp (grid_z n) tau.
Lemma zmean_cases tau : tau < tH ->
  (tau < xp 0%nat /\ zmean tau = z_max) \/
  (exists j, (S j < n)%nat /\ xp j <= tau < xp (S j) /\ grid_z n (S j) < zmean tau <= grid_z n j /\
     zmean tau = grid_z n j - z_max / INR (n - 1) * ((tau - xp j) / (xp (S j) - xp j))).
Proof.
  intros Ht. rewrite <- xp_last in Ht.
  destruct (interp_cases n xp (grid_z n) tau ltac:(lia) Ht) as [[H E]|(j & Hj & Hb & E)].
  - left. split; [assumption|]. unfold zmean. rewrite E. apply gz_first.
  - right. exists j. split; [assumption|]. split; [assumption|]. fold (zmean tau) in E.
    pose proof gz_step_pos as Hs. pose proof (gz_step j) as Hd.
    assert (W : 0 <= (tau - xp j) / (xp (S j) - xp j) < 1).
    { split; [apply Rmult_le_pos; [lra|left; apply Rinv_0_lt_compat; lra]|].
      apply Rmult_lt_reg_r with (xp (S j) - xp j); [lra|]. unfold Rdiv. rewrite Rmult_assoc, Rinv_l; lra. }
    revert W E. generalize ((tau - xp j) / (xp (S j) - xp j)). intros w W E.
    assert (E' : zmean tau = grid_z n j - z_max / INR (n - 1) * w) by (rewrite E, <- Hd; ring).
    split; [nra|assumption].
Qed.
Lemma zmean_range tau : tau < tH -> 0 < zmean tau <= z_max.
Proof.
  intros Ht. destruct (zmean_cases tau Ht) as [[_ ->]|(j & Hj & _ & H & _)].
  - pose proof z_max_pos; lra.
  - pose proof (gz_range j ltac:(lia)). pose proof (gz_range (S j) ltac:(lia)). lra.
Qed.
Lemma zmean_anti tau tau' : tau <= tau' -> tau' < tH -> zmean tau' <= zmean tau.
Proof.
  intros Ht Ht'. destruct (zmean_cases tau ltac:(lra)) as [[_ ->]|(j & Hj & Hb & Hz & E)].
  { apply zmean_range; assumption. }
  destruct (zmean_cases tau' Ht') as [[Hb' _]|(j' & Hj' & Hb' & Hz' & E')].
  { exfalso. destruct (Nat.eq_dec j 0) as [->|]; [lra|]. pose proof (xp_lt 0 j ltac:(lia) ltac:(lia)). lra. }
  destruct (Nat.lt_trichotomy j j') as [Hl|[->|Hl]].
  - pose proof (gz_le (S j) j' ltac:(lia)). lra.
  - rewrite E, E'. pose proof gz_step_pos.
    assert ((tau - xp j') / (xp (S j') - xp j') <= (tau' - xp j') / (xp (S j') - xp j')).
    { apply Rmult_le_compat_r; [left; apply Rinv_0_lt_compat; lra|lra]. }
    nra.
  - exfalso. destruct (Nat.eq_dec (S j') j) as [<-|]; [lra|]. pose proof (xp_lt (S j') j ltac:(lia) ltac:(lia)). lra.
Qed.
(** within a step of the table of the solution of the enrichment relation *)
Lemma zmean_near z : 0 < z <= z_max -> Rabs (zmean (grid_t tH td z) - z) <= z_max / INR (n - 1).
Proof.
  intros Hz. set (tau := grid_t tH td z).
  assert (Ht : tau < tH) by (unfold tau; pose proof (grid_t_anti tH td 0 z Htd ltac:(lra) ltac:(lra) ltac:(lra)) as Q; rewrite grid_t_0 in Q; exact Q).
  destruct (zmean_cases tau Ht) as [[Hb _]|(j & Hj & Hb & Hz' & _)].
  - exfalso. unfold xp in Hb. rewrite gz_first in Hb. destruct (Req_dec z z_max) as [E|E].
    + unfold tau in Hb. rewrite E in Hb. lra.
    + pose proof (grid_t_anti tH td z z_max Htd ltac:(lra) ltac:(lra) ltac:(lra)). unfold tau in Hb. lra.
  - assert (z <= grid_z n j).
    { apply Rnot_lt_le. intros C. pose proof (grid_t_anti tH td (grid_z n j) z Htd (proj1 (gz_range j ltac:(lia))) C (proj2 Hz)).
      unfold xp, tau in *. lra. }
    assert (grid_z n (S j) <= z).
    { apply Rnot_lt_le. intros C. pose proof (grid_t_anti tH td z (grid_z n (S j)) Htd ltac:(lra) C (proj2 (gz_range (S j) ltac:(lia)))).
      unfold xp, tau in *. lra. }
    pose proof (gz_step j). apply Rabs_le. lra.
Qed.
(** too young for the relation: the largest metallicity *)
Lemma zmean_capped tau : tau < grid_t tH td z_max -> zmean tau = z_max.
Proof.
  intros Ht. assert (Ht' : tau < xp 0%nat) by (unfold xp; rewrite gz_first; assumption).
  unfold zmean, np_interp, Rltb. destruct (Rlt_dec tau (xp 0%nat)); [apply gz_first|contradiction].
Qed.
End Table.

Lemma n_grid_gt : (1 < n_grid)%nat.
Proof. apply Nat.ltb_lt. reflexivity. Qed.
Opaque n_grid.

(** mean metallicity in the component's table for depletion time td at age bin t *)
Definition zm (g : grid) (td : R) (t : nat) : R :=
  zmean n_grid (tE g (nt g)) (grid_t_dep n_grid (nearest n_grid td)) (mid (tE g) t).
Definition zs2 (mu : R) : R := ahat * Rpower mu bhat.

Lemma mid_lt g t : good_grid g -> (t < nt g)%nat -> mid (tE g) t < tE g (nt g).
Proof.
  intros Hg Ht. pose proof (gg_tE _ Hg t Ht). pose proof (increasing_le _ _ (S t) (nt g) (gg_tE _ Hg) ltac:(lia) ltac:(lia)).
  unfold mid. lra.
Qed.
Lemma zm_range g td t : good_grid g -> (t < nt g)%nat -> 0 < zm g td t <= z_max.
Proof. intros. apply zmean_range; [exact n_grid_gt|apply mid_lt; assumption]. Qed.
Lemma zs2_pos mu : 0 < zs2 mu.
Proof. apply Rmult_lt_0_compat; apply exp_pos. Qed.

Definition zbin (g : grid) (F : R -> R) (mu : R) (k : nat) : R := znorm g F mu (zs2 mu) k.
Definition zden (g : grid) (F : R -> R) (mu : R) : R := Sum (nz g) (fun l => zbin g F mu l * wid (zE g) l).
Definition pz (g : grid) (F : R -> R) (mu : R) (k : nat) : R := zbin g F mu k / zden g F mu.

Lemma zbin_pos g F mu k : good_grid g -> good_norm F -> (k < nz g)%nat -> 0 < zbin g F mu k.
Proof.
  intros Hg [_ HF] Hk. unfold zbin, znorm. pose proof (sqrt_lt_R0 _ (zs2_pos mu)).
  enough (F ((Rpower 10 (zE g k) - mu) / sqrt (zs2 mu)) < F ((Rpower 10 (zE g (S k)) - mu) / sqrt (zs2 mu))) by lra.
  apply HF. apply Rmult_lt_compat_r; [apply Rinv_0_lt_compat; assumption|].
  pose proof (Rpower_lt 10 (zE g k) (zE g (S k)) ltac:(lra) (gg_zE _ Hg k Hk)). lra.
Qed.
Lemma zden_pos g F mu : good_grid g -> good_norm F -> 0 < zden g F mu.
Proof.
  intros Hg HF. apply (Sum_pos _ _ 0); [apply (gg_z _ Hg)| |].
  - intros i Hi. apply Rmult_le_pos; left; [apply zbin_pos; assumption|apply (wid_pos _ _ _ (gg_zE _ Hg)); assumption].
  - pose proof (gg_z _ Hg). apply Rmult_lt_0_compat; [apply zbin_pos; assumption|apply (wid_pos _ _ _ (gg_zE _ Hg)); assumption].
Qed.
Lemma pz_pos g F mu k : good_grid g -> good_norm F -> (k < nz g)%nat -> 0 < pz g F mu k.
Proof. intros. apply Rdiv_lt_0_compat; [apply zbin_pos|apply zden_pos]; assumption. Qed.
Lemma pz_total g F mu : good_grid g -> good_norm F -> Sum (nz g) (fun k => pz g F mu k * wid (zE g) k) = 1.
Proof.
  intros Hg HF. pose proof (zden_pos g F mu Hg HF). unfold pz.
  rewrite (Sum_ext _ _ (fun k => / zden g F mu * (zbin g F mu k * wid (zE g) k))) by (intros; unfold Rdiv; ring).
  rewrite Sum_scal. fold (zden g F mu). field. lra.
Qed.

(** the component's table *)
Definition zgrid_on (self : par) (g : grid) : Prop :=
  z_interpolation_grid n_grid (pa_cube self) = Ok (pa_zgrid self).

Lemma enrichment_ok L self g (t_dep : arr num) (td : map2d) :
  cube_on (pa_cube self) g -> good_grid g -> zgrid_on self g -> good_norm (norm_cdf L) ->
  arr_is t_dep [nx g; ny g] (fun idx => match idx with [x; y] => Fin (td x y) | _ => NaN end) ->
  exists a, enrichment_base L self t_dep = Ok a /\
    arr_is a [nz g; nt g; nx g; ny g] (fun idx => match idx with
      | [k; t; x; y] => lg (pz g (norm_cdf L) (zm g (td x y) t) k) | _ => NaN end).
Proof.
  intros Hc Hg Hz HF Ht. unfold enrichment_base.
  destruct (z_grid_ok n_grid _ g Hc Hg) as (zg & Ez & Hzz & Htd). red in Hz. rewrite Ez in Hz. injection Hz as <-.
  rewrite (proj1 Ht), (co_nx _ _ Hc), (co_ny _ _ Hc). rewrite natlist_eqb_refl. cbn [negb].
  rewrite (proj1 Hzz). cbn [nth].
  pose proof (gg_t _ Hg). pose proof (gg_x _ Hg). pose proof (gg_y _ Hg). pose proof (gg_z _ Hg).
  match goal with |- context [amap (fun z => nmul (Fin ahat) (npowr z (Fin bhat))) ?A] => set (zmu := A) end.
  assert (Hmu : arr_is zmu [nt g; nx g; ny g] (fun idx => match idx with [t; x; y] => Fin (zm g (td x y) t) | _ => NaN end)).
  { split; [reflexivity|]. intros idx Hi; inb_inv. unfold zmu; cbn [ent].
    rewrite (proj2 Ht) by (repeat (constructor; [assumption|]); constructor).
    rewrite (idx_t_dep_ok zg n_grid) by exact Htd.
    rewrite (proj2 Hzz) by (repeat (constructor; [try assumption|]); [apply nearest_ok; pose proof n_grid_gt; lia|constructor]).
    reflexivity. }
  clearbody zmu. cbv zeta.
  assert (Hsig : arr_is (amap nsqrt (amap (fun z => nmul (Fin ahat) (npowr z (Fin bhat))) zmu)) [nt g; nx g; ny g]
     (fun idx => match idx with [t; x; y] => Fin (sqrt (zs2 (zm g (td x y) t))) | _ => NaN end)).
  { split; [exact (proj1 Hmu)|]. intros idx Hi; inb_inv. cbn [amap ent].
    rewrite (proj2 Hmu) by (repeat (constructor; [assumption|]); constructor).
    cbn [npowr]. match goal with |- context [zm g ?a ?b] => pose proof (zm_range g a b Hg ltac:(assumption)) end.
    match goal with |- context [Rlt_dec 0 ?u] => destruct (Rlt_dec 0 u); [|lra] end.
    rewrite nmul_Fin, nsqrt_Fin by (left; apply zs2_pos). reflexivity. }
  revert Hsig. generalize (amap nsqrt (amap (fun z => nmul (Fin ahat) (npowr z (Fin bhat))) zmu)). intros sg Hsig.
  assert (Hed : arr_is (amap (fun e => npowr (Fin 10) e) (par_edges_z (c_ssps (pa_cube self)))) [S (nz g)]
     (fun idx => Fin (Rpower 10 (zE g (hd 0%nat idx))))).
  { destruct (so_ze _ _ (co_ssps _ _ Hc)) as [HS HE]. split; [cbn [amap shp]; rewrite HS; f_equal; lia|].
    intros idx Hi; inb_inv. cbn [amap ent hd]. rewrite HE by lia. cbn [npowr].
    destruct (Rlt_dec 0 10); [reflexivity|lra]. }
  revert Hed. generalize (amap (fun e => npowr (Fin 10) e) (par_edges_z (c_ssps (pa_cube self)))). intros ed Hed.
  s_get. unfold norm_logcdf. s_bop. s_bop.
  match goal with Hq : arr_is ?a (S (nz g) :: _) _ |- context [tail0 ?a] =>
    pose proof (tail0_is _ _ _ _ Hq ltac:(lia)) as Ht1; pose proof (init0_is _ _ _ _ Hq) as Hi1 end.
  cbn [Nat.sub] in Ht1, Hi1. rewrite Nat.sub_0_r in Ht1, Hi1.
  unfold logdiffexp. s_bop.
  match goal with Hq : arr_is ?a (nz g :: _) _ |- context [T ?a] =>
    assert (Htmp : arr_is a [nz g; nt g; nx g; ny g] (fun idx => match idx with
      | [k; t; x; y] => lg (zbin g (norm_cdf L) (zm g (td x y) t) k) | _ => NaN end));
    [eapply arr_is_ext; [exact Hq|]|clear Hq] end.
  { intros idx Hi. inb_inv. cbn [bidx map2 skipn List.length Nat.sub hd tl gi_idx fst snd].
    repeat match goal with |- context [pick ?n ?k] => rewrite (pick_lt n k) by (assumption || lia) end.
    cbn [norm_logcdf1 fst snd hd].
    match goal with |- context [zm g ?a ?b] => pose proof (sqrt_lt_R0 _ (zs2_pos (zm g a b))) as Hsp end.
    match goal with |- context [Rlt_dec 0 ?u] => destruct (Rlt_dec 0 u); [|lra] end.
    rewrite !nlog_Fin. rewrite lse_b_diff; [|left; apply HF|left; apply HF]. reflexivity. }
  destruct (vol_ok _ _ Hc Hg (VSet false false false true) eq_refl) as (dz & Edz & Hdz).
  change (name (VSet false false false true)) with "z"%string in Edz. rewrite Edz. cbn [bind].
  assert (Hldz : arr_is (amap nlog dz) [nz g] (fun idx => lg (wid (zE g) (hd 0%nat idx)))).
  { apply (amap_is nlog) in Hdz. eapply arr_is_ext; [exact Hdz|]. intros idx Hi. cbn in Hi; inb_inv. rewrite nlog_Fin. f_equal. unfold vol; cbn; ring. }
  pose proof (T_is _ _ _ Htmp) as HT. cbn [rev app] in HT. s_bop. s_lse.
  match goal with Hq : arr_is ?a _ _ |- context [T ?a] => pose proof (T_is _ _ _ Hq) as HT2; cbn [rev app] in HT2 end.
  s_bop. eexists; split; [reflexivity|]. eapply arr_is_ext; [eassumption|].
  intros idx Hi. inb_inv. cbn [bidx map2 skipn List.length Nat.sub hd tl rev app]. picks.
  match goal with |- context [zm g ?a ?b] => set (mu := zm g a b) end.
  rewrite (lse_map_lg _ (fun sub => zbin g (norm_cdf L) mu (hd 0%nat sub) * wid (zE g) (hd 0%nat sub))).
  - rewrite sum_all_idx_cons. rewrite (Sum_ext _ _ (fun k => zbin g (norm_cdf L) mu k * wid (zE g) k)).
    + rewrite nsub_lg; [reflexivity|left; apply zbin_pos; assumption|apply zden_pos; assumption].
    + intros k Hk. rewrite sum_all_idx_nil. reflexivity.
  - intros sub Hsub. apply in_all_idx in Hsub. inb_inv. cbn [bidx map2 skipn List.length Nat.sub hd tl rev app merge].
    repeat match goal with |- context [pick ?n ?k] => rewrite (pick_lt n k) by (assumption || lia) end.
    apply nadd_lg; left; [apply zbin_pos; assumption|apply (wid_pos _ _ _ (gg_zE _ Hg)); assumption].
  - intros sub Hsub. apply in_all_idx in Hsub. inb_inv. cbn [hd].
    apply Rmult_le_pos; left; [apply zbin_pos; assumption|apply (wid_pos _ _ _ (gg_zE _ Hg)); assumption].
Qed.
