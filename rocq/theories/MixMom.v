(** * MixMom: means and central moments of a mixture. *)
From Coq Require Import Reals Lra Lia List Bool Arith ZArith String Ascii.
From Verif Require Import Num NumLemmas Arr ArrLemmas MomArr PyStr Cube Base Spec SpecLemmas Repr CubeLemmas BaseLemmas
  CondLemmas Moments DistLemmas MomSpec MomLemmas MomLemmas2 MomLemmas3 MomLemmas5 MomClaims Mixture MixSpec MixGen MixLemmas MixCond.
Import ListNotations.
Local Open Scope R_scope.

Ltac s_T :=
  let r := fresh "r" in let Hr := fresh "Hr" in
  match goal with
  | |- context [T ?a] =>
      match goal with
      | Ha : arr_is a ?sa ?fa |- _ =>
          pose proof (T_is a sa fa Ha) as Hr; cbn [rev app] in Hr;
          generalize dependent (T a); intros r Hr
      end
  end.

(** ** the array code of get_mean and get_central_moment *)
Section Code.
Context (g : grid) (Hg : good_grid g) (n : nat).

(** leading axis of size two for x *)
Definition xdims (x : bool) (C : vset) : list nat := if x then 2%nat :: dims C g else dims C g.
Definition xtl (x : bool) (idx : list nat) : list nat := if x then tl idx else idx.

Context (mu_i w rw : arr num) (Mu : list nat -> num) (W R : nat -> num).

Lemma cond_mean_arr x C wpc denom P D :
  arr_is mu_i (n :: xdims x C) Mu -> arr_is wpc (n :: dims C g) P ->
  arr_is w [n] (fun idx => W (hd 0%nat idx)) -> arr_is rw [n] (fun idx => R (hd 0%nat idx)) ->
  arr_is denom (dims C g) D ->
  exists m, (w1 <- bop nmul (T wpc) w ;;
    let w2 := T w1 in
    w3 <- (if x then getitem [IAll; INew] w2 else Ok w2) ;;
    a <- bop nmul (T w3) rw ;;
    b <- bop nmul a (T mu_i) ;;
    s <- asum [-1]%Z b ;;
    bop ndiv (T s) denom) = Ok m /\
  arr_is m (xdims x C) (fun idx => ndiv (nsum (map (fun k =>
     nmul (nmul (nmul (P (k :: xtl x idx)) (W k)) (R k)) (Mu (k :: idx))) (seq 0 n))) (D (xtl x idx))).
Proof.
  intros Hmu Hp Hw Hr Hd. unfold xdims, xtl in *.
  pose proof (gg_t _ Hg); pose proof (gg_v _ Hg); pose proof (gg_x _ Hg); pose proof (gg_y _ Hg); pose proof (gg_z _ Hg).
  destruct x, C as [[] [] [] []]; cbn [dims has_t has_v has_x has_z opt app] in *; s_T; s_bop; s_T;
    try (s_get); s_T; s_bop; s_T; s_bop; s_sum; s_T; s_bop; (eexists; split; [reflexivity|]);
    eapply arr_is_ext; try eassumption; intros idx Hidx; inb_inv; cbn; picks; cbn; f_equal;
    rewrite map_all_idx1; f_equal; apply map_ext_in; intros kk Hkk; apply in_seq in Hkk; cbn; picks; cbn; reflexivity.
Qed.

Ltac fin :=
  (eexists; split; [reflexivity|]);
    eapply arr_is_ext; try eassumption; intros idx Hidx; inb_inv; cbn; picks; cbn;
    rewrite map_all_idx1; f_equal; apply map_ext_in; intros kk Hkk; apply in_seq in Hkk; cbn; picks; cbn; reflexivity.

Lemma marg_mean_arr x :
  arr_is mu_i (n :: xdims x no_vars) Mu ->
  arr_is w [n] (fun idx => W (hd 0%nat idx)) -> arr_is rw [n] (fun idx => R (hd 0%nat idx)) ->
  exists m, (a <- bop nmul w rw ;;
    b <- bop nmul a (T mu_i) ;;
    s <- asum [-1]%Z b ;;
    Ok (T s)) = Ok m /\
  arr_is m (xdims x no_vars) (fun idx => nsum (map (fun k => nmul (nmul (W k) (R k)) (Mu (k :: idx))) (seq 0 n))).
Proof.
  intros Hmu Hw Hr. unfold xdims in *.
  destruct x; cbn [dims has_t has_v has_x has_z opt app no_vars] in *; s_bop; s_T; s_bop; s_sum; s_T; fin.
Qed.

Lemma marg_moment_lw_arr x :
  arr_is mu_i (n :: xdims x no_vars) Mu ->
  arr_is w [n] (fun idx => W (hd 0%nat idx)) -> arr_is rw [n] (fun idx => R (hd 0%nat idx)) ->
  exists m, (mu_i <- moveaxis mu_i [0]%Z [-1]%Z ;;
      a <- bop nmul w rw ;;
      b <- bop nmul a mu_i ;;
      asum [-1]%Z b) = Ok m /\
  arr_is m (xdims x no_vars) (fun idx => nsum (map (fun k => nmul (nmul (W k) (R k)) (Mu (k :: idx))) (seq 0 n))).
Proof.
  intros Hmu Hw Hr. unfold xdims in *.
  destruct x; cbn [dims has_t has_v has_x has_z opt app no_vars] in *;s_mov; s_bop; s_bop; s_sum; fin.
Qed.
Lemma marg_moment_mw_arr x :
  arr_is mu_i (n :: xdims x no_vars) Mu ->
  arr_is w [n] (fun idx => W (hd 0%nat idx)) ->
  exists m, (mu_i <- moveaxis mu_i [0]%Z [-1]%Z ;;
      b <- bop nmul w mu_i ;;
      asum [-1]%Z b) = Ok m /\
  arr_is m (xdims x no_vars) (fun idx => nsum (map (fun k => nmul (W k) (Mu (k :: idx))) (seq 0 n))).
Proof.
  intros Hmu Hw. unfold xdims in *.
  destruct x; cbn [dims has_t has_v has_x has_z opt app no_vars] in *; s_mov; s_bop; s_sum; fin.
Qed.

Lemma cond_moment_arr x C wpc P :
  arr_is mu_i (n :: xdims x C) Mu -> arr_is wpc (n :: dims C g) P ->
  exists m, (w_p_cond <- (if x then getitem [IAll; INew] wpc else Ok wpc) ;;
    a <- bop nmul w_p_cond mu_i ;;
    num <- asum [0]%Z a ;;
    den <- asum [0]%Z w_p_cond ;;
    bop ndiv num den) = Ok m /\
  arr_is m (xdims x C) (fun idx => ndiv (nsum (map (fun k =>
     nmul (P (k :: xtl x idx)) (Mu (k :: idx))) (seq 0 n))) (nsum (map (fun k => P (k :: xtl x idx)) (seq 0 n)))).
Proof.
  intros Hmu Hp. unfold xdims, xtl in *.
  pose proof (gg_t _ Hg); pose proof (gg_v _ Hg); pose proof (gg_x _ Hg); pose proof (gg_y _ Hg); pose proof (gg_z _ Hg).
  destruct x, C as [[] [] [] []]; cbn [dims has_t has_v has_x has_z opt app] in *;
    try (s_get); cbn [bind]; s_bop; s_sum; s_sum; s_bop; (eexists; split; [reflexivity|]);
    eapply arr_is_ext; try eassumption; intros idx Hidx; inb_inv; cbn; picks; cbn;
    (apply f_equal2; rewrite map_all_idx1; f_equal; apply map_ext_in; intros kk Hkk; apply in_seq in Hkk; cbn; picks; cbn; reflexivity).
Qed.
End Code.

Lemma Sum_if_true b n i (F : nat -> R) : b = true -> sum_if b n i F = Sum n F.
Proof. intros ->; reflexivity. Qed.

Lemma sumR_Sum_swap {A} n (L : list A) (F : nat -> A -> R) :
  sumR (map (fun j => Sum n (fun k => F k j)) L) = Sum n (fun k => sumR (map (F k) L)).
Proof. unfold sumR. induction L as [|j L IH]; cbn; [rewrite Sum_0; reflexivity|]. rewrite IH, <- Sum_plus. reflexivity. Qed.

Section Mix.
Context (self : mixture) (g : grid) (l : bool -> parts).
Context (H : mix_gen self g l) (Hg : good_grid g).
Let Hc := mg_cube _ _ _ H.
Let n := List.length (l false).
Let Hn : (0 < n)%nat := n_pos self g l H.

(** the members' light is positive when light is asked for *)
Definition lights_ok (b lw : bool) : Prop := forall k, (k < n)%nat -> lw_ok g (pf (l b) k) lw.

Lemma lights_lw_ok b lw : lights_ok b lw -> lw_ok g (mixf (l b)) lw.
Proof.
  intros Hm E. rewrite lit_total, (len_any self g l H b). fold n.
  apply (Sum_pos n (fun k => pw (l b) k * total g (lit g (mass g (pf (l b) k)))) 0 Hn).
  - intros k Hk. apply Rmult_le_pos; [eapply pw_nonneg; eassumption|]. left. apply Hm; assumption.
  - apply Rmult_lt_0_compat; [eapply pw_pos; eassumption|]. apply Hm; assumption.
Qed.

(** the factor between a member's own probabilities and its share *)
Definition ratio (ls : parts) (lw : bool) (k : nat) : R :=
  if lw then total g (lit g (mass g (pf ls k))) / total g (lit g (mass g (mixf ls))) else 1.

Lemma share_scal b lw k : lights_ok b lw -> (k < n)%nat -> joint_eq g (share g (l b) lw k)
  (fun t v x y z => (pw (l b) k * ratio (l b) lw k) * prob g (pf (l b) k) lw t v x y z).
Proof.
  intros Hm Hk t v x y z _ _ _ _ _. unfold share, ratio, prob. destruct lw; [|ring].
  pose proof (lights_lw_ok b true Hm eq_refl). pose proof (Hm k Hk eq_refl). unfold light. field. lra.
Qed.
Lemma marg_share_scal b lw k S i : lights_ok b lw -> (k < n)%nat -> in_grid g i ->
  marg g (share g (l b) lw k) S i = pw (l b) k * ratio (l b) lw k * marg g (prob g (pf (l b) k) lw) S i.
Proof. intros Hm Hk Hi. rewrite <- marg_scal. apply marg_ext; [assumption|]. apply share_scal; assumption. Qed.

Lemma ratio_pos b lw k : lights_ok b lw -> (k < n)%nat -> 0 < ratio (l b) lw k.
Proof.
  intros Hm Hk. unfold ratio. destruct lw; [|lra].
  pose proof (lights_lw_ok b true Hm eq_refl). pose proof (Hm k Hk eq_refl).
  apply Rmult_lt_0_compat; [assumption|apply Rinv_0_lt_compat; assumption].
Qed.
Lemma prob_pos b lw C i : lights_ok b lw -> in_grid g i ->
  (exists k, (k < n)%nat /\ 0 < marg g (prob g (pf (l b) k) lw) C i) -> 0 < marg g (prob g (mixf (l b)) lw) C i.
Proof.
  intros Hm Hi (k & Hk & Hp). pose proof (lights_lw_ok b lw Hm) as Hl. rewrite (marg_share' self g l H) by assumption. fold n.
  apply (Sum_pos n (fun k => marg g (share g (l b) lw k) C i) k Hk).
  - intros q Hq. apply (share_nn self g l H Hg); assumption.
  - rewrite marg_share_scal by assumption. repeat apply Rmult_lt_0_compat; auto.
    + eapply pw_pos; eassumption.
    + apply ratio_pos; assumption.
Qed.

(** expectation under the mixture: the shares' expectations *)
Lemma Ex_mix b lw A C h i : lights_ok b lw -> in_grid g i -> disjoint A C = true ->
  (forall k, (k < n)%nat -> 0 < marg g (prob g (pf (l b) k) lw) C i) ->
  0 < marg g (prob g (mixf (l b)) lw) C i /\
  Sum n (fun k => marg g (share g (l b) lw k) C i * Ex g (prob g (pf (l b) k) lw) A C h i) =
  Ex g (prob g (mixf (l b)) lw) A C h i * marg g (prob g (mixf (l b)) lw) C i.
Proof.
  intros Hm Hi HD Hpos. pose proof (lights_lw_ok b lw Hm) as Hl.
  assert (HP : 0 < marg g (prob g (mixf (l b)) lw) C i) by (apply prob_pos; eauto).
  split; [exact HP|]. unfold Ex.
  replace (sum_over g A i (fun j => h j * marg g (prob g (mixf (l b)) lw) (union A C) j) / marg g (prob g (mixf (l b)) lw) C i *
     marg g (prob g (mixf (l b)) lw) C i) with (sum_over g A i (fun j => h j * marg g (prob g (mixf (l b)) lw) (union A C) j)) by (field; lra).
  rewrite (sum_over_ext g A i _ (fun j => Sum n (fun k => h j * marg g (share g (l b) lw k) (union A C) j))).
  2:{ assumption. }
  2:{ intros j Hj. rewrite (marg_share' self g l H) by assumption. rewrite <- Sum_scal. reflexivity. }
  rewrite <- !sum_bins_over. rewrite <- (sumR_map_seq n).
  rewrite (sumR_Sum_swap n _ (fun k j => h j * marg g (share g (l b) lw k) (union A C) j)), <- sumR_map_seq. f_equal.
  apply map_ext_in. intros k Hk. apply in_seq in Hk. specialize (Hpos k ltac:(lia)).
  rewrite marg_share_scal by (try assumption; lia). rewrite !sum_bins_over.
  transitivity (pw (l b) k * ratio (l b) lw k * sum_over g A i (fun j => h j * marg g (prob g (pf (l b) k) lw) (union A C) j)); [field; lra|].
  rewrite <- sum_over_scal. apply sum_over_ext; [assumption|]. intros j Hj. rewrite marg_share_scal by (try assumption; lia). ring.
Qed.

(** ** the arrays over members *)
Lemma map_res_ok (F : member -> res (arr num)) (s : list nat) (cs : list member) :
  (forall c, In c cs -> exists a, F c = Ok a /\ shp a = s) ->
  exists r, map_res F cs = Ok r /\ List.length r = List.length cs /\
    (forall a, In a r -> shp a = s) /\
    forall k c a, nth_error cs k = Some c -> F c = Ok a -> nth_error r k = Some a.
Proof.
  induction cs as [|c cs IH]; intros HF.
  - exists []. repeat split; try reflexivity; [intros a []|]. intros [|k] c a E; discriminate E.
  - destruct (HF c (or_introl eq_refl)) as (a & Ea & Hs). destruct IH as (r & Er & Hl & Hr & Hk).
    { intros c' Hc'. apply HF. right; assumption. }
    exists (a :: r). cbn [map_res]. rewrite Ea. cbn [bind]. rewrite Er. cbn [bind].
    split; [reflexivity|]. split; [cbn; congruence|]. split; [intros b [<-|Hb]; auto|].
    intros [|k] c' b E1 E2; cbn in *; [congruence|]. eapply Hk; eassumption.
Qed.

Definition nth_mb (k : nat) (mb : member) : Prop := nth_error (mx_members self) k = Some mb.

Lemma per_member_ok (F : member -> res (arr num)) (s : list nat) :
  (forall k mb, (k < n)%nat -> nth_mb k mb -> exists a, F mb = Ok a /\ shp a = s) ->
  exists m, per_member self F = Ok m /\ shp m = (n :: s) /\
    forall k, (k < n)%nat -> exists mb a, nth_mb k mb /\ F mb = Ok a /\ forall idx, ent m (k :: idx) = ent a idx.
Proof.
  intros HF. unfold per_member. pose proof (mg_len _ _ _ H false) as Hlen. fold n in Hlen.
  destruct (map_res_ok F s (mx_members self)) as (r & Er & Hl & Hs & Hk).
  { intros c Hin. apply In_nth_error in Hin as (k & Hk).
    assert (Hkn : (k < n)%nat) by (rewrite <- Hlen; apply nth_error_Some; congruence).
    apply (HF k); assumption. }
  rewrite Er. cbn [bind].
  destruct (stack_is r NaN s) as (q & Eq & Hq & Hqe).
  { intros ->; cbn in Hl; lia. }
  { exact Hs. }
  exists q; split; [exact Eq|]. split; [rewrite Hq; congruence|].
  intros k Hkn. destruct (part_nth self g l H k Hkn) as (c & E & Hcc).
  destruct (HF k c Hkn E) as (a & Ea & Ha). exists c, a. do 2 (split; [assumption|]).
  intros idx. apply Hqe. eapply Hk; eassumption.
Qed.

Lemma w_is : arr_is (mx_w self) [n] (fun idx => Fin (pw (l false) (hd 0%nat idx))).
Proof.
  unfold mx_w. rewrite (mg_weights _ _ _ H false). split; [cbn; rewrite map_length; reflexivity|].
  intros idx Hi; inb_inv. cbn [arr1 ent hd]. unfold pw.
  rewrite (nth_indep _ NaN (Fin (snd ((fun _ _ _ _ _ : nat => 0), 0)))) by (rewrite map_length; assumption).
  rewrite (map_nth (fun q : joint * R => Fin (snd q))). reflexivity.
Qed.

Let tz := VSet true false false true.
Lemma light_tz f : Sum (nt g) (fun t => Sum (nz g) (fun z => Lw g t z * marg g (mass g f) tz (Bin t 0 0 0 z))) =
  total g (lit g (mass g f)).
Proof.
  rewrite <- (marg_total_sum g (lit g (mass g f)) tz (Bin 0 0 0 0 0)). unfold sum_over; cbn [has_t has_v has_x has_z tz sum_if bt bv bx by_ bz].
  apply Sum_ext; intros t _. apply Sum_ext; intros z _. rewrite marg_lit by reflexivity. cbn. ring.
Qed.

Lemma rw_is : lights_ok false true -> exists r, mix_reweightings self = Ok r /\
  arr_is r [n] (fun idx => Fin (ratio (l false) true (hd 0%nat idx))).
Proof.
  intros Hm. unfold mix_reweightings.
  destruct (mix_p_marg self g l H Hg tz true false false eq_refl ltac:(discriminate)) as (p & Ep & Hps & Hpe).
  change (name tz) with "tz"%string in Ep. rewrite Ep. cbn [bind].
  destruct (per_member_ok (fun m => mb_get_p m "tz" false false) (dims tz g)) as (q & Eq & Hqs & Hqe).
  { intros k c Hk Ec. destruct (mb_p _ _ _ (mg_mb _ _ _ H k c Ec) tz false false eq_refl ltac:(discriminate)) as (a & Ea & Has & _).
    exists a; split; assumption. }
  rewrite Eq. cbn [bind].
  assert (Hlw : arr_is (light_weights (c_ssps (mx_cube self))) [nt g; nz g]
   (fun idx => Fin (Lw g (hd 0%nat idx) (hd 0%nat (tl idx))))).
  { pose proof (co_ssps _ _ Hc) as Hs. split; [apply (so_lw_shp _ _ Hs)|].
    intros idx Hi; inb_inv. cbn. apply (so_lw _ _ Hs); assumption. }
  assert (Hp : arr_is p [nt g; nz g] (fun idx => Fin (marg g (mass g (mixf (l false))) tz (rd tz idx)))).
  { split; [exact Hps|]. intros idx Hi; inb_inv. cbn [rd tz rd1 has_t has_v has_x has_z hd tl].
    etransitivity; [apply (Hpe (Bin i 0 0 0 i0)); (unfold in_grid; cbn; pose proof (gg_v _ Hg); pose proof (gg_x _ Hg); pose proof (gg_y _ Hg); auto 10)|].
    f_equal. cbn [prob]. change (has_v tz) with false. field. }
  assert (Hq : arr_is q [n; nt g; nz g] (fun idx => Fin (marg g (mass g (pf (l false) (hd 0%nat idx))) tz (rd tz (tl idx))))).
  { split; [exact Hqs|]. intros idx Hi; inb_inv. cbn [rd tz rd1 has_t has_v has_x has_z hd tl].
    destruct (Hqe i ltac:(assumption)) as (c & a & Hcc & Ea & He). rewrite He.
    destruct (mb_p _ _ _ (mg_mb _ _ _ H _ _ Hcc) tz false false eq_refl ltac:(discriminate)) as (a' & Ea' & _ & He').
    change (name tz) with "tz"%string in Ea'. rewrite Ea in Ea'; injection Ea' as <-.
    etransitivity; [apply (He' (Bin i0 0 0 0 i1)); (unfold in_grid; cbn; pose proof (gg_v _ Hg); pose proof (gg_x _ Hg); pose proof (gg_y _ Hg); auto 10)|].
    f_equal. cbn [prob]. change (has_v tz) with false. field. }
  s_bop. s_sum. s_bop.
  match goal with Hb : arr_is ?b [nt g; nz g] (fun idx => nmul _ _) |- context [asum_all ?b] =>
    assert (Ht : arr_is (asum_all b) [] (fun _ => Fin (total g (lit g (mass g (mixf (l false))))))) end.
  { split; [reflexivity|]. intros idx _. unfold asum_all. cbn [ent].
    match goal with Hb : arr_is ?b [nt g; nz g] _ |- context [shp ?b] => destruct Hb as [-> Hbe] end.
    rewrite (nsum_map_Fin _ (fun idx => Lw g (hd 0%nat idx) (hd 0%nat (tl idx)) * marg g (mass g (mixf (l false))) tz (rd tz idx))).
    - cbn [scal ent]. f_equal. rewrite <- light_tz. repeat (rewrite sum_all_idx_cons; apply Sum_ext; intros). rewrite sum_all_idx_nil. reflexivity.
    - intros ix Hix. apply in_all_idx in Hix. inb_inv. rewrite Hbe by (repeat constructor; assumption). cbn. picks. reflexivity. }
  s_bop. eexists; split; [reflexivity|]. eapply arr_is_ext; [eassumption|]. intros idx Hidx; inb_inv. cbn. picks. cbn.
  pose proof (lights_lw_ok false true Hm eq_refl) as Hpos.
  rewrite (nsum_map_Fin _ (fun ix => Lw g (hd 0%nat ix) (hd 0%nat (tl ix)) * marg g (mass g (pf (l false) i)) tz (rd tz ix))).
  2:{ intros ix Hix. apply in_all_idx in Hix. inb_inv. cbn. picks. cbn. reflexivity. }
  rewrite ndiv_Fin by lra. f_equal. unfold ratio. f_equal.
  rewrite <- light_tz. repeat (rewrite sum_all_idx_cons; apply Sum_ext; intros). rewrite sum_all_idx_nil. reflexivity.
Qed.

(** ** mean *)
Lemma xdims_mdims k C : xdims g (is_x k) C = mdims k C g.
Proof. destruct k; reflexivity. Qed.
Lemma xtl_mcoords k C i : xtl (is_x k) (mcoords k C i) = coords C i.
Proof. destruct k; reflexivity. Qed.
Lemma eqb_x k C : disjoint (cvar k) C = true -> String.eqb (part0 (dname (cvar k) C)) "x" = is_x k.
Proof. intros HD. rewrite part0_dname by assumption. destruct k; reflexivity. Qed.

Lemma rw_any lw : lights_ok false lw -> exists r,
  (if lw then mix_reweightings self else Ok (full [List.length (mx_members self)] (Fin 1))) = Ok r /\
  arr_is r [n] (fun idx => Fin (ratio (l false) lw (hd 0%nat idx))).
Proof.
  intros Hm. destruct lw; [apply rw_is; assumption|]. eexists; split; [reflexivity|].
  rewrite (mg_len _ _ _ H false). apply full_is.
Qed.

Lemma marg_moment_res lw k mu : lights_ok false lw -> arr_is mu (n :: xdims g (is_x k) no_vars) (ent mu) ->
  exists m, (mu_i <- moveaxis mu [0]%Z [-1]%Z ;;
      if lw then rw <- mix_reweightings self ;; a <- bop nmul (mx_w self) rw ;; b <- bop nmul a mu_i ;; asum [-1]%Z b
      else b <- bop nmul (mx_w self) mu_i ;; asum [-1]%Z b) = Ok m /\ shp m = mdims k no_vars g /\
      forall i, in_grid g i -> ent m (mcoords k no_vars i) =
        nsum (map (fun q => nmul (Fin (pw (l false) q * ratio (l false) lw q)) (ent mu (q :: mcoords k no_vars i))) (seq 0 n)).
Proof.
  intros Hm Hmu. pose proof w_is as Hw. destruct lw.
  - destruct (rw_is Hm) as (rw & Erw & Hrw).
    destruct (marg_moment_lw_arr g n mu (mx_w self) rw (ent mu) (fun q => Fin (pw (l false) q)) (fun q => Fin (ratio (l false) true q))
            (is_x k) Hmu Hw Hrw) as (m & Em & Hms & Hme).
    exists m. rewrite Erw. cbn [bind]. split; [exact Em|]. rewrite xdims_mdims in Hms, Hme. split; [exact Hms|].
    intros i Hi. rewrite Hme by (apply mcoords_inb; assumption). reflexivity.
  - destruct (marg_moment_mw_arr g n mu (mx_w self) (ent mu) (fun q => Fin (pw (l false) q))
            (is_x k) Hmu Hw) as (m & Em & Hms & Hme).
    exists m. split; [exact Em|]. rewrite xdims_mdims in Hms, Hme. split; [exact Hms|].
    intros i Hi. rewrite Hme by (apply mcoords_inb; assumption). f_equal. apply map_ext. intros q. unfold ratio. rewrite Rmult_1_r. reflexivity.
Qed.

(** The means [e] of the members are put together as follows. *)
Section One.
Context (lw : bool) (k : coord) (C : vset).
Context (Hm0 : lights_ok false lw) (Hm : lights_ok (has_v C) lw) (HD : disjoint (cvar k) C = true).
Let Hl := lights_lw_ok (has_v C) lw Hm.
Let P := prob g (mixf (l (has_v C))) lw.
Let Pq q := prob g (pf (l (has_v C)) q) lw.

(** the arrays F of the members have the entries e *)
Definition entries (F : member -> res (arr num)) (e : nat -> bin -> num) : Prop := forall q mb, (q < n)%nat -> nth_mb q mb ->
  exists a, F mb = Ok a /\ shp a = mdims k C g /\ forall i, in_grid g i -> ent a (mcoords k C i) = e q i.

Lemma entries_arr F e : entries F e -> exists mu, per_member self F = Ok mu /\
  arr_is mu (n :: xdims g (is_x k) C) (ent mu) /\
  forall q i, (q < n)%nat -> in_grid g i -> ent mu (q :: mcoords k C i) = e q i.
Proof.
  intros HF. destruct (per_member_ok F (mdims k C g)) as (mu & E & Hs & He).
  { intros q c Hq Hcc. destruct (HF q c Hq Hcc) as (a & Ea & Has & _). exists a; split; assumption. }
  exists mu. split; [exact E|]. split; [apply self_is; rewrite xdims_mdims; exact Hs|].
  intros q i Hq Hi. destruct (He q Hq) as (c & a & Hcc & Ea & Hae). rewrite Hae.
  destruct (HF q c Hq Hcc) as (a' & Ea' & _ & Ha'). rewrite Ea in Ea'; injection Ea' as <-.
  apply Ha'; assumption.
Qed.

Definition mean_entry (e : nat -> bin -> num) (i : bin) : num :=
  if nonempty C then
    ndiv (nsum (map (fun q => nmul (Fin (marg g (Pq q) C i / vol g C i * pw (l false) q * ratio (l false) lw q)) (e q i)) (seq 0 n)))
         (Fin (marg g P C i / vol g C i))
  else nsum (map (fun q => nmul (Fin (pw (l false) q * ratio (l false) lw q)) (e q i)) (seq 0 n)).

Lemma mix_mean_raw e : entries (fun m => mb_mean m (dname (cvar k) C) lw) e ->
  exists m, mix_mean self (dname (cvar k) C) lw = Ok m /\ shp m = mdims k C g /\
  forall i, in_grid g i -> ent m (mcoords k C i) = mean_entry e i.
Proof.
  intros He. unfold mix_mean. destruct (entries_arr _ e He) as (mu & Emu & Hmu & Hmue). rewrite Emu. cbn [bind].
  destruct (rw_any lw Hm0) as (rw & Erw & Hrw). rewrite Erw. cbn [bind].
  rewrite dname_sep, eqb_x by assumption. pose proof w_is as Hw. unfold mean_entry.
  destruct (nonempty C) eqn:EC; cbn [negb].
  - rewrite part1_dname by assumption. cbn [bind].
    destruct (per_member_ok (fun m => mb_get_p m (name C) true lw) (dims C g)) as (wp & Ewp & Hwps & Hwpe).
    { intros q c Hq Hcc. destruct (mb_p _ _ _ (mg_mb _ _ _ H q c Hcc) C true lw EC (Hm q Hq)) as (a & Ea & Has & _).
      exists a; split; assumption. }
    rewrite Ewp. cbn [bind].
    destruct (mix_p_marg self g l H Hg C true true lw EC Hl) as (d & Ed & Hds & Hde).
    destruct (cond_mean_arr g Hg n mu (mx_w self) rw (ent mu) (fun q => Fin (pw (l false) q)) (fun q => Fin (ratio (l false) lw q))
                (is_x k) C wp d (ent wp) (ent d) Hmu (self_is _ _ Hwps) Hw Hrw (self_is _ _ Hds)) as (m & Em & Hms & Hme).
    exists m. split.
    { rewrite Ed. cbn [bind] in Em |- *. cbv zeta in Em. destruct (bop nmul (T wp) (mx_w self)) as [w1|]; [|discriminate Em].
      cbn [bind] in Em |- *. exact Em. }
    rewrite xdims_mdims in Hms, Hme. split; [exact Hms|].
    intros i Hi. rewrite Hme by (apply mcoords_inb; assumption). rewrite xtl_mcoords, Hde by assumption. f_equal.
    f_equal. apply map_ext_in. intros q Hq. apply in_seq in Hq. rewrite Hmue by (try assumption; lia).
    destruct (Hwpe q ltac:(lia)) as (c & a & Hcc & Ea & Hae). rewrite Hae.
    destruct (mb_p _ _ _ (mg_mb _ _ _ H q c Hcc) C true lw EC (Hm q ltac:(lia))) as (a' & Ea' & _ & Ha').
    rewrite Ea in Ea'; injection Ea' as <-. rewrite Ha' by assumption. rewrite !nmul_Fin. reflexivity.
  - assert (C = no_vars) as EC' by (destruct C as [[] [] [] []]; try discriminate; reflexivity).
    assert (Hmu' : arr_is mu (n :: xdims g (is_x k) no_vars) (ent mu)) by (rewrite <- EC'; exact Hmu).
    destruct (marg_mean_arr g n mu (mx_w self) rw (ent mu) (fun q => Fin (pw (l false) q)) (fun q => Fin (ratio (l false) lw q))
                (is_x k) Hmu' Hw Hrw) as (m & Em & Hms & Hme).
    exists m. split; [exact Em|]. rewrite <- EC', xdims_mdims in Hms, Hme. split; [exact Hms|].
    intros i Hi. rewrite Hme by (apply mcoords_inb; assumption). f_equal. apply map_ext_in. intros q Hq. apply in_seq in Hq.
    rewrite Hmue by (try assumption; lia). rewrite nmul_Fin. reflexivity.
Qed.

(** ** central moments *)
Definition central_entry (e : nat -> bin -> num) (i : bin) : num :=
  if nonempty C then
    ndiv (nsum (map (fun q => nmul (Fin (marg g (share g (l (has_v C)) lw q) C i / vol g C i)) (e q i)) (seq 0 n)))
         (Fin (marg g P C i / vol g C i))
  else nsum (map (fun q => nmul (Fin (pw (l false) q * ratio (l false) lw q)) (e q i)) (seq 0 n)).

Lemma mix_central_raw j mean e : mix_mean self (dname (cvar k) C) lw = Ok mean ->
  entries (fun m => mb_noncentral m (dname (cvar k) C) j mean lw) e ->
  exists m, mix_central_moment self (dname (cvar k) C) j lw = Ok m /\ shp m = mdims k C g /\
  forall i, in_grid g i -> ent m (mcoords k C i) = central_entry e i.
Proof.
  intros Emean He. unfold mix_central_moment. rewrite Emean. cbn [bind].
  destruct (entries_arr _ e He) as (mu & Emu & Hmu & Hmue). rewrite Emu. cbn [bind].
  rewrite dname_sep, eqb_x by assumption. unfold central_entry.
  destruct (nonempty C) eqn:EC; cbn [negb].
  - rewrite part1_dname by assumption. cbn [bind].
    destruct (mix_p_marg self g l H Hg C false true lw EC Hl) as (d & Ed & Hds & Hde).
    rewrite Ed. cbn [bind].
    destruct (cond_moment_arr g Hg n mu (ent mu) (is_x k) C d (ent d) Hmu (self_is _ _ Hds)) as (m & Em & Hms & Hme).
    exists m. split; [exact Em|]. rewrite xdims_mdims in Hms, Hme. split; [exact Hms|].
    intros i Hi. rewrite Hme by (apply mcoords_inb; assumption). rewrite xtl_mcoords. f_equal.
    + f_equal. apply map_ext_in. intros q Hq. apply in_seq in Hq. rewrite Hmue by (try assumption; lia).
      rewrite Hde by (try assumption; fold n; lia). reflexivity.
    + rewrite (nsum_map_Fin (fun q => ent d (q :: coords C i)) (fun q => marg g (share g (l (has_v C)) lw q) C i * / vol g C i)).
      2:{ intros q Hq. apply in_seq in Hq. rewrite Hde by (try assumption; fold n; lia). reflexivity. }
      rewrite sumR_map_seq, Sum_scal_r. unfold P. rewrite (marg_share' self g l H) by assumption. reflexivity.
  - assert (C = no_vars) as EC' by (destruct C as [[] [] [] []]; try discriminate; reflexivity).
    assert (Hmu' : arr_is mu (n :: xdims g (is_x k) no_vars) (ent mu)) by (rewrite <- EC'; exact Hmu).
    destruct (marg_moment_res lw k mu Hm0 Hmu') as (m & Em & Hms & Hme). rewrite <- EC' in Hms, Hme.
    exists m. split; [exact Em|]. split; [exact Hms|].
    intros i Hi. rewrite Hme by assumption. f_equal. apply map_ext_in. intros q Hq. apply in_seq in Hq.
    rewrite Hmue by (try assumption; lia). reflexivity.
Qed.

(** where the conditioners of all members are possible *)
Lemma mean_entry_fin e M i : in_grid g i -> (lw = true -> has_v C = false) -> nonempty C = true ->
  0 < marg g P C i -> (forall q, (q < n)%nat -> e q i = Fin (M q)) ->
  mean_entry e i = Fin (Sum n (fun q => marg g (share g (l (has_v C)) lw q) C i * M q) / marg g P C i).
Proof.
  intros Hi Hlv EC HP He. unfold mean_entry. rewrite EC. pose proof (vol_pos g C i Hg Hi) as Hv.
  rewrite (nsum_map_Fin _ (fun q => marg g (share g (l (has_v C)) lw q) C i * M q * / vol g C i)).
  2:{ intros q Hq. apply in_seq in Hq. rewrite He by lia. rewrite nmul_Fin. f_equal.
      rewrite marg_share_scal by (try assumption; lia). fold (Pq q). rewrite (pw_any self g l H (has_v C)).
      assert (ratio (l (has_v C)) lw q = ratio (l false) lw q) as -> by (destruct lw; [rewrite Hlv; reflexivity|reflexivity]).
      field. lra. }
  rewrite sumR_map_seq, Sum_scal_r.
  rewrite ndiv_Fin by (apply Rgt_not_eq, Rmult_gt_0_compat; [assumption|apply Rinv_0_lt_compat; assumption]).
  f_equal. field. lra.
Qed.
Lemma central_entry_fin e M i : in_grid g i -> nonempty C = true ->
  0 < marg g P C i -> (forall q, (q < n)%nat -> e q i = Fin (M q)) ->
  central_entry e i = Fin (Sum n (fun q => marg g (share g (l (has_v C)) lw q) C i * M q) / marg g P C i).
Proof.
  intros Hi EC HP He. unfold central_entry. rewrite EC. pose proof (vol_pos g C i Hg Hi) as Hv.
  rewrite (nsum_map_Fin _ (fun q => marg g (share g (l (has_v C)) lw q) C i * M q * / vol g C i)).
  2:{ intros q Hq. apply in_seq in Hq. rewrite He by lia. rewrite nmul_Fin. f_equal. field. lra. }
  rewrite sumR_map_seq, Sum_scal_r.
  rewrite ndiv_Fin by (apply Rgt_not_eq, Rmult_gt_0_compat; [assumption|apply Rinv_0_lt_compat; assumption]).
  f_equal. field. lra.
Qed.
Lemma marg_entry_fin e M i : in_grid g i -> nonempty C = false ->
  (forall q, (q < n)%nat -> total g (prob g (pf (l false) q) lw) = 1) -> (forall q, (q < n)%nat -> e q i = Fin (M q)) ->
  nsum (map (fun q => nmul (Fin (pw (l false) q * ratio (l false) lw q)) (e q i)) (seq 0 n)) =
  Fin (Sum n (fun q => marg g (share g (l (has_v C)) lw q) C i * M q)).
Proof.
  intros Hi EC HT He. assert (C = no_vars) as -> by (destruct C as [[] [] [] []]; try discriminate; reflexivity).
  rewrite (nsum_map_Fin _ (fun q => marg g (share g (l false) lw q) no_vars i * M q)).
  2:{ intros q Hq. apply in_seq in Hq. rewrite He by lia. rewrite nmul_Fin. f_equal.
      rewrite marg_share_scal by (try assumption; lia). rewrite marg_none, HT by lia. ring. }
  rewrite sumR_map_seq. reflexivity.
Qed.
Lemma entry_nan e i q : (q < n)%nat -> e q i = NaN -> mean_entry e i = NaN /\ central_entry e i = NaN.
Proof.
  intros Hq He. assert (K : forall F : nat -> num, nsum (map (fun q => nmul (F q) (e q i)) (seq 0 n)) = NaN).
  { intros F. apply nsum_nan. apply in_map_iff. exists q. split; [|apply in_seq; lia]. rewrite He. apply nmul_nan_r. }
  unfold mean_entry, central_entry. rewrite !K. destruct (nonempty C); split; reflexivity.
Qed.
End One.
End Mix.

(** ** base components *)
Section Base.
Context (self : mixture) (g : grid) (comps : list component) (l : parts).
Context (H : mix_on self g comps l) (Hg : good_grid g).
Let HG := mix_on_gen self g comps l H Hg.
Let n := List.length l.

Definition members_ok (lw : bool) : Prop := forall k, (k < n)%nat -> lw_ok g (pf l k) lw.
Lemma mix_lw_ok lw : members_ok lw -> lw_ok g (mixf l) lw.
Proof. exact (lights_lw_ok self g _ HG true lw). Qed.

(** normalisation, needed for the moments of marginals only *)
Definition normalised (lw : bool) (C : vset) : Prop := nonempty C = false ->
  (forall q, (q < n)%nat -> total g (prob g (pf l q) lw) = 1) /\ total g (prob g (mixf l) lw) = 1.

Lemma nth_base q mb : (q < n)%nat -> nth_mb self q mb -> exists c, mb = comp_member c /\ comp_on c g (pf l q) /\ nonneg g (pf l q).
Proof.
  intros Hq E. unfold nth_mb in E. rewrite (mo_members _ _ _ _ H), nth_error_map in E.
  destruct (nth_error comps q) as [c|] eqn:Ec; [|discriminate E]. injection E as <-. exists c. split; [reflexivity|].
  pose proof (nth_error_nth' l ((fun _ _ _ _ _ => 0), 0) Hq) as El.
  destruct (mo_comp _ _ _ _ H _ _ _ Ec El) as (H1 & H2 & _). split; assumption.
Qed.

Section One.
Context (lw : bool) (k : coord) (C : vset).
Context (Hm : members_ok lw) (HD : disjoint (cvar k) C = true) (HT : normalised lw C).
Let Hl := mix_lw_ok lw Hm.
Let P := prob g (mixf l) lw.
Let Pq q := prob g (pf l q) lw.

(** every member, or some member not, has something in the conditioner bin *)
Definition all_pos i : Prop := forall q, (q < n)%nat -> 0 < marg g (Pq q) C i.
Definition some_zero i : Prop := exists q, (q < n)%nat /\ marg g (Pq q) C i = 0.

Lemma base_entries (F : member -> res (arr num)) (V : nat -> bin -> R) :
  (forall q c, (q < n)%nat -> comp_on c g (pf l q) -> nonneg g (pf l q) -> exists a, F (comp_member c) = Ok a /\ shp a = mdims k C g /\
     forall i, in_grid g i -> (0 < marg g (Pq q) C i -> ent a (mcoords k C i) = Fin (V q i)) /\
                              (marg g (Pq q) C i = 0 -> ent a (mcoords k C i) = NaN)) ->
  entries self g (fun _ => l) k C F (fun q i => if Rlt_dec 0 (marg g (Pq q) C i) then Fin (V q i) else NaN).
Proof.
  intros HF q mb Hq Hmb. destruct (nth_base q mb Hq Hmb) as (c & -> & Hc & Hnn).
  destruct (HF q c Hq Hc Hnn) as (a & E & Hs & He). exists a. do 2 (split; [assumption|]). intros i Hi.
  destruct (He i Hi) as [H1 H2]. destruct (Rlt_dec 0 _) as [p|p]; [auto|]. apply H2.
  assert (0 <= marg g (Pq q) C i); [|lra]. apply marg_nonneg; [assumption|]. apply prob_nonneg; try assumption. exact (Hm q Hq).
Qed.

Let MHm : lights_ok g (fun _ : bool => l) false lw := Hm.
Let MHm' : lights_ok g (fun _ : bool => l) (has_v C) lw := Hm.

Lemma mean_sum h M i : in_grid g i -> all_pos i -> (forall q, M q = Ex g (Pq q) (cvar k) C h i) ->
  Sum n (fun q => marg g (share g l lw q) C i * M q) / marg g P C i = Ex g P (cvar k) C h i /\ 0 < marg g P C i.
Proof.
  intros Hi Hp HM. destruct (Ex_mix self g (fun _ => l) HG Hg true lw (cvar k) C h i MHm Hi HD Hp) as [H1 H2]. split; [|exact H1].
  transitivity (Ex g P (cvar k) C h i * marg g P C i / marg g P C i); [|field; unfold P; lra]. f_equal. unfold P. rewrite <- H2.
  apply Sum_ext; intros q _. rewrite HM. reflexivity.
Qed.

Lemma some_zero_nan (V : nat -> bin -> R) i : some_zero i -> exists q, (q < n)%nat /\
  (fun q i => if Rlt_dec 0 (marg g (Pq q) C i) then Fin (V q i) else NaN) q i = NaN.
Proof. intros (q & Hq & E). exists q. split; [assumption|]. cbv beta. rewrite E. destruct (Rlt_dec 0 0); [lra|reflexivity]. Qed.
Lemma all_pos_fin (V : nat -> bin -> R) i : all_pos i -> forall q, (q < n)%nat ->
  (fun q i => if Rlt_dec 0 (marg g (Pq q) C i) then Fin (V q i) else NaN) q i = Fin (V q i).
Proof. intros Hp q Hq. specialize (Hp q Hq). cbv beta. destruct (Rlt_dec 0 _); [reflexivity|contradiction]. Qed.

Lemma base_sum h V i : in_grid g i -> (forall q, V q i = Ex g (Pq q) (cvar k) C h i) -> all_pos i ->
  mean_entry g (fun _ => l) lw C (fun q i => if Rlt_dec 0 (marg g (Pq q) C i) then Fin (V q i) else NaN) i = Fin (Ex g P (cvar k) C h i) /\
  central_entry g (fun _ => l) lw C (fun q i => if Rlt_dec 0 (marg g (Pq q) C i) then Fin (V q i) else NaN) i = Fin (Ex g P (cvar k) C h i).
Proof.
  intros Hi HV Hp. destruct (mean_sum h (fun q => V q i) i Hi Hp HV) as [E HP].
  pose proof (all_pos_fin V i Hp) as HF. destruct (nonempty C) eqn:EC.
  - split.
    + rewrite <- E. unfold mean_entry. rewrite EC. pose proof (vol_pos g C i Hg Hi) as Hv.
      rewrite (nsum_map_Fin _ (fun q => marg g (share g l lw q) C i * V q i * / vol g C i)).
      2:{ intros q Hq. apply in_seq in Hq. rewrite HF by (fold n in Hq; lia). rewrite nmul_Fin. f_equal.
          rewrite (marg_share_scal self g (fun _ => l) HG true lw) by (try assumption; fold n in Hq; unfold n; lia). field. lra. }
      rewrite sumR_map_seq, Sum_scal_r. fold P.
      rewrite ndiv_Fin by (apply Rgt_not_eq, Rmult_gt_0_compat; [assumption|apply Rinv_0_lt_compat; assumption]).
      f_equal. fold n. field. lra.
    + rewrite <- E. exact (central_entry_fin self g (fun _ => l) HG Hg lw C _ (fun q => V q i) i Hi EC HP HF).
  - destruct (HT EC) as [T1 T2].
    assert (E1 : marg g P C i = 1).
    { assert (C = no_vars) as -> by (destruct C as [[] [] [] []]; try discriminate; reflexivity). rewrite marg_none. exact T2. }
    rewrite E1 in E. replace (Sum n (fun q => marg g (share g l lw q) C i * V q i) / 1) with (Sum n (fun q => marg g (share g l lw q) C i * V q i)) in E by field. rewrite <- E. unfold mean_entry, central_entry. rewrite EC.
    pose proof (marg_entry_fin self g (fun _ => l) HG lw k C MHm MHm' HD _ (fun q => V q i) i Hi EC T1 HF) as K. split; exact K.
Qed.

Lemma mix_mean_ok : exists m, mix_mean self (dname (cvar k) C) lw = Ok m /\ shp m = mdims k C g /\
  forall i, in_grid g i ->
    (all_pos i -> ent m (mcoords k C i) = Fin (Mean g P k C i)) /\
    (some_zero i -> ent m (mcoords k C i) = NaN).
Proof.
  destruct (mix_mean_raw self g (fun _ => l) HG Hg lw k C MHm MHm' HD
     (fun q i => if Rlt_dec 0 (marg g (Pq q) C i) then Fin (Mean g (Pq q) k C i) else NaN)) as (m & E & Hs & He).
  { apply base_entries. intros q c Hq Hcc Hnn.
    destruct (mean_claim c g _ lw Hcc Hg Hnn (Hm q Hq) k C HD) as (a & Ea & Has & Hae).
    { intros HC. apply HT; assumption. }
    exists a. do 2 (split; [assumption|]). intros i Hi. destruct (Hae i Hi) as [H1 H2]. split; [|exact H2].
    intros Hp. apply H1; assumption. }
  exists m. do 2 (split; [assumption|]). intros i Hi. rewrite He by assumption. split.
  - intros Hp. apply (base_sum (cmid g k) (fun q i => Mean g (Pq q) k C i) i Hi); [reflexivity|assumption].
  - intros Hz. destruct (some_zero_nan (fun q i => Mean g (Pq q) k C i) i Hz) as (q & Hq & En).
    apply (entry_nan self g (fun _ => l) HG lw C _ i q Hq En).
Qed.

Definition got (F : member -> res (arr num)) (q : nat) (i : bin) : num :=
  match nth_error (mx_members self) q with
  | Some mb => match F mb with Ok a => ent a (mcoords k C i) | Err _ => NaN end
  | None => NaN end.

Lemma mix_central_ok j : exists m, mix_central_moment self (dname (cvar k) C) j lw = Ok m /\ shp m = mdims k C g /\
  forall i, in_grid g i ->
    (all_pos i -> ent m (mcoords k C i) = Fin (Moment g P k C j (Mean g P k C i) i)) /\
    (some_zero i -> ent m (mcoords k C i) = NaN).
Proof.
  destruct mix_mean_ok as (mean & Emean & Hmeans & Hmeane). set (F := fun m => mb_noncentral m (dname (cvar k) C) j mean lw).
  assert (HF : forall q mb, (q < n)%nat -> nth_mb self q mb -> exists a, F mb = Ok a /\ shp a = mdims k C g /\
    forall i, in_grid g i -> (forall c, 0 < marg g (Pq q) C i -> ent mean (mcoords k C i) = Fin c ->
         ent a (mcoords k C i) = Fin (Moment g (Pq q) k C j c i)) /\ (marg g (Pq q) C i = 0 -> ent a (mcoords k C i) = NaN)).
  { intros q mb Hq Hmb. destruct (nth_base q mb Hq Hmb) as (c & -> & Hcc & Hnn).
    apply (moment_claim c g _ lw Hcc Hg Hnn (Hm q Hq) k C HD); [|exact Hmeans]. intros HC. apply HT; assumption. }
  destruct (mix_central_raw self g (fun _ => l) HG Hg lw k C MHm MHm' HD j mean (got F) Emean) as (m & E & Hs & He).
  { intros q mb Hq Hmb. destruct (HF q mb Hq Hmb) as (a & Ea & Has & _). exists a. do 2 (split; [assumption|]).
    intros i _. unfold got. unfold nth_mb in Hmb. rewrite Hmb. change (mb_noncentral mb _ _ _ _) with (F mb) in *. rewrite Ea. reflexivity. }
  exists m. do 2 (split; [assumption|]). intros i Hi. rewrite He by assumption.
  assert (HQ : forall q, (q < n)%nat -> (forall c, 0 < marg g (Pq q) C i -> ent mean (mcoords k C i) = Fin c ->
      got F q i = Fin (Moment g (Pq q) k C j c i)) /\ (marg g (Pq q) C i = 0 -> got F q i = NaN)).
  { intros q Hq. destruct (part_nth self g (fun _ => l) HG q Hq) as (mb & Hmb & _).
    destruct (HF q mb Hq Hmb) as (a & Ea & _ & Hae). unfold got. rewrite Hmb, Ea. apply Hae; assumption. }
  split.
  - intros Hp. destruct (Hmeane i Hi) as [HM _]. specialize (HM Hp).
    destruct (base_sum (fun b => (cmid g k b - Mean g P k C i) ^ j) (fun q i' => Moment g (Pq q) k C j (Mean g P k C i) i) i Hi) as [_ K];
      [reflexivity|assumption|].
    unfold Moment at 1. rewrite <- K. unfold central_entry.
    assert (EE : forall G : nat -> num, map (fun q => nmul (G q) (got F q i)) (seq 0 n) =
       map (fun q => nmul (G q) (if Rlt_dec 0 (marg g (Pq q) C i) then Fin (Moment g (Pq q) k C j (Mean g P k C i) i) else NaN)) (seq 0 n)).
    { intros G. apply map_ext_in. intros q Hq. apply in_seq in Hq. f_equal.
      specialize (Hp q ltac:(lia)). destruct (Rlt_dec 0 _); [|contradiction]. apply HQ; [lia|assumption|assumption]. }
    fold n. rewrite !EE. reflexivity.
  - intros (q & Hq & Hz). apply (entry_nan self g (fun _ => l) HG lw C _ i q Hq). apply HQ; assumption.
Qed.
End One.
End Base.
