(** * MixCond: conditional queries and get_p of a mixture. *)
From Coq Require Import Reals Lra Lia List Bool Arith ZArith String Ascii.
From Verif Require Import Num NumLemmas Arr ArrLemmas MomArr PyStr Cube Base Spec SpecLemmas Repr CubeLemmas BaseLemmas
  CondLemmas Moments DistLemmas Mixture MixSpec MixGen MixLemmas.
Import ListNotations.
Local Open Scope R_scope.

(** logsumexp over axis 0 *)
Lemma lse0_is (a : arr num) n s f : arr_is a (n :: s) f -> (0 < n)%nat ->
  exists b, logsumexp a [0]%Z = Ok b /\ arr_is b s (fun r => lse (map (fun k => f (k :: r)) (seq 0 n))).
Proof.
  intros H Hn.
  assert (E0 : norm_axes (List.length (n :: s)) [0]%Z = Ok [0%nat]).
  { apply (norm_axes_ok (List.length (n :: s)) [0%nat]); [|reflexivity]. intros x [<-|[]]. cbn; lia. }
  assert (Em : axis_mask (List.length (n :: s)) [0%nat] = (true :: repeat false (List.length s))%list).
  { change (List.length (n :: s)) with (1 + List.length s)%nat.
    rewrite axis_mask_app by (intros x [<-|[]]; lia). reflexivity. }
  destruct (logsumexp_is [0]%Z [0%nat] a (n :: s) f H E0) as (b & E & Hb).
  { rewrite Em. cbn [keep Bool.eqb]. rewrite keep_none_true. apply has_zero_false. intros d [<-|[]]; lia. }
  exists b; split; [exact E|]. rewrite Em in Hb. cbn [keep Bool.eqb] in Hb.
  rewrite keep_all_false, keep_none_true in Hb. eapply arr_is_ext; [exact Hb|].
  intros r Hr. cbv beta. f_equal. rewrite map_all_idx1. apply map_ext. intros k. f_equal.
  cbn [merge hd tl]. f_equal. apply merge_false. apply inb_length; assumption.
Qed.

Lemma lse_seq n (F : nat -> R) : (forall k, (k < n)%nat -> 0 <= F k) ->
  lse (map (fun k => lg (F k)) (seq 0 n)) = lg (Sum n F).
Proof.
  intros HF. rewrite <- sumR_map_seq. apply (lse_map_lg _ F).
  - reflexivity.
  - intros k Hk. apply in_seq in Hk. apply HF; lia.
Qed.

Lemma map_cond_entry n (F : nat -> R) m : (0 < n)%nat -> (forall k, (k < n)%nat -> 0 <= F k) ->
  lse (map (fun k => cond_entry (F k) m) (seq 0 n)) = cond_entry (Sum n F) m.
Proof.
  intros Hn HF. unfold cond_entry. destruct (Rlt_dec 0 m) as [p|p].
  - rewrite (lse_seq n (fun k => F k / m)).
    + unfold Rdiv. rewrite Sum_scal_r. reflexivity.
    + intros. apply div_pos_le; auto.
  - apply lse_nan. apply in_map_iff. exists 0%nat. split; [reflexivity|]. apply in_seq; lia.
Qed.

Lemma marg_v_inside g P S i : has_v S = false -> marg g P S i =
  over (has_t S) (nt g) (bt i) (fun t => over (has_x S) (nx g) (bx i) (fun x => over (has_x S) (ny g) (by_ i) (fun y =>
    over (has_z S) (nz g) (bz i) (fun z => Sum (nv g) (fun v => P t v x y z))))).
Proof.
  intros E. unfold marg. rewrite E. apply over_ext_all; intros t. cbn [over].
  rewrite Sum_over_comm. apply over_ext_all; intros x. rewrite Sum_over_comm. apply over_ext_all; intros y.
  rewrite Sum_over_comm. reflexivity.
Qed.

Section Mix.
Context (self : mixture) (g : grid) (l : bool -> parts).
Context (H : mix_gen self g l) (Hg : good_grid g).
Let Hc := mg_cube _ _ _ H.
Let n := List.length (l false).

Lemma share_le b lw k S i : lw_ok g (mixf (l b)) lw -> (k < n)%nat -> in_grid g i ->
  marg g (share g (l b) lw k) S i <= marg g (prob g (mixf (l b)) lw) S i.
Proof.
  intros Hl Hk Hi. rewrite marg_share by assumption.
  apply (Sum_ge_term (List.length (l b)) (fun k => marg g (share g (l b) lw k) S i)); [rewrite (len_any self g l H b); assumption|].
  intros; apply marg_nonneg; [assumption|]. eapply share_nonneg; eassumption.
Qed.
Lemma share_nn b lw k S i : lw_ok g (mixf (l b)) lw -> in_grid g i -> 0 <= marg g (share g (l b) lw k) S i.
Proof. intros Hl Hi. apply marg_nonneg; [assumption|]. eapply share_nonneg; eassumption. Qed.
Lemma marg_share' b lw S i : lw_ok g (mixf (l b)) lw -> in_grid g i ->
  marg g (prob g (mixf (l b)) lw) S i = Sum n (fun k => marg g (share g (l b) lw k) S i).
Proof. intros Hl Hi. unfold n. rewrite <- (len_any self g l H b). apply marg_share; assumption. Qed.

(** mass or light of member k *)
Let Q (lw b : bool) (k : nat) : joint := if lw then lit g (mass g (pf (l b) k)) else mass g (pf (l b) k).
Let N (lw b : bool) : R := if lw then total g (lit g (mass g (mixf (l b)))) else 1.
Lemma share_Q b lw k S i : lw_ok g (mixf (l b)) lw -> marg g (share g (l b) lw k) S i = pw (l b) k / N lw b * marg g (Q lw b k) S i.
Proof.
  intros Hl. rewrite <- marg_scal. unfold marg, share, N, Q. destruct lw; do 5 (apply over_ext_all; intros).
  - specialize (Hl eq_refl). field. lra.
  - field.
Qed.
Lemma Q_nonneg lw b k : nonneg g (Q lw b k).
Proof.
  pose proof (mass_nonneg g _ Hg (pf_nonneg self g l H b k)). unfold Q. destruct lw; [apply lit_nonneg; assumption|assumption].
Qed.
Lemma Q_dom lw k C i : (k < n)%nat -> in_grid g i -> has_v C = false -> marg g (Q lw true k) C i <= marg g (Q lw false k) C i.
Proof.
  intros Hk (Ht & Hv & Hx & Hy & Hz) EC. rewrite !marg_v_inside by assumption.
  destruct (part_nth self g l H k Hk) as (mb & _ & Hmb).
  apply over_le; [auto|intros t Ht']. apply over_le; [auto|intros x Hx']. apply over_le; [auto|intros y Hy'].
  apply over_le; [auto|intros z Hz']. unfold Q. destruct lw; [|apply (mb_dom _ _ _ Hmb); assumption].
  unfold lit. rewrite !Sum_scal_r. apply Rmult_le_compat_r; [apply (gg_L _ Hg); assumption|]. apply (mb_dom _ _ _ Hmb); assumption.
Qed.
Lemma dom_zero A C lw k i : lw_ok g (mixf (l (has_v (union A C)))) lw -> lw_ok g (mixf (l (has_v C))) lw ->
  (k < n)%nat -> in_grid g i -> marg g (prob g (mixf (l (has_v C))) lw) C i = 0 ->
  marg g (share g (l (has_v (union A C))) lw k) (union A C) i = 0.
Proof.
  intros Hl Hl' Hk Hi Hz. assert (HS : subset C (union A C) = true) by (destruct A as [[] [] [] []], C as [[] [] [] []]; reflexivity).
  pose proof (share_le (has_v C) lw k C i Hl' Hk Hi) as H1. rewrite Hz in H1.
  pose proof (share_nn (has_v C) lw k C i Hl' Hi) as H2.
  pose proof (share_nn (has_v (union A C)) lw k (union A C) i Hl Hi) as H3.
  assert (HN : forall b, lw_ok g (mixf (l b)) lw -> 0 < N lw b) by (intros b Hb; unfold N; destruct lw; [apply Hb; reflexivity|lra]).
  assert (HP : forall b, lw_ok g (mixf (l b)) lw -> 0 < pw (l b) k / N lw b).
  { intros b Hb. apply Rdiv_lt_0_compat; [apply (pw_pos self g l H); assumption|apply HN, Hb]. }
  assert (HQ0 : marg g (Q lw (has_v C) k) C i = 0).
  { rewrite share_Q in H1, H2 by assumption. specialize (HP _ Hl').
    assert (E : pw (l (has_v C)) k / N lw (has_v C) * marg g (Q lw (has_v C) k) C i = 0) by lra.
    apply Rmult_integral in E as [E|E]; [lra|exact E]. }
  assert (HQ1 : marg g (Q lw (has_v (union A C)) k) C i <= 0).
  { destruct (has_v C) eqn:EC.
    - replace (has_v (union A C)) with true by (unfold union; cbn; rewrite EC, orb_true_r; reflexivity). lra.
    - destruct (has_v (union A C)); [|lra]. rewrite <- HQ0. apply Q_dom; assumption. }
  rewrite share_Q in H3 |- * by assumption. specialize (HP _ Hl).
  pose proof (marg_mono g (Q lw (has_v (union A C)) k) C (union A C) i Hi (Q_nonneg _ _ _) HS) as H4.
  pose proof (marg_nonneg g (Q lw (has_v (union A C)) k) (union A C) i Hi (Q_nonneg _ _ _)) as H5.
  replace (marg g (Q lw (has_v (union A C)) k) (union A C) i) with 0 by lra. ring.
Qed.
(** if the shares with v can be normalised, so can those without *)
Lemma dom_lw A C lw : lw_ok g (mixf (l (has_v (union A C)))) lw -> lw_ok g (mixf (l (has_v C))) lw.
Proof.
  destruct (has_v C) eqn:EC.
  - replace (has_v (union A C)) with true by (unfold union; cbn; rewrite EC, orb_true_r; reflexivity). auto.
  - destruct (has_v (union A C)); [|auto]. intros Hl E. specialize (Hl E). eapply Rlt_le_trans; [exact Hl|].
    rewrite !lit_total, !(len_any self g l H). apply Sum_le. intros k Hk.
    rewrite (pw_any self g l H true), <- !(marg_none g _ (Bin 0 0 0 0 0)).
    apply Rmult_le_compat_l; [apply (pw_nonneg self g l H)|].
    apply (Q_dom true k no_vars (Bin 0 0 0 0 0)); [assumption| |reflexivity].
    pose proof (gg_t _ Hg); pose proof (gg_v _ Hg); pose proof (gg_x _ Hg); pose proof (gg_y _ Hg); pose proof (gg_z _ Hg).
    repeat split; assumption.
Qed.

Lemma mix_conditional_ok A C density lw :
  nonempty A = true -> nonempty C = true -> disjoint A C = true -> lw_ok g (mixf (l (has_v (union A C)))) lw ->
  exists a, mix_conditional self (cname A C) density lw = Ok a /\
    arr_is a (n :: dims A g ++ dims C g) (fun idx => let i := rd2 A C (tl idx) in
      cond_entry (marg g (share g (l (has_v (union A C))) lw (hd 0%nat idx)) (union A C) i / dens g density A i)
                 (marg g (prob g (mixf (l (has_v C))) lw) C i)).
Proof.
  intros HA HC HD Hl. pose proof (dom_lw A C lw Hl) as Hl'. set (P := prob g (mixf (l (has_v C))) lw).
  destruct (mix_marginal_ok self g l H Hg (union A C) false false lw (nonempty_union A C HA) Hl) as (aj & Ej & Haj).
  destruct (mix_marginal_ok self g l H Hg C true false lw HC Hl') as (am & Em & Ham).
  unfold stacked in Haj. fold n in Haj. fold P in Ham.
  set (Pk := share g (l (has_v (union A C))) lw) in *.
  destruct (vol_cond_ok _ g Hc Hg A C HA HC HD) as (va & Ev & Hva).
  unfold mix_conditional.
  assert (Hnn : forall k i, (k < n)%nat -> in_grid g i -> 0 <= marg g (Pk k) (union A C) i /\ 0 <= marg g P C i
                  /\ (marg g P C i = 0 -> marg g (Pk k) (union A C) i = 0)).
  { intros k i Hk Hi. repeat split.
    - apply share_nn; assumption.
    - apply marg_nonneg; [assumption|]. apply prob_nonneg; try assumption. eapply mixf_nonneg; eassumption.
    - apply dom_zero; assumption. }
  clearbody P Pk. clear Hl Hl'.
  assert (Hin := fun idx => rd2_in_grid A C g idx Hg).
  destruct A as [[] [] [] []]; try discriminate HA; clear HA;
  destruct C as [[] [] [] []]; try discriminate HD; try discriminate HC; clear HC HD.
  all: cbn [name cname has_t has_v has_x has_z append union orb] in Ev, Ej, Em, Hnn |- *.
  all: str_compute; cbn [py_assert bind]; rewrite Ej, Em; cbn [bind]; clear Ej Em.
  all: cbn [append]; str_compute.
  all: unfold dens in *.
  all: cbn [dims unit_dims all_vars has_t has_v has_x has_z opt app pt nt nv nx ny nz union orb] in *.
  all: s_mov; s_bop.
  all: destruct density;
   [ rewrite Ev; cbn [bind]; s_map; s_bop | ];
   (eexists; split; [reflexivity|]).
  all: eapply arr_is_ext; [eassumption|]; intros idx Hidx;
    apply inb_cons in Hidx as (k & idx' & -> & Hk & Hidx);
    specialize (Hin idx' Hidx); specialize (Hnn k _ Hk Hin).
  all: pose proof Hin as Hin'; unfold in_grid in Hin'; destruct Hin' as (_ & _ & Hx & Hy & _).
  all: inb_inv; cbn [nth hd tl bidx]; cbn -[marg vol nsub rd2 union cond_entry] in *; picks; cbn -[marg vol nsub union rd2 cond_entry] in *.
  all: destruct Hnn as (N1 & N2 & N3).
  all: match goal with
    | |- nsub _ (nlog (Fin (vol _ _ ?b0))) = cond_entry (marg _ _ ?U ?b / vol _ ?S _) (marg _ _ ?C _) =>
        replace (vol g S b0) with (vol g S b)
          by (rewrite <- (vol_pt _ g Hc Hg S b Hin); reflexivity);
        change (nsub (nsub (lg (marg g (Pk k) U b / 1)) (lg (marg g P C b / 1))) (nlog (Fin (vol g S b)))
                = cond_entry (marg g (Pk k) U b / vol g S b) (marg g P C b));
        replace (marg g (Pk k) U b / 1) with (marg g (Pk k) U b) by field;
        replace (marg g P C b / 1) with (marg g P C b) by field;
        rewrite nsub_cond2, nlog_Fin, nsub_cond_vol by (try assumption; apply vol_pos; assumption);
        reflexivity
    | |- _ = cond_entry (marg _ _ ?U ?b / 1) (marg _ _ ?C _) =>
        change (nsub (lg (marg g (Pk k) U b / 1)) (lg (marg g P C b / 1)) = cond_entry (marg g (Pk k) U b / 1) (marg g P C b));
        replace (marg g (Pk k) U b / 1) with (marg g (Pk k) U b) by field;
        replace (marg g P C b / 1) with (marg g P C b) by field;
        apply nsub_cond2; assumption
    end.
Qed.

Let Hfn b : nonneg g (mixf (l b)) := mixf_nonneg self g l H b.
Let Hn : (0 < n)%nat := n_pos self g l H.

(** ** log probabilities *)
Lemma mix_log_marg S collapse density lw : nonempty S = true -> lw_ok g (mixf (l (has_v S))) lw ->
  exists a, mix_get_log_p self (name S) collapse density lw = Ok a /\
    if collapse then shp a = dims S g /\ forall i, in_grid g i -> ent a (coords S i) =
       lg (marg g (prob g (mixf (l (has_v S))) lw) S i / (if density then vol g S i else 1))
    else shp a = n :: dims S g /\ forall k i, (k < n)%nat -> in_grid g i -> ent a (k :: coords S i) =
       lg (marg g (share g (l (has_v S)) lw k) S i / (if density then vol g S i else 1)).
Proof.
  intros HS Hl. unfold mix_get_log_p. rewrite name_no_sep.
  destruct (mix_marginal_ok self g l H Hg S collapse density lw HS Hl) as (a & E & Ha).
  exists a; split; [exact E|]. destruct collapse; destruct Ha as [Hs He]; (split; [exact Hs|]).
  - intros i Hi. rewrite He by (apply coords_inb; assumption). rewrite rd_coords0. unfold dens.
    rewrite (marg_agree g _ S _ i (agree_proj S i)), (vol_agree g S _ i (agree_proj S i)). reflexivity.
  - intros k i Hk Hi. rewrite He by (constructor; [assumption|apply coords_inb; assumption]). cbn [hd tl].
    rewrite rd_coords0. unfold dens.
    rewrite (marg_agree g _ S _ i (agree_proj S i)), (vol_agree g S _ i (agree_proj S i)). reflexivity.
Qed.

Lemma mix_log_cond A C collapse density lw :
  nonempty A = true -> nonempty C = true -> disjoint A C = true -> lw_ok g (mixf (l (has_v (union A C)))) lw ->
  exists a, mix_get_log_p self (cname A C) collapse density lw = Ok a /\
    if collapse then shp a = (dims A g ++ dims C g)%list /\ forall i, in_grid g i ->
       ent a (coords A i ++ coords C i) =
       cond_entry (marg g (prob g (mixf (l (has_v (union A C)))) lw) (union A C) i / (if density then vol g A i else 1))
                  (marg g (prob g (mixf (l (has_v C))) lw) C i)
    else shp a = (n :: dims A g ++ dims C g)%list /\ forall k i, (k < n)%nat -> in_grid g i ->
       ent a (k :: coords A i ++ coords C i) =
       cond_entry (marg g (share g (l (has_v (union A C))) lw k) (union A C) i / (if density then vol g A i else 1))
                  (marg g (prob g (mixf (l (has_v C))) lw) C i).
Proof.
  intros HA HC HD Hl. unfold mix_get_log_p. rewrite cname_sep.
  destruct (mix_conditional_ok A C density lw HA HC HD Hl) as (a & E & Ha). rewrite E. cbn [bind].
  assert (Hproj : forall P i, marg g P (union A C) (rd2 A C (coords A i ++ coords C i)) = marg g P (union A C) i /\
                  marg g P C (rd2 A C (coords A i ++ coords C i)) = marg g P C i /\
                  vol g A (rd2 A C (coords A i ++ coords C i)) = vol g A i).
  { intros P i. rewrite rd2_coords by assumption. repeat split.
    - apply marg_agree, agree_proj.
    - apply marg_agree. eapply agree_subset; try apply agree_proj.
      destruct A as [[] [] [] []], C as [[] [] [] []]; reflexivity.
    - apply vol_agree. eapply agree_subset; try apply agree_proj.
      destruct A as [[] [] [] []], C as [[] [] [] []]; reflexivity. }
  destruct collapse.
  - destruct (lse0_is a n _ _ Ha Hn) as (b & Eb & Hsb & Heb). exists b; split; [exact Eb|]. split; [exact Hsb|].
    intros i Hi. rewrite Heb by (apply inb_app; apply coords_inb; assumption). cbn [hd tl].
    destruct (Hproj (prob g (mixf (l (has_v C))) lw) i) as (P1 & P2 & P3). cbv zeta. unfold dens. rewrite P2, P3.
    pose proof (dens_pos g Hg density A i Hi) as Hd. unfold dens in Hd.
    erewrite map_ext_in.
    2:{ intros k Hk. destruct (Hproj (share g (l (has_v (union A C))) lw k) i) as (Q1 & _). rewrite Q1. reflexivity. }
    rewrite (map_cond_entry n (fun k => marg g (share g (l (has_v (union A C))) lw k) (union A C) i / (if density then vol g A i else 1))).
    + rewrite (marg_share' _ lw (union A C)) by assumption. unfold Rdiv. rewrite Sum_scal_r. reflexivity.
    + exact Hn.
    + intros. apply div_pos_le; [apply share_nn; assumption|assumption].
  - exists a; split; [reflexivity|]. destruct Ha as [Hs He]. split; [exact Hs|].
    intros k i Hk Hi. rewrite He by (constructor; [assumption|apply inb_app; apply coords_inb; assumption]).
    cbn [hd tl]. cbv zeta. unfold dens.
    destruct (Hproj (prob g (mixf (l (has_v C))) lw) i) as (P1 & P2 & P3). rewrite P2, P3.
    destruct (Hproj (share g (l (has_v (union A C))) lw k) i) as (Q1 & _). rewrite Q1. reflexivity.
Qed.

(** ** probabilities *)
Lemma mix_p_marg S collapse density lw : nonempty S = true -> lw_ok g (mixf (l (has_v S))) lw ->
  exists a, mix_get_p self (name S) collapse density lw = Ok a /\
    if collapse then shp a = dims S g /\ forall i, in_grid g i -> ent a (coords S i) =
       Fin (marg g (prob g (mixf (l (has_v S))) lw) S i / (if density then vol g S i else 1))
    else shp a = n :: dims S g /\ forall k i, (k < n)%nat -> in_grid g i -> ent a (k :: coords S i) =
       Fin (marg g (share g (l (has_v S)) lw k) S i / (if density then vol g S i else 1)).
Proof.
  intros HS Hl. unfold mix_get_p. destruct (mix_log_marg S collapse density lw HS Hl) as (a & E & Ha).
  rewrite E. cbn [bind]. eexists; split; [reflexivity|].
  destruct collapse; destruct Ha as [Hs He]; (split; [exact Hs|]).
  - intros i Hi. cbn [ent amap]. rewrite He by assumption. apply nexp_lg. apply div_pos_le.
    + apply marg_nonneg; [assumption|]. apply prob_nonneg; auto.
    + apply dens_pos'; assumption.
  - intros k i Hk Hi. cbn [ent amap]. rewrite He by assumption. apply nexp_lg. apply div_pos_le.
    + apply share_nn; assumption.
    + apply dens_pos'; assumption.
Qed.

Lemma nexp_cond j m w : 0 <= j -> 0 < w -> 0 <= m ->
  nexp (cond_entry (j / w) m) = if Rlt_dec 0 m then Fin (j / m / w) else NaN.
Proof.
  intros Hj Hw Hm. unfold cond_entry. destruct (Rlt_dec 0 m) as [p|p]; [|reflexivity].
  rewrite nexp_lg by (apply div_pos_le; [apply div_pos_le; assumption|assumption]). f_equal. field. lra.
Qed.

Lemma mix_p_cond A C collapse density lw :
  nonempty A = true -> nonempty C = true -> disjoint A C = true -> lw_ok g (mixf (l (has_v (union A C)))) lw ->
  exists a, mix_get_p self (cname A C) collapse density lw = Ok a /\
    if collapse then shp a = (dims A g ++ dims C g)%list /\ forall i, in_grid g i ->
       ent a (coords A i ++ coords C i) =
       if Rlt_dec 0 (marg g (prob g (mixf (l (has_v C))) lw) C i)
       then Fin (marg g (prob g (mixf (l (has_v (union A C)))) lw) (union A C) i / marg g (prob g (mixf (l (has_v C))) lw) C i / (if density then vol g A i else 1))
       else NaN
    else shp a = (n :: dims A g ++ dims C g)%list /\ forall k i, (k < n)%nat -> in_grid g i ->
       ent a (k :: coords A i ++ coords C i) =
       if Rlt_dec 0 (marg g (prob g (mixf (l (has_v C))) lw) C i)
       then Fin (marg g (share g (l (has_v (union A C))) lw k) (union A C) i / marg g (prob g (mixf (l (has_v C))) lw) C i / (if density then vol g A i else 1))
       else NaN.
Proof.
  intros HA HC HD Hl. unfold mix_get_p.
  destruct (mix_log_cond A C collapse density lw HA HC HD Hl) as (a & E & Ha).
  rewrite E. cbn [bind]. eexists; split; [reflexivity|].
  pose proof (dom_lw A C lw Hl) as Hl'.
  assert (HP : forall b S i, lw_ok g (mixf (l b)) lw -> in_grid g i -> 0 <= marg g (prob g (mixf (l b)) lw) S i)
    by (intros; apply marg_nonneg; [assumption|apply prob_nonneg; auto]).
  destruct collapse; destruct Ha as [Hs He]; (split; [exact Hs|]).
  - intros i Hi. cbn [ent amap]. rewrite He by assumption. apply nexp_cond; auto. apply dens_pos'; assumption.
  - intros k i Hk Hi. cbn [ent amap]. rewrite He by assumption. apply nexp_cond; auto.
    + apply share_nn; assumption.
    + apply dens_pos'; assumption.
Qed.

(** splitting by member *)
Lemma marg_split_gen S density lw : nonempty S = true -> lw_ok g (mixf (l (has_v S))) lw ->
  exists a b, mix_get_p self (name S) true density lw = Ok a /\ mix_get_p self (name S) false density lw = Ok b /\
    shp a = dims S g /\ shp b = (n :: dims S g)%list /\
    forall i, in_grid g i ->
      (forall k, (k < n)%nat -> ent b (k :: coords S i) =
         Fin (marg g (share g (l (has_v S)) lw k) S i / (if density then vol g S i else 1))) /\
      nsum (map (fun k => ent b (k :: coords S i)) (seq 0 n)) = ent a (coords S i).
Proof.
  intros HS Hl. destruct (mix_p_marg S true density lw HS Hl) as (a & Ea & Hsa & Ha).
  destruct (mix_p_marg S false density lw HS Hl) as (b & Eb & Hsb & Hb).
  exists a, b. do 4 (split; [assumption|]). intros i Hi. split; [intros; apply Hb; assumption|].
  rewrite Ha by assumption.
  rewrite (nsum_map_Fin _ (fun k => marg g (share g (l (has_v S)) lw k) S i / (if density then vol g S i else 1))).
  - rewrite sumR_map_seq, marg_share' by assumption. unfold Rdiv. rewrite Sum_scal_r. reflexivity.
  - intros k Hk. apply in_seq in Hk. apply Hb; [lia|assumption].
Qed.
Lemma cond_split_gen A C density lw :
  nonempty A = true -> nonempty C = true -> disjoint A C = true -> lw_ok g (mixf (l (has_v (union A C)))) lw ->
  exists a b, mix_get_p self (cname A C) true density lw = Ok a /\ mix_get_p self (cname A C) false density lw = Ok b /\
    shp a = (dims A g ++ dims C g)%list /\ shp b = (n :: dims A g ++ dims C g)%list /\
    forall i, in_grid g i ->
      (0 < marg g (prob g (mixf (l (has_v C))) lw) C i -> forall k, (k < n)%nat ->
         ent b (k :: coords A i ++ coords C i) =
         Fin (marg g (share g (l (has_v (union A C))) lw k) (union A C) i / marg g (prob g (mixf (l (has_v C))) lw) C i / (if density then vol g A i else 1))) /\
      nsum (map (fun k => ent b (k :: coords A i ++ coords C i)) (seq 0 n)) = ent a (coords A i ++ coords C i).
Proof.
  intros HA HC HD Hl. destruct (mix_p_cond A C true density lw HA HC HD Hl) as (a & Ea & Hsa & Ha).
  destruct (mix_p_cond A C false density lw HA HC HD Hl) as (b & Eb & Hsb & Hb).
  exists a, b. do 4 (split; [assumption|]). intros i Hi. split.
  - intros Hm k Hk. rewrite Hb by assumption. destruct (Rlt_dec 0 _); [reflexivity|contradiction].
  - rewrite Ha by assumption. erewrite map_ext_in.
    2:{ intros k Hk. apply in_seq in Hk. rewrite Hb by (try assumption; lia). reflexivity. }
    destruct (Rlt_dec 0 _) as [p|p].
    + rewrite (nsum_map_Fin _ (fun k => marg g (share g (l (has_v (union A C))) lw k) (union A C) i / marg g (prob g (mixf (l (has_v C))) lw) C i / (if density then vol g A i else 1)))
        by (intros; reflexivity).
      rewrite sumR_map_seq, (marg_share' _ lw (union A C)) by assumption. unfold Rdiv. rewrite !Sum_scal_r. reflexivity.
    + apply nsum_nan. apply in_map_iff. exists 0%nat. split; [reflexivity|]. apply in_seq; lia.
Qed.
End Mix.

(** ** base components *)
Section Base.
Context (self : mixture) (g : grid) (comps : list component) (l : parts).
Context (H : mix_on self g comps l) (Hg : good_grid g).
Let HG := mix_on_gen self g comps l H Hg.
Let Hfn : nonneg g (mixf l) := mixf_nonneg self g _ HG true.
(** the same arrays as a plain component with the combined density *)
Lemma marg_as_plain plain S density lw : comp_on plain g (mixf l) -> nonempty S = true -> lw_ok g (mixf l) lw ->
  exists a b, mix_get_p self (name S) true density lw = Ok a /\ get_p plain (name S) density lw = Ok b /\
    shp a = dims S g /\ shp b = dims S g /\
    forall i, in_grid g i -> ent a (coords S i) = ent b (coords S i) /\ ent a (coords S i) <> NaN.
Proof.
  intros Hp HS Hl. destruct (mix_p_marg self g _ HG Hg S true density lw HS Hl) as (a & Ea & Hsa & Ha).
  destruct (get_p_marg plain g _ Hp Hg Hfn S density lw HS Hl) as (b & Eb & Hsb & Hb).
  exists a, b. do 4 (split; [assumption|]). intros i Hi. rewrite Ha, Hb by assumption. split; [reflexivity|discriminate].
Qed.
Lemma cond_as_plain plain A C density lw : comp_on plain g (mixf l) ->
  nonempty A = true -> nonempty C = true -> disjoint A C = true -> lw_ok g (mixf l) lw ->
  exists a b, mix_get_p self (cname A C) true density lw = Ok a /\ get_p plain (cname A C) density lw = Ok b /\
    shp a = (dims A g ++ dims C g)%list /\ shp b = (dims A g ++ dims C g)%list /\
    forall i, in_grid g i -> ent a (coords A i ++ coords C i) = ent b (coords A i ++ coords C i) /\
      (ent a (coords A i ++ coords C i) = NaN <-> marg g (prob g (mixf l) lw) C i = 0).
Proof.
  intros Hp HA HC HD Hl. destruct (mix_p_cond self g _ HG Hg A C true density lw HA HC HD Hl) as (a & Ea & Hsa & Ha).
  destruct (get_p_cond plain g _ Hp Hg Hfn A C density lw HA HC HD Hl) as (b & Eb & Hsb & Hb).
  exists a, b. do 4 (split; [assumption|]). intros i Hi. rewrite Ha by assumption. destruct (Hb i Hi) as [Hb1 Hb2].
  assert (HP : 0 <= marg g (prob g (mixf l) lw) C i)
    by (apply marg_nonneg; [assumption|apply prob_nonneg; assumption]).
  destruct (Rlt_dec 0 _) as [p|p].
  - rewrite Hb1 by assumption. split; [reflexivity|]. split; [discriminate|lra].
  - rewrite Hb2 by lra. split; [reflexivity|]. split; [lra|reflexivity].
Qed.

Lemma marg_split S density lw : nonempty S = true -> lw_ok g (mixf l) lw ->
  exists a b, mix_get_p self (name S) true density lw = Ok a /\ mix_get_p self (name S) false density lw = Ok b /\
    shp a = dims S g /\ shp b = (List.length l :: dims S g)%list /\
    forall i, in_grid g i ->
      (forall k, (k < List.length l)%nat -> ent b (k :: coords S i) =
         Fin (marg g (share g l lw k) S i / (if density then vol g S i else 1))) /\
      nsum (map (fun k => ent b (k :: coords S i)) (seq 0 (List.length l))) = ent a (coords S i).
Proof. exact (marg_split_gen self g _ HG Hg S density lw). Qed.
Lemma cond_split A C density lw :
  nonempty A = true -> nonempty C = true -> disjoint A C = true -> lw_ok g (mixf l) lw ->
  exists a b, mix_get_p self (cname A C) true density lw = Ok a /\ mix_get_p self (cname A C) false density lw = Ok b /\
    shp a = (dims A g ++ dims C g)%list /\ shp b = (List.length l :: dims A g ++ dims C g)%list /\
    forall i, in_grid g i ->
      (0 < marg g (prob g (mixf l) lw) C i -> forall k, (k < List.length l)%nat ->
         ent b (k :: coords A i ++ coords C i) =
         Fin (marg g (share g l lw k) (union A C) i / marg g (prob g (mixf l) lw) C i / (if density then vol g A i else 1))) /\
      nsum (map (fun k => ent b (k :: coords A i ++ coords C i)) (seq 0 (List.length l))) = ent a (coords A i ++ coords C i).
Proof. exact (cond_split_gen self g _ HG Hg A C density lw). Qed.
End Base.
