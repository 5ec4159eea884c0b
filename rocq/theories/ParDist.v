(** * ParDist: get_p and get_log_p of a parametric component. *)
From Coq Require Import Reals Lra Lia List Bool Arith ZArith String Ascii.
From Verif Require Import Num NumLemmas Arr ArrLemmas PyStr Cube Base Parametric Spec SpecLemmas Repr
  ParSpec ParRepr CubeLemmas BaseLemmas CondLemmas DistLemmas ParLemmas.
Import ListNotations.
Local Open Scope R_scope.
Arguments total : simpl never.
Arguments lit : simpl never.

Section Par.
Context (L : stats_lib) (self : par) (g : grid) (m : par_model).
Context (H : par_on L self g m) (Hg : good_grid g) (Hm : good_par g m).
Let Hc := po_cube _ _ _ _ H.

Lemma dpos (density : bool) S i : in_grid g i -> 0 < (if density then vol g S i else 1).
Proof. destruct density; intros; [apply vol_pos; assumption|lra]. Qed.

Lemma pent_proj (density lw : bool) S i : pent g m density lw S (proj S i) = pent g m density lw S i.
Proof. unfold pent. rewrite par_prob_proj, vol_proj. reflexivity. Qed.

Lemma pent_ge0 (density lw : bool) S i : par_lw_ok g m lw (has_v S) -> in_grid g i -> 0 <= pent g m density lw S i.
Proof.
  intros Hl Hi. unfold pent. apply div_pos_le; [|apply dpos; assumption].
  eapply par_prob_ge0; eassumption.
Qed.

Lemma par_log_marg S (density lw : bool) : nonempty S = true -> par_lw_ok g m lw (has_v S) ->
  exists a, par_get_log_p L self (name S) density lw = Ok a /\ shp a = dims S g /\
    forall i, in_grid g i -> ent a (coords S i) = lg (pent g m density lw S i).
Proof.
  intros HS Hl. destruct (par_marginal_ok L self g m H Hg Hm S density lw HS Hl) as (a & E & Hs & He).
  exists a. unfold par_get_log_p, get_log_p_of. rewrite name_no_sep. split; [exact E|].
  split; [exact Hs|]. intros i Hi. rewrite He by (apply coords_inb; assumption).
  rewrite rd_coords0, pent_proj. reflexivity.
Qed.

Lemma par_p_marg S (density lw : bool) : nonempty S = true -> par_lw_ok g m lw (has_v S) ->
  exists a, par_get_p L self (name S) density lw = Ok a /\ shp a = dims S g /\
    forall i, in_grid g i -> ent a (coords S i) = Fin (pent g m density lw S i).
Proof.
  intros HS Hl. destruct (par_log_marg S density lw HS Hl) as (a & E & Hs & He).
  unfold par_get_p, get_p_of. unfold par_get_log_p in E. rewrite E. cbn [bind].
  eexists; split; [reflexivity|]. split; [exact Hs|]. intros i Hi. cbn. rewrite He by assumption.
  apply nexp_lg. apply pent_ge0; assumption.
Qed.

(** the entry of a log conditional where the conditioner is not empty *)
Definition lce (density lw : bool) (A C : vset) (i : bin) : num :=
  lg (par_prob g m lw (union A C) i / par_prob g m lw C i / (if density then vol g A i else 1)).

Lemma cond_entry_lce (density lw : bool) A C i : in_grid g i -> 0 < par_prob g m lw C i ->
  cond_entry (par_prob g m lw (union A C) i / (if density then vol g A i else 1)) (par_prob g m lw C i) = lce density lw A C i.
Proof.
  intros Hi Hp. unfold cond_entry, lce. destruct (Rlt_dec 0 _) as [_|n]; [|contradiction].
  f_equal. pose proof (dpos density A i Hi). field. lra.
Qed.

Lemma special_cases A C : special A C = true -> nonempty A = true -> nonempty C = true -> disjoint A C = true ->
  (A = VSet false false true false /\ C = VSet true false false false) \/
  (A = VSet false true false false /\ C = VSet true false true false) \/
  (A = VSet false false false true /\ C = VSet true false true false).
Proof.
  destruct A as [[] [] [] []], C as [[] [] [] []]; cbn; intros E HA HC HD; try discriminate; auto.
Qed.

Lemma special_mw A C (density : bool) : special A C = true ->
  nonempty A = true -> nonempty C = true -> disjoint A C = true ->
  exists a, par_get_log_p L self (cname A C) density false = Ok a /\ shp a = (dims A g ++ dims C g)%list /\
    forall i, in_grid g i -> 0 < par_prob g m false C i ->
      ent a (coords A i ++ coords C i) = lce density false A C i.
Proof.
  intros Hsp HA HC HD.
  destruct (special_cases A C Hsp HA HC HD) as [[-> ->]|[[-> ->]|[-> ->]]]; clear Hsp HA HC HD; cbn [cname name has_t has_v has_x has_z append].
  - destruct (x_t_mw_ok L self g m H Hg Hm density) as (a & E & Hs & He). exists a.
    split; [exact (log_cond_special L self "x_t" _ density false a eq_refl eq_refl
               (ex_intro _ _ (ex_intro _ _ eq_refl)) E)|].
    split; [exact Hs|]. intros i Hi Hp. pose proof Hi as (Ht & Hv & Hx & Hy & Hz).
    change (ent a [bx i; by_ i; bt i] = lce density false (VSet false false true false) (VSet true false false false) i).
    rewrite He by (repeat (constructor; [assumption|]); constructor). unfold lce. f_equal.
    change (union _ _) with (VSet true false true false).
    rewrite <- (par_prob_set_v g m false (VSet true false false false) i 0 eq_refl) in Hp |- *.
    rewrite <- (par_prob_set_v g m false (VSet true false true false) i 0 eq_refl).
    rewrite (par_prob_tx L self g m H Hg Hm) by (apply in_grid_flat; assumption).
    rewrite (par_prob_t L self g m H Hg Hm) in Hp |- * by (apply in_grid_flat; assumption). cbn in Hp |- *.
    unfold vol; cbn. rewrite (px_area_at L self g m H Hg) by assumption.
    pose proof (px_area_pos g Hg). assert (pm_t m (bt i) <> 0) by (intros Z; rewrite Z, Rmult_0_l in Hp; lra).
    assert (wid (tE g) (bt i) <> 0) by (intros Z; rewrite Z, Rmult_0_r in Hp; lra).
    destruct density; cbn; field; repeat split; try assumption; lra.
  - destruct (v_tx_mw_ok L self g m H Hg Hm density) as (a & E & Hs & He). exists a.
    split; [exact (log_cond_special L self "v_tx" _ density false a eq_refl eq_refl
               (ex_intro _ _ (ex_intro _ _ eq_refl)) E)|].
    split; [exact Hs|]. intros i Hi Hp. pose proof Hi as (Ht & Hv & Hx & Hy & Hz).
    change (ent a [bv i; bt i; bx i; by_ i] = lce density false (VSet false true false false) (VSet true false true false) i).
    rewrite He by (repeat (constructor; [assumption|]); constructor). unfold lce. f_equal.
    change (union _ _) with (VSet true true true false).
    rewrite (par_prob_tvx g m) by assumption.
    unfold vol; cbn -[par_prob]. pose proof (wv_pos g Hg _ Hv). destruct density; field; lra.
  - destruct (z_tx_mw_ok L self g m H Hg Hm density) as (a & E & Hs & He). exists a.
    split; [exact (log_cond_special L self "z_tx" _ density false a eq_refl eq_refl
               (ex_intro _ _ (ex_intro _ _ eq_refl)) E)|].
    split; [exact Hs|]. intros i Hi Hp. pose proof Hi as (Ht & Hv & Hx & Hy & Hz).
    change (ent a [bz i; bt i; bx i; by_ i] = lce density false (VSet false false false true) (VSet true false true false) i).
    rewrite He by (repeat (constructor; [assumption|]); constructor). unfold lce. f_equal.
    change (union _ _) with (VSet true false true true).
    rewrite <- (par_prob_set_v g m false (VSet true false true false) i 0 eq_refl) in Hp |- *.
    rewrite (par_prob_tx L self g m H Hg Hm) in Hp |- * by (apply in_grid_flat; assumption).
    unfold par_prob, marg, pprob, pjoint, txz_mass; cbn. rewrite (px_area_at L self g m H Hg) by assumption.
    cbn in Hp. unfold vol; cbn. pose proof (wz_pos g Hg _ Hz). revert Hp.
    generalize (px_area g). intros w Hp.
    assert (pm_t m (bt i) <> 0) by (intros Z; rewrite Z, !Rmult_0_l in Hp; lra).
    assert (wid (tE g) (bt i) <> 0) by (intros Z; rewrite Z, Rmult_0_r, Rmult_0_l in Hp; lra).
    assert (pm_x m (bt i) (bx i) (by_ i) <> 0) by (intros Z; rewrite Z, Rmult_0_l, Rmult_0_r in Hp; lra).
    assert (w <> 0) by (intros Z; rewrite Z, !Rmult_0_r in Hp; lra).
    destruct density; cbn; field; repeat split; try assumption; lra.
Qed.

(** p(v|t,x), light-weighted, is the odd one out *)
Definition is_v_tx (A C : vset) : bool := String.eqb (cname A C) "v_tx".

Lemma special_lw A C (density : bool) : special A C = true -> is_v_tx A C = false ->
  nonempty A = true -> nonempty C = true -> disjoint A C = true -> par_lw_ok g m true (has_v (union A C)) ->
  exists a, par_get_log_p L self (cname A C) density true = Ok a /\ shp a = (dims A g ++ dims C g)%list /\
    forall i, in_grid g i -> ent a (coords A i ++ coords C i) =
      cond_entry (par_prob g m true (union A C) i / (if density then vol g A i else 1)) (par_prob g m true C i).
Proof.
  intros Hsp Hv_ HA HC HD Hl.
  destruct (special_cases A C Hsp HA HC HD) as [[-> ->]|[[-> ->]|[-> ->]]]; clear Hsp HA HC HD; cbn [cname name has_t has_v has_x has_z append].
  - destruct (x_t_lw_ok L self g m H Hg Hm density Hl) as (a & E & Hs & He). exists a.
    split; [exact (log_cond_special L self "x_t" _ density true a eq_refl eq_refl
               (ex_intro _ _ (ex_intro _ _ eq_refl)) E)|].
    split; [exact Hs|]. intros i Hi. pose proof Hi as (Ht & Hv & Hx & Hy & Hz).
    etransitivity; [apply (He [bx i; by_ i; bt i]); repeat (constructor; [assumption|]); constructor|].
    cbv beta iota zeta. unfold vol; cbn -[par_prob]. rewrite (px_area_at L self g m H Hg) by assumption.
    f_equal. destruct density; [|reflexivity]. f_equal. ring.
  - discriminate Hv_.
  - destruct (z_tx_lw_ok L self g m H Hg Hm density Hl) as (a & E & Hs & He). exists a.
    split; [exact (log_cond_special L self "z_tx" _ density true a eq_refl eq_refl
               (ex_intro _ _ (ex_intro _ _ eq_refl)) E)|].
    split; [exact Hs|]. intros i Hi. pose proof Hi as (Ht & Hv & Hx & Hy & Hz).
    etransitivity; [apply (He [bz i; bt i; bx i; by_ i]); repeat (constructor; [assumption|]); constructor|].
    cbv beta iota zeta. unfold vol; cbn -[par_prob]. f_equal. destruct density; [|reflexivity]. f_equal. ring.
Qed.

Lemma par_log_cond A C (density lw : bool) :
  nonempty A = true -> nonempty C = true -> disjoint A C = true -> par_lw_ok g m lw (has_v (union A C)) ->
  (lw && is_v_tx A C = false)%bool ->
  exists a, par_get_log_p L self (cname A C) density lw = Ok a /\ shp a = (dims A g ++ dims C g)%list /\
    forall i, in_grid g i ->
      (0 < par_prob g m lw C i -> ent a (coords A i ++ coords C i) = lce density lw A C i) /\
      (par_prob g m lw C i = 0 -> (special A C && negb lw = false)%bool -> ent a (coords A i ++ coords C i) = NaN).
Proof.
  intros HA HC HD Hl Hv.
  assert (K : forall a i, in_grid g i ->
     ent a (coords A i ++ coords C i) = cond_entry (par_prob g m lw (union A C) i / (if density then vol g A i else 1)) (par_prob g m lw C i) ->
     (0 < par_prob g m lw C i -> ent a (coords A i ++ coords C i) = lce density lw A C i) /\
     (par_prob g m lw C i = 0 -> (special A C && negb lw = false)%bool -> ent a (coords A i ++ coords C i) = NaN)).
  { intros a i Hi ->. split; [apply cond_entry_lce; assumption|]. intros -> _. unfold cond_entry.
    destruct (Rlt_dec 0 0); [lra|reflexivity]. }
  destruct (special A C) eqn:Esp; [destruct lw|].
  - destruct (special_lw A C density Esp Hv HA HC HD Hl) as (a & E & Hs & He).
    exists a; split; [exact E|]; split; [exact Hs|]. intros i Hi. apply K; [assumption|]. apply He, Hi.
  - destruct (special_mw A C density Esp HA HC HD) as (a & E & Hs & He).
    exists a; split; [exact E|]; split; [exact Hs|]. intros i Hi. split; [apply He; assumption|discriminate].
  - destruct (par_cond_ok L self g m H Hg Hm A C density lw HA HC HD Hl Esp) as (a & E & Hs & He).
    exists a. unfold par_get_log_p, get_log_p_of. rewrite cname_sep. split; [exact E|].
    split; [exact Hs|]. intros i Hi. apply K; [assumption|].
    rewrite He by (apply inb_app; apply coords_inb; assumption). cbv beta zeta. rewrite rd2_coords by assumption.
    rewrite <- (par_prob_proj g m lw C (proj (union A C) i)), proj_union_sub, !par_prob_proj.
    rewrite (vol_agree g A _ i); [reflexivity|].
    eapply agree_subset; [|apply agree_proj]. destruct A as [[] [] [] []], C as [[] [] [] []]; reflexivity.
Qed.

Lemma par_p_cond A C (density lw : bool) :
  nonempty A = true -> nonempty C = true -> disjoint A C = true -> par_lw_ok g m lw (has_v (union A C)) ->
  (lw && is_v_tx A C = false)%bool ->
  exists a, par_get_p L self (cname A C) density lw = Ok a /\ shp a = (dims A g ++ dims C g)%list /\
    forall i, in_grid g i ->
      (0 < par_prob g m lw C i -> ent a (coords A i ++ coords C i) =
        Fin (par_prob g m lw (union A C) i / par_prob g m lw C i / (if density then vol g A i else 1))) /\
      (par_prob g m lw C i = 0 -> (special A C && negb lw = false)%bool -> ent a (coords A i ++ coords C i) = NaN).
Proof.
  intros HA HC HD Hl Hv. destruct (par_log_cond A C density lw HA HC HD Hl Hv) as (a & E & Hs & He).
  unfold par_get_p, get_p_of. unfold par_get_log_p in E. rewrite E. cbn [bind].
  eexists; split; [reflexivity|]. split; [exact Hs|]. intros i Hi. cbn [amap ent].
  destruct (He i Hi) as [H1 H2]. split.
  - intros Hp. rewrite (H1 Hp). apply nexp_lg. pose proof (dpos density A i Hi).
    apply div_pos_le; [|assumption]. apply div_pos_le; [|assumption]. eapply par_prob_ge0; eassumption.
  - intros Hp Hn. rewrite (H2 Hp Hn). reflexivity.
Qed.

(** light-weighted p(v|t,x) *)
Lemma par_log_v_tx (density : bool) : par_lw_ok g m true true ->
  exists a, par_get_log_p L self "v_tx" density true = Ok a /\ shp a = [nv g; nt g; nx g; ny g] /\
    forall i, in_grid g i -> ent a [bv i; bt i; bx i; by_ i] =
      cond_entry (par_prob g m true (VSet true true true false) i / (if density then wid (vE g) (bv i) else 1))
        (Sum (nv g) (fun v => par_prob g m true (VSet true true true false) (set_v v i))).
Proof.
  intros Hl. destruct (v_tx_lw_ok L self g m H Hg Hm density Hl) as (a & E & Hs & He). exists a.
  split; [exact (log_cond_special L self "v_tx" _ density true a eq_refl eq_refl
               (ex_intro _ _ (ex_intro _ _ eq_refl)) E)|].
  split; [exact Hs|]. intros i (Ht & Hv & Hx & Hy & Hz).
  exact (He [bv i; bt i; bx i; by_ i] ltac:(repeat (constructor; [assumption|]); constructor)).
Qed.
End Par.
