(** * SinglePar: lemmas for the mixture of one parametric component (C110). *)
From Coq Require Import Reals Lra Lia List Bool Arith ZArith String Ascii FunctionalExtensionality.
From Verif Require Import Num NumLemmas Arr ArrLemmas PyStr Cube Base Spec SpecLemmas Repr Moments Mixture MomSpec MomLemmas ParSpec Parametric ParRepr ParSetSpec
  CubeLemmas ParLemmas ParDist ParClaims ParMoments GaussSpec ParMomSpec ParMomOther ParMomClaims MixParSpec MixParLemmas MixParClaims MixParExample LightGivenPar.
Import ListNotations.
Local Open Scope R_scope.

Section Single.
Context (L : stats_lib) (self : par) (g : grid) (m : par_model) (H : par_on L self g m) (Hg : good_grid g) (Hm : good_par g m).
Let mix := Mixture (pa_cube self) [par_member L (Fin 1) self] [Fin 1].
Let l : kinds := [(KPar m, 1)].

Lemma sp_on : mixed_on mix g l.
Proof.
  constructor; try reflexivity; [exact (po_cube _ _ _ _ H)|discriminate| |].
  - intros [|q] Hq; cbn in *; [lra|lia].
  - intros [|q] mb E; cbn in E; [|destruct q; discriminate E]. injection E as <-. exists L, self. split; [reflexivity|]. split; [exact H|exact Hm].
Qed.
Lemma sp_mix b : kmix g l b = par_joint g m false b.
Proof. do 5 (apply functional_extensionality; intros ?). unfold kmix, l, kw, kk. cbn. ring. Qed.
Lemma sp_marg lw S i : in_grid g i -> marg g (weighted g lw (kmix g l (has_v S))) S i = par_prob g m lw S i.
Proof. intros Hi. rewrite sp_mix. apply par_marg; assumption. Qed.
Lemma sp_lit b lw : par_lw_ok g m lw b -> lit_ok g (kmix g l b) lw.
Proof. intros Hl. rewrite sp_mix. apply par_lit_ok; assumption. Qed.
Lemma sp_lit1 b lw : par_lw_ok g m lw b -> forall q, (q < List.length l)%nat -> lit_ok g (kmass g (kk l q) b) lw.
Proof. intros Hl [|q] Hq; [|cbn in Hq; lia]. apply par_lit_ok; assumption. Qed.
Lemma sp_there lw C i : in_grid g i -> 0 < par_prob g m lw C i -> all_there g l lw C i.
Proof. intros Hi Hp [|q] Hq; [|cbn in Hq; lia]. unfold kk, l. cbn [nth fst kmass]. rewrite par_marg by assumption. exact Hp. Qed.
Lemma sp_missing lw C i : in_grid g i -> par_prob g m lw C i = 0 -> some_missing g l lw C i.
Proof. intros Hi Hp. exists 0%nat. split; [cbn; lia|]. unfold kk, l. cbn [nth fst kmass]. rewrite par_marg by assumption. exact Hp. Qed.
Lemma sp_normal : total g (par_joint g m false false) = 1 -> k_normal g l.
Proof. intros E. split; [unfold sumR; cbn; ring|]. intros [|q] Hq; [exact E|cbn in Hq; lia]. Qed.
Lemma sp_prob_nonneg lw S i : in_grid g i -> par_lw_ok g m lw (has_v S) -> 0 <= par_prob g m lw S i.
Proof. intros Hi Hl. rewrite <- (joint_marg g m lw Hg S i). apply marg_nonneg; [exact Hi|]. apply joint_nonneg; assumption. Qed.
Lemma sp_one i : total g (par_joint g m false false) = 1 -> par_prob g m false no_vars i = 1.
Proof. intros E. rewrite <- (joint_marg g m false Hg no_vars i), marg_none. exact E. Qed.
Lemma sp_total lw : par_lw_ok g m lw false -> (lw = false -> total g (par_joint g m false false) = 1) -> total g (par_joint g m lw false) = 1.
Proof.
  intros Hl HT. destruct lw; [|auto]. rewrite <- (total_ext g _ _ (weighted_par g Hg m true false)). apply total_light.
  apply Rgt_not_eq. apply (proj2 (par_lit_ok g Hg m true false) Hl eq_refl).
Qed.

Lemma sp_marginals S density lw : nonempty S = true -> par_lw_ok g m lw (has_v S) ->
  exists a b, mix_get_p mix (name S) true density lw = Ok a /\ par_get_p L self (name S) density lw = Ok b /\
    shp a = dims S g /\ shp b = dims S g /\ forall i, in_grid g i -> ent a (coords S i) = ent b (coords S i).
Proof.
  intros HS Hl. destruct (mixed_marg_claim mix g l sp_on Hg S density lw HS (sp_lit _ _ Hl)) as (a & a' & Ea & _ & Hs & _ & He).
  destruct (par_p_marg L self g m H Hg Hm S density lw HS Hl) as (b & Eb & Hs' & He').
  exists a, b. do 4 (split; [assumption|]). intros i Hi. rewrite (proj1 (He i Hi)), (He' i Hi), sp_marg by exact Hi. reflexivity.
Qed.

Lemma sp_conditionals A C density lw : nonempty A = true -> nonempty C = true -> disjoint A C = true ->
  par_lw_ok g m lw (has_v (union A C)) -> (lw = true -> cname A C <> "v_tx"%string) ->
  exists a b, mix_get_p mix (cname A C) true density lw = Ok a /\ par_get_p L self (cname A C) density lw = Ok b /\
    shp a = (dims A g ++ dims C g)%list /\ shp b = (dims A g ++ dims C g)%list /\
    forall i, in_grid g i ->
      (0 < par_prob g m lw C i -> ent a (coords A i ++ coords C i) = ent b (coords A i ++ coords C i)) /\
      (par_prob g m lw C i = 0 -> ent a (coords A i ++ coords C i) = NaN) /\
      (par_prob g m lw C i = 0 -> lw = true \/ ~ In (cname A C) ["x_t"; "z_tx"; "v_tx"]%string -> ent b (coords A i ++ coords C i) = NaN).
Proof.
  intros HA HC HD Hl Hn.
  destruct (mixed_cond_claim mix g l sp_on Hg A C density lw HA HC HD (sp_lit _ _ Hl)) as (a & a' & Ea & _ & Hs & _ & He).
  destruct (par_cond_claim L self g m H Hg Hm A C density lw HA HC HD Hl Hn) as (b & Eb & Hs' & He').
  exists a, b. do 4 (split; [assumption|]). intros i Hi. destruct (He i Hi) as (E1 & _ & E2 & _). cbv zeta in E1, E2.
  destruct (He' i Hi) as [B1 B2]. rewrite !sp_marg in * by exact Hi. split; [|split; assumption].
  intros Hp. rewrite (E1 Hp), (B1 Hp). reflexivity.
Qed.
(** light-weighted p(v|t,x) *)
Lemma sp_v_tx density : par_lw_ok g m true true ->
  exists a b, mix_get_p mix "v_tx" true density true = Ok a /\ par_get_p L self "v_tx" density true = Ok b /\
    shp a = [nv g; nt g; nx g; ny g] /\ shp b = [nv g; nt g; nx g; ny g] /\
    forall i, in_grid g i ->
      let P := fun v => par_prob g m true (VSet true true true false) (set_v v i) in let Q := par_prob g m true (VSet true false true false) i in
      let w := if density then wid (vE g) (bv i) else 1 in
      0 < Q -> 0 < Sum (nv g) P ->
      ent a [bv i; bt i; bx i; by_ i] = Fin (P (bv i) / Q / w) /\ ent b [bv i; bt i; bx i; by_ i] = Fin (P (bv i) / Sum (nv g) P / w) /\
      (0 < P (bv i) -> (ent a [bv i; bt i; bx i; by_ i] = ent b [bv i; bt i; bx i; by_ i] <-> Sum (nv g) P = Q)).
Proof.
  intros Hl. set (A := VSet false true false false). set (C := VSet true false true false).
  destruct (mixed_cond_claim mix g l sp_on Hg A C density true eq_refl eq_refl eq_refl (sp_lit _ _ Hl)) as (a & a' & Ea & _ & Hs & _ & He).
  destruct (par_v_tx_claim L self g m H Hg Hm density Hl) as (b & Eb & Hs' & He').
  exists a, b. do 4 (split; [assumption|]). intros i Hi P Q w HQ HS. destruct (He i Hi) as (E1 & _). cbv zeta in E1.
  change (coords A i ++ coords C i)%list with [bv i; bt i; bx i; by_ i] in E1. rewrite !sp_marg in E1 by exact Hi. specialize (E1 HQ).
  destruct (He' i Hi) as [B1 _]. cbv zeta in B1. specialize (B1 HS).
  change (vol g A i) with (wid (vE g) (bv i)) in E1 || (replace (vol g A i) with (wid (vE g) (bv i)) in E1 by (unfold vol, A; cbn; ring)).
  change (union A C) with (VSet true true true false) in E1.
  assert (Hw0 : 0 < w). { unfold w. destruct density; [|lra]. apply (wid_pos _ _ _ (gg_vE _ Hg)). apply Hi. }
  assert (EP : par_prob g m true (VSet true true true false) i = P (bv i)) by (unfold P; destruct i; reflexivity).
  rewrite EP in E1. change (par_prob g m true C i) with Q in E1. fold w in E1. change (ent b [bv i; bt i; bx i; by_ i] = Fin (P (bv i) / Sum (nv g) P / w)) in B1. clearbody Q P w. split; [exact E1|]. split; [exact B1|]. intros HP. rewrite E1, B1.
  assert (Hw : 0 < w). { exact Hw0. }
  split; [|intros ->; reflexivity]. intros E. injection E as E.
  assert (E2 : P (bv i) / Q = P (bv i) / Sum (nv g) P).
  { transitivity (P (bv i) / Q / w * w); [field; split; lra|]. rewrite E. field. split; lra. }
  assert (E3 : P (bv i) * Sum (nv g) P = P (bv i) * Q).
  { transitivity (P (bv i) / Q * Q * Sum (nv g) P); [field; lra|]. rewrite E2. field. lra. }
  apply Rmult_eq_reg_l in E3; lra.
Qed.

(** the two agree at the ages and pixels with the average fraction of light in the range *)
Lemma sp_light b i : in_grid g i -> par_prob g m true (VSet true b true false) i =
  Sum (nz g) (fun z => txz_mass g m (bt i) (bx i) (by_ i) z * Lw g (bt i) z) * (if b then vbin g m (bt i) (bv i) (bx i) (by_ i) else 1) /
  total (pgrid g b) (lit (pgrid g b) (pjoint g m b)).
Proof.
  intros Hi. unfold par_prob, marg, over, pprob, light. cbn [has_t has_v has_x has_z]. destruct b; cbn [pgrid];
    unfold lit at 1, pjoint at 1; unfold Rdiv; rewrite Rmult_assoc, <- Sum_scal_r; cbn [flat nz nv Lw Sum]; try rewrite Rplus_0_l;
    apply Sum_ext; intros z _; ring.
Qed.
Lemma sp_v_tx_agree i : in_grid g i -> par_lw_ok g m true true ->
  let T := fun b => total (pgrid g b) (lit (pgrid g b) (pjoint g m b)) in
  let P := fun v => par_prob g m true (VSet true true true false) (set_v v i) in let Q := par_prob g m true (VSet true false true false) i in
  0 < Q -> (Sum (nv g) P = Q <-> Sum (nv g) (fun v => vbin g m (bt i) v (bx i) (by_ i)) = T true / T false).
Proof.
  intros Hi Hl T P Q HQ. pose proof (Hl eq_refl) as T1. pose proof (proj1 (light_in_range g m Hg Hm)) as T2. unfold all_light in T2.
  change (0 < T true) in T1. change (T true <= T false) in T2.
  set (K := Sum (nz g) (fun z => txz_mass g m (bt i) (bx i) (by_ i) z * Lw g (bt i) z)).
  assert (EQ : Q = K / T false). { unfold Q. rewrite sp_light by exact Hi. fold K. unfold T, Rdiv. ring. }
  set (f := Sum (nv g) (fun v => vbin g m (bt i) v (bx i) (by_ i))).
  assert (EP : Sum (nv g) P = K / T true * f).
  { unfold f. rewrite <- Sum_scal. apply Sum_ext. intros v Hv. unfold P. rewrite sp_light.
    - clear f; destruct i as [ti vi xi yi zi]; cbn [set_v bt bv bx by_ bz] in *. fold K. unfold T, Rdiv. ring.
    - clear K f EQ; destruct i as [ti vi xi yi zi]; destruct Hi as (? & ? & ? & ? & ?); cbn [set_v bt bv bx by_ bz] in *. repeat split; assumption. }
  assert (HK : 0 < K). { replace K with (Q * T false) by (rewrite EQ; field; lra). apply Rmult_lt_0_compat; lra. }
  rewrite EP, EQ. clearbody K f T. split.
  - intros E. apply (Rmult_eq_reg_l (K / T true)); [rewrite E; field; lra|]. apply Rgt_not_eq. apply Rdiv_lt_0_compat; lra.
  - intros ->. field. lra.
Qed.

(** age, position, metallicity *)
Section Other.
Context (k : coord) (C : vset) (lw : bool) (Hk : k <> Cv) (HD : disjoint (cvar k) C = true) (Hl : par_lw_ok g m lw (has_v C)).
Context (Hlv : lw = true -> has_v C = false) (HT : nonempty C = false -> lw = false -> total g (par_joint g m false false) = 1).
Context (Hh : no_holes g m lw (cvar k) C).
Let HT' : nonempty C = false -> total g (par_joint g m lw (has_v C)) = 1.
Proof. intros E. rewrite (no_vars_eq C E) in *. apply sp_total; auto. Qed.
Let HN : nonempty C = false -> lw = false -> k_normal g l.
Proof. intros E E'. apply sp_normal; auto. Qed.
Let Hh' : forall q m', (q < List.length l)%nat -> kk l q = KPar m' -> no_holes g m' lw (cvar k) C.
Proof. intros [|q] m' Hq E; [|cbn in Hq; lia]. cbn in E. injection E as <-. exact Hh. Qed.
Let EP : joint_eq g (weighted g lw (kmix g l (has_v C))) (par_joint g m lw (has_v C)).
Proof. rewrite sp_mix. apply weighted_par; assumption. Qed.

Lemma sp_mean : exists a b, mix_mean mix (dname (cvar k) C) lw = Ok a /\ get_mean (par_obj L (Fin 1) self) (dname (cvar k) C) lw = Ok b /\
  shp a = mdims k C g /\ shp b = mdims k C g /\ forall i, in_grid g i -> ent a (mcoords k C i) = ent b (mcoords k C i).
Proof.
  destruct (mixed_mean_claim mix g l sp_on Hg lw k C (sp_lit1 _ _ Hl) HD Hlv HN Hk Hh') as (a & Ea & Hs & He).
  destruct (par_other_mean L self g m (Fin 1) lw H Hg Hm k C Hk HD Hl HT' Hh) as (b & Eb & Hs' & He').
  exists a, b. do 4 (split; [assumption|]). intros i Hi. destruct (He i Hi) as [A1 A2]. destruct (He' i Hi) as [B1 B2].
  destruct (sp_prob_nonneg lw C i Hi Hl) as [Hp|Hp].
  - rewrite (A1 (sp_there _ _ _ Hi Hp)), (proj1 (B1 Hp)). f_equal. apply Ex_ext_P; [exact Hi|exact EP].
  - symmetry in Hp. rewrite (A2 (sp_missing _ _ _ Hi Hp)), (B2 Hp). reflexivity.
Qed.
Lemma sp_central j : exists a b, mix_central_moment mix (dname (cvar k) C) j lw = Ok a /\
  get_central_moment (par_obj L (Fin 1) self) (dname (cvar k) C) j lw = Ok b /\
  shp a = mdims k C g /\ shp b = mdims k C g /\ forall i, in_grid g i -> ent a (mcoords k C i) = ent b (mcoords k C i).
Proof.
  destruct (mixed_central_claim mix g l sp_on Hg lw k C (sp_lit1 _ _ Hl) HD Hlv HN Hk Hh' j) as (a & Ea & Hs & He).
  destruct (par_other_central L self g m (Fin 1) lw H Hg Hm k C Hk HD Hl HT' Hh j) as (b & Eb & Hs' & He').
  exists a, b. do 4 (split; [assumption|]). intros i Hi. destruct (He i Hi) as [A1 A2]. destruct (He' i Hi) as [B1 B2].
  destruct (sp_prob_nonneg lw C i Hi Hl) as [Hp|Hp].
  - rewrite (A1 (sp_there _ _ _ Hi Hp)), (B1 Hp). f_equal.
    replace (Mean g (weighted g lw (kmix g l (has_v C))) k C i) with (Mean g (par_joint g m lw (has_v C)) k C i)
      by (symmetry; apply Ex_ext_P; [exact Hi|exact EP]).
    apply Ex_ext_P; [exact Hi|exact EP].
  - symmetry in Hp. rewrite (A2 (sp_missing _ _ _ Hi Hp)), (B2 Hp). reflexivity.
Qed.
End Other.

(** velocity *)
Section Velocity.
Context (C : vset) (lw : bool) (Hv : has_v C = false) (Hl : par_lw_ok g m lw false).
Context (HT : nonempty C = false -> lw = false -> total g (par_joint g m false false) = 1).
Let Hl1 : par_lw_ok g m lw (has_v C).
Proof. rewrite Hv. exact Hl. Qed.
Let HN : nonempty C = false -> lw = false -> k_normal g l.
Proof. intros E E'. apply sp_normal; auto. Qed.
Lemma sp_given i : in_grid g i -> 0 < par_prob g m lw C i -> k_given g l lw C i 0 = 1.
Proof.
  intros Hi Hp. unfold k_given. rewrite sp_marg by exact Hi.
  replace (marg g (kshare g l lw (has_v C) 0) C i) with (par_prob g m lw C i); [field; lra|].
  rewrite <- sp_marg by exact Hi. apply marg_ext; [exact Hi|]. intros t v x y z _ _ _ _ _.
  unfold kshare, weighted. destruct lw; [unfold light; rewrite sp_mix|rewrite sp_mix]; unfold kw, kk, l; cbn [nth fst snd kmass]; unfold Rdiv; ring.
Qed.
Lemma sp_mean_v i : in_grid g i -> 0 < par_prob g m lw C i -> k_mean_v g l lw C i = mixture_mean g m lw C i.
Proof. intros Hi Hp. unfold k_mean_v. unfold Sum. cbn. rewrite (sp_given i Hi Hp). unfold kk, l. cbn. ring. Qed.
Lemma sp_v_mean : exists a b, mix_mean mix (dname V_v C) lw = Ok a /\ get_mean (par_obj L (Fin 1) self) (dname V_v C) lw = Ok b /\
  shp a = dims C g /\ shp b = dims C g /\ forall i, in_grid g i -> 0 < par_prob g m lw C i ->
    ent a (coords C i) = ent b (coords C i) /\ ent a (coords C i) <> NaN.
Proof.
  destruct (mixed_v_mean_claim mix g l sp_on Hg lw C Hv (sp_lit1 _ _ Hl1) HN) as (a & Ea & Hs & He).
  destruct (par_mean_claim L self g m lw H Hg Hm Hl (Fin 1) C Hv) as (b & Eb & Hs' & He').
  exists a, b. do 4 (split; [assumption|]). intros i Hi Hp. destruct (He' i Hi) as [B1 _].
  rewrite (He i Hi (sp_there _ _ _ Hi Hp)), B1; [|exact Hp|intros E E'; apply sp_one; auto].
  rewrite (sp_mean_v i Hi Hp). split; [reflexivity|discriminate].
Qed.
Lemma sp_v_central j : C <> V_txz -> exists a b, mix_central_moment mix (dname V_v C) j lw = Ok a /\
  get_central_moment (par_obj L (Fin 1) self) (dname V_v C) j lw = Ok b /\
  shp a = dims C g /\ shp b = dims C g /\ forall i, in_grid g i -> 0 < par_prob g m lw C i ->
    ent a (coords C i) = ent b (coords C i) /\ ent a (coords C i) <> NaN.
Proof.
  intros HC. destruct (v_central_claim mix g l sp_on Hg lw C Hv HC (sp_lit1 _ _ Hl) HN j) as (a & Ea & Hs & He).
  destruct (par_central_claim L self g m lw H Hg Hm Hl C j Hv) as (b & Eb & Hs' & He').
  exists a, b. do 4 (split; [assumption|]). intros i Hi Hp.
  destruct (He i Hi (sp_there _ _ _ Hi Hp)) as (M & EM & Ms & HMs & EM').
  destruct (He' i Hi Hp) as (M' & Eb' & HM'); [intros E E'; apply sp_one; auto|].
  specialize (HMs 0%nat ltac:(cbn; lia)). cbn [kk l nth fst k_v_moment] in HMs. rewrite (sp_mean_v i Hi Hp) in HMs.
  rewrite EM, Eb'. split; [|discriminate]. f_equal.
  rewrite EM'. unfold Sum. cbn. rewrite (sp_given i Hi Hp). rewrite (mixture_moment_unique g m lw C i _ j _ _ Hi HMs HM'). ring.
Qed.
End Velocity.
End Single.
