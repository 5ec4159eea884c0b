(** * MixExample: a concrete mixture; moments with hypotheses on the masses only. *)
From Coq Require Import Reals Lra Lia List Bool Arith ZArith String Ascii.
From Verif Require Import Num NumLemmas Arr ArrLemmas PyStr Cube Base Spec SpecLemmas Repr Build DistLemmas
  Moments MomSpec MomClaims MomRefuted Mixture MixSpec MixGen MixLemmas MixMom MixClaims.
Import ListNotations.
Local Open Scope R_scope.

(** each member and the weights have sum one; only needed for mass-weighted
    moments of a marginal *)
Lemma normalised_mass self g comps l lw C : mix_on self g comps l -> good_grid g ->
  (forall k, (k < List.length l)%nat -> lw_ok g (pf l k) lw) ->
  (nonempty C = false -> lw = false ->
     sumR (map snd l) = 1 /\ forall k, (k < List.length l)%nat -> total g (mass g (pf l k)) = 1) ->
  normalised g l lw C.
Proof.
  intros H Hg Hm HT HC. destruct lw.
  - split; [intros; apply total_prob_lw; apply Hm; assumption|].
    apply total_prob_lw. eapply mix_lw_ok; eassumption.
  - destruct (HT HC eq_refl) as [Hs Ht]. split; [exact Ht|]. unfold prob.
    rewrite (total_ext g _ _ (mass_mixf g l)), total_Sum.
    rewrite <- Hs, (sumR_Sum snd l ((fun _ _ _ _ _ => 0), 0)). apply Sum_ext; intros k Hk.
    rewrite total_scal, Ht by assumption. unfold pw. ring.
Qed.

Lemma mix_mean_claim self g comps l lw k C : mix_on self g comps l -> good_grid g ->
  (forall k, (k < List.length l)%nat -> lw_ok g (pf l k) lw) -> disjoint (cvar k) C = true ->
  (nonempty C = false -> lw = false ->
     sumR (map snd l) = 1 /\ forall k, (k < List.length l)%nat -> total g (mass g (pf l k)) = 1) ->
  exists m, mix_mean self (dname (cvar k) C) lw = Ok m /\ shp m = mdims k C g /\
    forall i, in_grid g i ->
      ((forall q, (q < List.length l)%nat -> 0 < marg g (prob g (pf l q) lw) C i) ->
        ent m (mcoords k C i) = Fin (Mean g (prob g (mixf l) lw) k C i)) /\
      ((exists q, (q < List.length l)%nat /\ marg g (prob g (pf l q) lw) C i = 0) -> ent m (mcoords k C i) = NaN).
Proof.
  intros H Hg Hm HD HT.
  exact (mix_mean_ok self g comps l H Hg lw k C Hm HD (normalised_mass _ _ _ _ _ _ H Hg Hm HT)).
Qed.
Lemma central_claim self g comps l lw k C j : mix_on self g comps l -> good_grid g ->
  (forall k, (k < List.length l)%nat -> lw_ok g (pf l k) lw) -> disjoint (cvar k) C = true ->
  (nonempty C = false -> lw = false ->
     sumR (map snd l) = 1 /\ forall k, (k < List.length l)%nat -> total g (mass g (pf l k)) = 1) ->
  exists m, mix_central_moment self (dname (cvar k) C) j lw = Ok m /\ shp m = mdims k C g /\
    forall i, in_grid g i ->
      ((forall q, (q < List.length l)%nat -> 0 < marg g (prob g (pf l q) lw) C i) ->
        ent m (mcoords k C i) = Fin (Moment g (prob g (mixf l) lw) k C j (Mean g (prob g (mixf l) lw) k C i) i)) /\
      ((exists q, (q < List.length l)%nat /\ marg g (prob g (pf l q) lw) C i = 0) -> ent m (mcoords k C i) = NaN).
Proof.
  intros H Hg Hm HD HT.
  exact (mix_central_ok self g comps l H Hg lw k C Hm HD (normalised_mass _ _ _ _ _ _ H Hg Hm HT) j).
Qed.

(** ** the component of Build.v with weight 1/4 and a constant one, 3/4 *)
Definition exf1 : joint := fun _ _ _ _ _ => 1.
Definition exc1 : component := comp_of exg exf1.
Definition expts : parts := [(exf, 1 / 4); (exf1, 3 / 4)].
Definition exm : mixture := Mixture (cube_of exg) [comp_member exc; comp_member exc1] [Fin (1 / 4); Fin (3 / 4)].

Lemma exf1_nonneg : nonneg exg exf1.
Proof. intros t v x y z _ _ _ _ _. unfold exf1. lra. Qed.
Lemma exc1_on : comp_on exc1 exg exf1.
Proof. apply comp_of_on; [apply exg_uniform_x|apply exg_uniform_y]. Qed.

Lemma exm_on : mix_on exm exg [exc; exc1] expts.
Proof.
  constructor; try reflexivity; [apply cube_of_on; [apply exg_uniform_x|apply exg_uniform_y]|discriminate|].
  intros [|[|k]] c q E1 E2; cbn in E1, E2; try (destruct k; discriminate E1);
    injection E1 as <-; injection E2 as <-; cbn [fst snd].
  - split; [apply exc_on|]. split; [apply exf_nonneg|lra].
  - split; [apply exc1_on|]. split; [apply exf1_nonneg|lra].
Qed.
Lemma exm_members lw k : (k < List.length expts)%nat -> lw_ok exg (pf expts k) lw.
Proof.
  intros Hk. destruct k as [|[|k]]; [apply ex_lw_ok| |cbn in Hk; lia].
  intros _. unfold pf, expts, exf1. cbn [nth fst]. ex_num.
Qed.
Lemma exm_lw lw : lw_ok exg (mixf expts) lw.
Proof. eapply mix_lw_ok; [exact exm_on|exact exg_good|exact (exm_members lw)]. Qed.
Ltac mix_num := unfold mixf, pf, pw, expts, exf1; cbn [nth fst snd map]; unfold sumR; cbn [fold_right].

Definition extx : vset := VSet true false true false.
Lemma empty_member_claim : exists self g comps l, mix_on self g comps l /\ good_grid g /\
  (forall k, (k < List.length l)%nat -> lw_ok g (pf l k) false) /\
  exists i, in_grid g i /\ 0 < marg g (prob g (mixf l) false) extx i /\
  forall plain, comp_on plain g (mixf l) ->
  exists m m', mix_mean self "v_tx" false = Ok m /\ ent m (coords extx i) = NaN /\
    get_mean (base_obj plain) "v_tx" false = Ok m' /\ ent m' (coords extx i) = Fin 0.
Proof.
  exists exm, exg, [exc; exc1], expts. split; [exact exm_on|]. split; [exact exg_good|]. split; [apply exm_members|].
  exists (Bin 1 0 1 0 0). assert (Hi : in_grid exg (Bin 1 0 1 0 0)) by (unfold in_grid; cbn; lia). split; [exact Hi|].
  assert (Hp : 0 < marg exg (prob exg (mixf expts) false) extx (Bin 1 0 1 0 0)) by (unfold extx; mix_num; ex_num).
  split; [exact Hp|]. intros plain Hpl.
  destruct (mix_mean_claim exm exg _ expts false Cv extx exm_on exg_good (exm_members _) eq_refl ltac:(discriminate)) as (m & E & _ & He).
  destruct (mean_claim plain exg (mixf expts) false Hpl exg_good (mixf_nonneg _ _ _ (mix_on_gen _ _ _ _ exm_on exg_good) true) ltac:(discriminate) Cv extx eq_refl
     ltac:(discriminate)) as (m' & E' & _ & He').
  exists m, m'. split; [exact E|]. split; [|split; [exact E'|]].
  - apply (He _ Hi). exists 0%nat. split; [cbn; lia|]. unfold extx. mix_num. ex_num.
  - destruct (He' _ Hi) as [H' _]. destruct (H' Hp) as [H'' _]. etransitivity; [exact H''|]. f_equal.
    unfold extx. mix_num. mom_num; field.
Qed.
