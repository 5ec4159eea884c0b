(** * StoreClaims: components made from the densities of others. *)
From Coq Require Import Reals Lra Lia List Bool Arith ZArith String Ascii.
From Verif Require Import Num NumLemmas Arr ArrLemmas PyStr Cube Base Spec SpecLemmas Repr CubeLemmas DistLemmas Build
  Moments MomSpec MomLemmas MomLemmas2 MomLemmas3 MomLemmas4 MomLemmas5 MomLemmas6 Stat LMom MomClaims SameSpec CondSame ScaleLemmas StoreSpec TwoSame.
Import ListNotations.
Local Open Scope R_scope.

Lemma log_of_exp x r : nexp x = Fin r -> x = nlog (Fin r).
Proof.
  destruct x as [q| | |]; unfold nexp, nlog; intros E; try discriminate E; injection E as E; subst r.
  - destruct (Rlt_dec 0 (exp q)) as [_|K]; [|pose proof (Exp_prop.exp_pos q); lra]. f_equal. symmetry. apply ln_exp.
  - destruct (Rlt_dec 0 0) as [K|_]; [lra|]. destruct (Req_EM_T 0 0); [reflexivity|lra].
Qed.
Lemma vol_all_pos g i : good_grid g -> in_grid g i -> 0 < vol g all_vars i.
Proof. intros Hg Hi. apply vol_pos; assumption. Qed.
Lemma mass_density_of g P : good_grid g -> joint_eq g (mass g (density_of g P)) P.
Proof.
  intros Hg t v x y z Ht Hv Hx Hy Hz. unfold mass, density_of.
  pose proof (vol_all_pos g (Bin t v x y z) Hg ltac:(repeat split; assumption)) as K.
  unfold vol, ifw, all_vars in *. cbn [has_t has_v has_x has_z bt bv bx by_ bz] in *. unfold Rdiv.
  replace (wid (tE g) t * wid (vE g) v * wid (xE g) x * wid (yE g) y * wid (zE g) z)
    with (wid (tE g) t * wid (vE g) v * (wid (xE g) x * wid (yE g) y) * wid (zE g) z) by ring.
  rewrite Rmult_assoc, Rinv_l by lra. ring.
Qed.
Lemma density_of_nonneg g P : good_grid g -> nonneg g P -> nonneg g (density_of g P).
Proof.
  intros Hg HP t v x y z Ht Hv Hx Hy Hz. unfold density_of, Rdiv. apply Rmult_le_pos; [apply HP; assumption|].
  apply Rlt_le, Rinv_0_lt_compat, vol_all_pos; [assumption|repeat split; assumption].
Qed.

(** storing an array whose exponential is the density of P *)
Lemma stored_on c g P r a : cube_on c g -> good_grid g -> r = Ok a -> shp a = dims all_vars g ->
  (forall i, in_grid g i -> nexp (ent a (coords all_vars i)) = Fin (P (bt i) (bv i) (bx i) (by_ i) (bz i) / vol g all_vars i)) ->
  exists s, stored c r s /\ comp_cube s = c /\ comp_on s g (density_of g P).
Proof.
  intros Hc Hg E Hs He. exists (Component c a). split; [|split; [reflexivity|]].
  - exists a. split; [exact E|]. unfold component_init.
    rewrite (ScaleLemmas.shape_tvxz c g Hc). cbn [bind]. rewrite Hs. change (dims all_vars g) with [nt g; nv g; nx g; ny g; nz g].
    rewrite natlist_eqb_refl. reflexivity.
  - constructor; [exact Hc|exact Hs|]. intros t v x y z Ht Hv Hx Hy Hz. cbn [log_p_tvxz].
    apply log_of_exp. apply (He (Bin t v x y z)). repeat split; assumption.
Qed.
Lemma stored_unique c r s s' : stored c r s -> stored c r s' -> s = s'.
Proof. intros (a & E & F) (a' & E' & F'). rewrite E in E'. injection E' as <-. rewrite F in F'. injection F' as <-. reflexivity. Qed.

(** ** agreeing bin probabilities *)
Lemma fit_eq g P P' C A i : nonneg g P -> joint_eq g P P' -> in_grid g i -> fit g P P' C C A i.
Proof.
  intros HP E Hi. pose proof (marg_ext g P P' C i Hi E) as EC.
  assert (H0 : 0 <= marg g P C i) by (apply marg_nonneg; assumption).
  destruct H0 as [H0|H0]; [left|right; split; [symmetry; exact H0|rewrite <- EC; symmetry; exact H0]].
  split; [exact H0|]. split; [rewrite <- EC; exact H0|]. intros j Hj. rewrite EC. f_equal.
  apply marg_ext; [exact (proj1 (bins_over_in g A i j Hi Hj))|exact E].
Qed.
Lemma prob_ext g f f' lw : joint_eq g (mass g f) (mass g f') -> joint_eq g (prob g f lw) (prob g f' lw).
Proof.
  intros E. destruct lw; [|exact E]. cbn [prob]. unfold light.
  assert (EL : joint_eq g (lit g (mass g f)) (lit g (mass g f'))) by (intros t v x y z Ht Hv Hx Hy Hz; unfold lit; rewrite E by assumption; reflexivity).
  intros t v x y z Ht Hv Hx Hy Hz. rewrite (total_ext g _ _ EL), (EL t v x y z) by assumption. reflexivity.
Qed.
Lemma lw_ok_ext g f f' lw : joint_eq g (mass g f) (mass g f') -> lw_ok g f lw -> lw_ok g f' lw.
Proof.
  intros E H Hl. specialize (H Hl). rewrite <- (total_ext g (lit g (mass g f))); [exact H|].
  intros t v x y z Ht Hv Hx Hy Hz. unfold lit. rewrite E by assumption. reflexivity.
Qed.

(** an object whose conditional probabilities are those of P, and a base
    component with weighting lw' which has the bin probabilities P too *)
Section Object.
Context (o : obj) (s : component) (g : grid) (f : joint) (P : joint) (lw lw' : bool) (C : vset).
Context (Hc : cube_on (o_cube o) g) (Hg : good_grid g) (HP : nonneg g P).
Context (Hs : comp_on s g f) (Hf : nonneg g f) (Hl : lw_ok g f lw') (HE : joint_eq g P (prob g f lw')).
Context (HT : nonempty C = false -> total g P = 1).
Let P' := prob g f lw'.
Let HP' : nonneg g P' := prob_nonneg g f lw' Hg Hf Hl.
Let HT' : nonempty C = false -> total g P' = 1.
Proof. intros E. unfold P'. rewrite <- (total_ext g _ _ HE). exact (HT E). Qed.
Let G' A : nonempty A = true -> disjoint A C = true -> gives (base_obj s) g P' lw' A C.
Proof. intros HA HD. apply base_gives; assumption. Qed.
Let Hc' : cube_on (o_cube (base_obj s)) g := cm_cube _ _ _ Hs.
Let W A i (Hi : in_grid g i) (_ : True) : fit g P P' C C A i := fit_eq g P P' C A i HP HE Hi.

Lemma object_statistics k : disjoint (cvar k) C = true -> gives o g P lw (cvar k) C ->
  o_mean o (dname (cvar k) C) = None -> o_moment o (dname (cvar k) C) = None ->
  same_statistics o (base_obj s) g k C lw lw' (fun _ => True).
Proof.
  intros HD HG HM HN. pose proof (G' (cvar k) (cvar_nonempty k) HD) as HG'. unfold same_statistics. cbv zeta.
  split; [|split; [|split; [|split; [|split; [|split; [|split; [|split]]]]]]].
  - eapply alike_weaken; [exact (W (cvar k))|]. apply (mean_alike o (base_obj s) g Hc Hc' Hg P P'); try assumption; reflexivity.
  - intros j mu Hmu. eapply alike_weaken; [|apply (moment_alike o (base_obj s) g Hc Hc' Hg P P' lw lw' C C k HD HD HG HG' HN eq_refl j mu mu Hmu Hmu)].
    intros i Hi [_ (c & E)]. split; [apply (W _ i Hi I)|exists c; split; exact E].
  - intros j. eapply alike_weaken; [exact (W (cvar k))|]. apply (central_alike o (base_obj s) g Hc Hc' Hg P P'); try assumption; reflexivity.
  - eapply alike_weaken; [exact (W (cvar k))|]. apply (central_alike o (base_obj s) g Hc Hc' Hg P P'); try assumption; reflexivity.
  - eapply alike_weaken; [exact (W (cvar k))|]. apply (dispersion_alike o (base_obj s) g Hc Hc' Hg P P'); try assumption; reflexivity.
  - eapply alike_weaken; [exact (W (cvar k))|]. apply (normalised_alike o (base_obj s) g Hc Hc' Hg P P'); try assumption; try reflexivity. lia.
  - eapply alike_weaken; [exact (W (cvar k))|]. apply (normalised_alike o (base_obj s) g Hc Hc' Hg P P'); try assumption; try reflexivity. lia.
  - intros q. eapply alike_weaken; [exact (W (cvar k))|]. apply (excess_alike o (base_obj s) g Hc Hc' Hg P P'); try assumption; reflexivity.
  - intros Hx j. eapply alike_weaken; [exact (W (cvar k))|].
    destruct (l_moment_alike o (base_obj s) g Hc Hc' Hg P P' lw lw' C C k HD HD HG HG' j Hx) as (a & b & Ea & Eb & He).
    exists a, b. split; [exact Ea|]. split; [exact Eb|]. intros i Hi Hq. rewrite !mcoords_no_x by assumption. apply He; assumption.
Qed.
Lemma object_covariances a b : before a b = true -> disjoint (union (cvar a) (cvar b)) C = true ->
  gives o g P lw (cvar a) C -> gives o g P lw (cvar b) C -> gives o g P lw (union (cvar a) (cvar b)) C ->
  (forall w, o_mean o w = None) -> (forall w, o_moment o w = None) ->
  same_covariances o (base_obj s) g a b C lw lw' (fun _ => True).
Proof.
  intros Hab HD Ga Gb Gab HM HN. pose proof (HDa a b C HD) as Da. pose proof (HDb a b C HD) as Db.
  pose proof (G' (cvar a) (cvar_nonempty a) Da) as Ga'. pose proof (G' (cvar b) (cvar_nonempty b) Db) as Gb'.
  assert (NE : nonempty (union (cvar a) (cvar b)) = true) by (clear; destruct a, b; reflexivity).
  pose proof (G' _ NE HD) as Gab'.
  split; (eapply alike_weaken; [intros i Hi _; exact (conj (W (union (cvar a) (cvar b)) i Hi I) (conj (W (cvar a) i Hi I) (W (cvar b) i Hi I)))|]).
  - apply (covariance_alike o (base_obj s) g Hc Hc' Hg P P'); try assumption; try reflexivity; apply HM.
  - apply (correlation_alike o (base_obj s) g Hc Hc' Hg P P'); try assumption; try reflexivity; try apply HM; apply HN.
Qed.
End Object.

(** ** what stored densities represent *)
Definition weighted (g : grid) (P : joint) (lw : bool) : joint := if lw then light g P else P.
Definition light_ok (g : grid) (P : joint) (lw : bool) : Prop := lw = true -> 0 < total g (lit g P).
Lemma density_of_mass g f t v x y z : good_grid g -> in_grid g (Bin t v x y z) -> density_of g (mass g f) t v x y z = f t v x y z.
Proof.
  intros Hg Hi. unfold density_of. pose proof (vol_all_pos g _ Hg Hi) as K.
  replace (mass g f t v x y z) with (f t v x y z * vol g all_vars (Bin t v x y z)).
  - field. lra.
  - unfold mass, vol, ifw, all_vars. cbn [has_t has_v has_x has_z bt bv bx by_ bz]. ring.
Qed.
Lemma comp_on_ext s g f f' : comp_on s g f -> (forall t v x y z, in_grid g (Bin t v x y z) -> f t v x y z = f' t v x y z) -> comp_on s g f'.
Proof.
  intros [A B D] E. constructor; [exact A|exact B|]. intros t v x y z Ht Hv Hx Hy Hz. rewrite D by assumption.
  rewrite E by (repeat split; assumption). reflexivity.
Qed.
Lemma stored_weights g P0 lw lw' : good_grid g -> lw = false \/ lw' = false -> light_ok g P0 (lw || lw') ->
  let f := density_of g (weighted g P0 lw) in
  lw_ok g f lw' /\ joint_eq g (weighted g P0 (lw || lw')) (prob g f lw').
Proof.
  intros Hg Hw Hl f. pose proof (mass_density_of g (weighted g P0 lw) Hg) as E. fold f in E.
  destruct lw'.
  - destruct Hw as [K|K]; [|discriminate]. subst lw. cbn [orb weighted] in *.
    assert (E' : joint_eq g (lit g P0) (lit g (mass g f))) by (intros t v x y z Ht Hv Hx Hy Hz; unfold lit; rewrite E by assumption; reflexivity).
    split; [intros _; rewrite <- (total_ext g _ _ E'); exact (Hl eq_refl)|].
    intros t v x y z Ht Hv Hx Hy Hz. cbn [prob]. unfold light. rewrite (total_ext g _ _ E'), (E' t v x y z) by assumption. reflexivity.
  - split; [discriminate|]. rewrite orb_false_r. cbn [prob]. intros t v x y z Ht Hv Hx Hy Hz. symmetry. apply E; assumption.
Qed.

(** distributions of the stored component *)
Section Dists.
Context (s : component) (g : grid) (P0 : joint) (lw lw' : bool).
Context (Hg : good_grid g) (HP : nonneg g (weighted g P0 lw)) (Hw : lw = false \/ lw' = false) (Hl : light_ok g P0 (lw || lw')).
Let f := density_of g (weighted g P0 lw).
Context (Hs : comp_on s g f).
Let P := weighted g P0 (lw || lw').
Lemma stored_f_nonneg : nonneg g f. Proof. apply density_of_nonneg; assumption. Qed.
Let W := stored_weights g P0 lw lw' Hg Hw Hl.
Lemma stored_P_nonneg : nonneg g P.
Proof.
  intros t v x y z Ht Hv Hx Hy Hz. unfold P. rewrite (proj2 W t v x y z) by assumption.
  exact (prob_nonneg g f lw' Hg stored_f_nonneg (proj1 W) t v x y z Ht Hv Hx Hy Hz).
Qed.
Lemma stored_p_marg S density : nonempty S = true ->
  exists a, get_p s (name S) density lw' = Ok a /\ shp a = dims S g /\
    forall i, in_grid g i -> ent a (coords S i) = Fin (marg g P S i / (if density then vol g S i else 1)).
Proof.
  intros HS. destruct (get_p_marg s g f Hs Hg stored_f_nonneg S density lw' HS (proj1 W)) as (a & Ea & Sa & Ha).
  exists a. split; [exact Ea|]. split; [exact Sa|]. intros i Hi. rewrite Ha by exact Hi. f_equal. f_equal. symmetry. apply marg_ext; [exact Hi|exact (proj2 W)].
Qed.
Lemma stored_p_cond A C density : nonempty A = true -> nonempty C = true -> disjoint A C = true ->
  exists a, get_p s (cname A C) density lw' = Ok a /\ shp a = (dims A g ++ dims C g)%list /\
    forall i, in_grid g i ->
      (0 < marg g P C i -> ent a (coords A i ++ coords C i) = Fin (marg g P (union A C) i / marg g P C i / (if density then vol g A i else 1))) /\
      (marg g P C i = 0 -> ent a (coords A i ++ coords C i) = NaN).
Proof.
  intros HA HC HD. destruct (get_p_cond s g f Hs Hg stored_f_nonneg A C density lw' HA HC HD (proj1 W)) as (a & Ea & Sa & Ha).
  exists a. split; [exact Ea|]. split; [exact Sa|]. intros i Hi. specialize (Ha i Hi).
  unfold P. rewrite (marg_ext g _ _ C i Hi (proj2 W)), (marg_ext g _ _ (union A C) i Hi (proj2 W)). exact Ha.
Qed.
End Dists.

(** ** base components *)
Section Base.
Context (self : component) (g : grid) (f : joint) (H : comp_on self g f) (Hg : good_grid g) (Hf : nonneg g f).
Lemma base_stored lw : lw_ok g f lw ->
  exists s, stored (comp_cube self) (get_log_p self "tvxz" true lw) s /\ comp_cube s = comp_cube self /\ comp_on s g (density_of g (prob g f lw)).
Proof.
  intros Hl. destruct (get_p_marg self g f H Hg Hf all_vars true lw eq_refl Hl) as (p & Ep & Hsp & He).
  unfold get_p, get_p_of in Ep. change (name all_vars) with "tvxz"%string in Ep. fold (get_log_p self) in Ep.
  destruct (get_log_p self "tvxz" true lw) as [a|e] eqn:Ea; [|discriminate Ep]. cbn [bind] in Ep. injection Ep as <-.
  apply (stored_on (comp_cube self) g (prob g f lw) (Ok a) a (cm_cube _ _ _ H) Hg eq_refl Hsp). intros i Hi. specialize (He i Hi). cbn [amap ent] in He.
  rewrite He. destruct i. reflexivity.
Qed.
Lemma base_is lw s : lw_ok g f lw -> stored (comp_cube self) (get_log_p self "tvxz" true lw) s -> comp_on s g (density_of g (prob g f lw)) /\ comp_cube s = comp_cube self.
Proof. intros Hl Hs. destruct (base_stored lw Hl) as (s' & Hs' & Hc & Hon). rewrite (stored_unique _ _ _ _ Hs Hs'). split; assumption. Qed.
(** from the mass-weighted density: the component itself *)
Lemma base_again s : stored (comp_cube self) (get_log_p self "tvxz" true false) s -> comp_cube s = comp_cube self /\ comp_on s g f.
Proof.
  intros Hs. destruct (base_is false s ltac:(discriminate) Hs) as [A B]. split; [exact B|]. eapply comp_on_ext; [exact A|].
  intros. apply density_of_mass; assumption.
Qed.

Section Two.
Context (lw lw' : bool) (Hw : lw = false \/ lw' = false) (Hl : lw_ok g f (lw || lw')).
Let Hl1 : lw_ok g f lw. Proof. intros E. apply Hl. rewrite E. reflexivity. Qed.
Context (s : component) (Hs : stored (comp_cube self) (get_log_p self "tvxz" true lw) s).
Let Hon := proj1 (base_is lw s Hl1 Hs).
Let HP := prob_nonneg g f lw Hg Hf Hl1.
Lemma base_same_marg S density : nonempty S = true ->
  alike g (get_p self (name S) density (lw || lw')) (get_p s (name S) density lw') (coords S) (coords S) (fun _ => True).
Proof.
  intros HS. destruct (get_p_marg self g f H Hg Hf S density (lw || lw') HS Hl) as (a & Ea & _ & Ha).
  destruct (stored_p_marg s g (mass g f) lw lw' Hg HP Hw Hl Hon S density HS) as (b & Eb & _ & Hb).
  exists a, b. split; [exact Ea|]. split; [exact Eb|]. intros i Hi _. rewrite Ha, Hb by exact Hi. reflexivity.
Qed.
Lemma base_same_cond A C density : nonempty A = true -> nonempty C = true -> disjoint A C = true ->
  let at_i := fun i => (coords A i ++ coords C i)%list in
  alike g (get_p self (cname A C) density (lw || lw')) (get_p s (cname A C) density lw') at_i at_i (fun _ => True).
Proof.
  intros HA HC HD at_i. destruct (get_p_cond self g f H Hg Hf A C density (lw || lw') HA HC HD Hl) as (a & Ea & _ & Ha).
  destruct (stored_p_cond s g (mass g f) lw lw' Hg HP Hw Hl Hon A C density HA HC HD) as (b & Eb & _ & Hb).
  exists a, b. split; [exact Ea|]. split; [exact Eb|]. intros i Hi _. unfold at_i. destruct (Ha i Hi) as [A1 A2]. destruct (Hb i Hi) as [B1 B2].
  destruct (marg_nonneg g (prob g f (lw || lw')) C i Hi (prob_nonneg g f _ Hg Hf Hl)) as [Hp|Hz].
  - rewrite (A1 Hp). symmetry. exact (B1 Hp).
  - symmetry in Hz. rewrite (A2 Hz). symmetry. exact (B2 Hz).
Qed.
Section Stat.
Context (C : vset) (HT : nonempty C = false -> (lw || lw')%bool = false -> total g (mass g f) = 1).
Let HT1 : nonempty C = false -> total g (prob g f (lw || lw')) = 1.
Proof.
  intros E. destruct (lw || lw')%bool eqn:El; [apply total_light; apply Rgt_not_eq, Hl; reflexivity|apply HT; auto].
Qed.
Let W := stored_weights g (mass g f) lw lw' Hg Hw Hl.
Let G A (HA : nonempty A = true) (HD : disjoint A C = true) := base_gives self g f (lw || lw') A C H Hg Hf Hl HA HD HT1.
Lemma base_same_statistics k : disjoint (cvar k) C = true -> same_statistics (base_obj self) (base_obj s) g k C (lw || lw') lw' (fun _ => True).
Proof.
  intros HD. apply (object_statistics (base_obj self) s g (density_of g (prob g f lw)) (prob g f (lw || lw')) (lw || lw') lw' C (cm_cube _ _ _ H) Hg); try assumption; try reflexivity.
  - apply prob_nonneg; assumption.
  - apply density_of_nonneg; assumption.
  - exact (proj1 W).
  - exact (proj2 W).
  - apply G; [apply cvar_nonempty|exact HD].
Qed.
Lemma base_same_covariances a b : before a b = true -> disjoint (union (cvar a) (cvar b)) C = true ->
  same_covariances (base_obj self) (base_obj s) g a b C (lw || lw') lw' (fun _ => True).
Proof.
  intros Hab HD. apply (object_covariances (base_obj self) s g (density_of g (prob g f lw)) (prob g f (lw || lw')) (lw || lw') lw' C (cm_cube _ _ _ H) Hg); try assumption; try reflexivity.
  - apply prob_nonneg; assumption.
  - apply density_of_nonneg; assumption.
  - exact (proj1 W).
  - exact (proj2 W).
  - apply G; [apply cvar_nonempty|exact (HDa a b C HD)].
  - apply G; [apply cvar_nonempty|exact (HDb a b C HD)].
  - apply G; [clear; destruct a, b; reflexivity|exact HD].
Qed.
End Stat.
End Two.
End Base.
