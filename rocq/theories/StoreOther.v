(** * StoreOther: datacubes, mixtures and parametric components stored as base
    components, and components made of one particle per bin. *)
From Coq Require Import Reals Lra Lia List Bool Arith ZArith String Ascii.
From Verif Require Import Num NumLemmas Arr ArrLemmas PyStr Cube Base Spec SpecLemmas Repr CubeLemmas DistLemmas Build
  Moments MomSpec MomLemmas MomLemmas2 MomLemmas3 MomLemmas4 MomLemmas5 MomLemmas6 Stat LMom MomClaims SameSpec CondSame ScaleLemmas
  Datacube DatacubeSpec DatacubeClaims Mixture MixSpec MixGen MixLemmas MixCond MixMom MixStat MixStatLemmas MixExample MixStatClaims
  Parametric ParSpec ParRepr ParLemmas ParDist ParClaims Particle ParticleSpec ParticleLemmas ParticleClaims StoreSpec TwoSame StoreClaims.
Import ListNotations.
Local Open Scope R_scope.

(** ** datacubes *)
Lemma base_same_datacube W self g f n dv S v0 s : evaluable self g f n dv S v0 -> stored (comp_cube self) (get_log_p self "tvxz" true false) s ->
  forall b b', is_batch b -> is_batch b' ->
  exists y y', evaluate_ybar W self b = Ok y /\ evaluate_ybar W s b' = Ok y' /\ shp y = [n; nx g; ny g] /\ shp y' = [n; nx g; ny g] /\
    forall w i j, (w < n)%nat -> (i < nx g)%nat -> (j < ny g)%nat -> ent y' [w; i; j] = ent y [w; i; j].
Proof.
  intros H Hs b b' Hb Hb'. destruct (base_again self g f (ev_on _ _ _ _ _ _ _ H) (ev_grid _ _ _ _ _ _ _ H) (ev_nonneg _ _ _ _ _ _ _ H) s Hs) as [Ec Hon].
  assert (H' : evaluable s g f n dv S v0).
  { destruct H as [E1 E2 E3 E4 E5 E6]. constructor; try assumption. rewrite Ec. exact E4. }
  destruct (evaluate_claim W self g f n dv S v0 b H Hb) as (y & Ey & Sy & Hy).
  destruct (evaluate_claim W s g f n dv S v0 b' H' Hb') as (y' & Ey' & Sy' & Hy').
  exists y, y'. do 4 (split; [assumption|]). intros w i j Hw Hi Hj. rewrite Hy, Hy' by assumption. reflexivity.
Qed.

(** ** mixtures of base components *)
Section Mix.
Context (self : mixture) (g : grid) (comps : list component) (l : parts).
Context (H : mix_on self g comps l) (Hg : good_grid g).
Let HG := mix_on_gen self g comps l H Hg.
Let Hc : cube_on (mx_cube self) g := mo_cube _ _ _ _ H.
Let Hf : nonneg g (mixf l) := mixf_nonneg self g _ HG true.
Lemma mix_stored lw : lw_ok g (mixf l) lw ->
  exists s, stored (mx_cube self) (mix_get_log_p self "tvxz" true true lw) s /\ comp_cube s = mx_cube self /\ comp_on s g (density_of g (prob g (mixf l) lw)).
Proof.
  intros Hl. destruct (mix_p_marg self g _ HG Hg all_vars true true lw eq_refl Hl) as (p & Ep & Hsp & He).
  unfold mix_get_p in Ep. change (name all_vars) with "tvxz"%string in Ep.
  destruct (mix_get_log_p self "tvxz" true true lw) as [a|e] eqn:Ea; [|discriminate Ep]. cbn [bind] in Ep. injection Ep as <-.
  apply (stored_on (mx_cube self) g (prob g (mixf l) lw) (Ok a) a Hc Hg eq_refl Hsp). intros i Hi. specialize (He i Hi). cbn [amap ent] in He.
  rewrite He. destruct i. reflexivity.
Qed.
Lemma mix_is lw s : lw_ok g (mixf l) lw -> stored (mx_cube self) (mix_get_log_p self "tvxz" true true lw) s ->
  comp_on s g (density_of g (prob g (mixf l) lw)) /\ comp_cube s = mx_cube self.
Proof. intros Hl Hs. destruct (mix_stored lw Hl) as (s' & Hs' & Hcs & Hon). rewrite (stored_unique _ _ _ _ Hs Hs'). split; assumption. Qed.
Lemma mix_again s : stored (mx_cube self) (mix_get_log_p self "tvxz" true true false) s -> comp_cube s = mx_cube self /\ comp_on s g (mixf l).
Proof.
  intros Hs. destruct (mix_is false s ltac:(discriminate) Hs) as [A B]. split; [exact B|]. eapply comp_on_ext; [exact A|].
  intros. apply density_of_mass; assumption.
Qed.

Section Two.
Context (lw lw' : bool) (Hw : lw = false \/ lw' = false).
Context (Hm : forall q, (q < List.length l)%nat -> lw_ok g (pf l q) (lw || lw')).
Let Hl : lw_ok g (mixf l) (lw || lw') := mix_lw_ok self g comps l H Hg (lw || lw') Hm.
Let Hl1 : lw_ok g (mixf l) lw. Proof. intros E. apply Hl. rewrite E. reflexivity. Qed.
Context (s : component) (Hs : stored (mx_cube self) (mix_get_log_p self "tvxz" true true lw) s).
Let Hon := proj1 (mix_is lw s Hl1 Hs).
Let HP := prob_nonneg g (mixf l) lw Hg Hf Hl1.
Let P := prob g (mixf l) (lw || lw').
Let HPP : nonneg g P := prob_nonneg g (mixf l) (lw || lw') Hg Hf Hl.
Lemma mix_same_marg S density : nonempty S = true ->
  alike g (mix_get_p self (name S) true density (lw || lw')) (get_p s (name S) density lw') (coords S) (coords S) (fun _ => True).
Proof.
  intros HS. destruct (mix_p_marg self g _ HG Hg S true density (lw || lw') HS Hl) as (a & Ea & _ & Ha).
  destruct (stored_p_marg s g (mass g (mixf l)) lw lw' Hg HP Hw Hl Hon S density HS) as (b & Eb & _ & Hb).
  exists a, b. split; [exact Ea|]. split; [exact Eb|]. intros i Hi _. rewrite Ha, Hb by exact Hi. reflexivity.
Qed.
Lemma mix_same_cond A C density : nonempty A = true -> nonempty C = true -> disjoint A C = true ->
  let at_i := fun i => (coords A i ++ coords C i)%list in
  alike g (mix_get_p self (cname A C) true density (lw || lw')) (get_p s (cname A C) density lw') at_i at_i (fun _ => True).
Proof.
  intros HA HC HD at_i. destruct (mix_p_cond self g _ HG Hg A C true density (lw || lw') HA HC HD Hl) as (a & Ea & _ & Ha).
  destruct (stored_p_cond s g (mass g (mixf l)) lw lw' Hg HP Hw Hl Hon A C density HA HC HD) as (b & Eb & _ & Hb).
  exists a, b. split; [exact Ea|]. split; [exact Eb|]. intros i Hi _. unfold at_i. destruct (Hb i Hi) as [B1 B2].
  rewrite (Ha i Hi). cbv beta. fold P. destruct (Rlt_dec 0 (marg g P C i)) as [Hp|Hn].
  - symmetry. exact (B1 Hp).
  - symmetry. apply B2. pose proof (marg_nonneg g P C i Hi HPP). change (marg g P C i = 0). lra.
Qed.
Section Stat.
Context (C : vset) (HT : nonempty C = false -> (lw || lw')%bool = false ->
     sumR (map snd l) = 1 /\ forall q, (q < List.length l)%nat -> total g (mass g (pf l q)) = 1).
Let P' := prob g (density_of g (prob g (mixf l) lw)) lw'.
Let W : lw_ok g (density_of g (prob g (mixf l) lw)) lw' /\ joint_eq g P P' := stored_weights g (mass g (mixf l)) lw lw' Hg Hw Hl.
Let Hsf : nonneg g (density_of g (prob g (mixf l) lw)) := density_of_nonneg g _ Hg HP.
Let HT1 : nonempty C = false -> total g P = 1.
Proof. intros E. exact (proj2 (normalised_mass self g comps l (lw || lw') C H Hg Hm HT E)). Qed.
Let HT2 : nonempty C = false -> total g P' = 1.
Proof. intros E. rewrite <- (total_ext g _ _ (proj2 W)). exact (HT1 E). Qed.
Let Q i := forall q, (q < List.length l)%nat -> 0 < marg g (prob g (pf l q) (lw || lw')) C i.
Let posQ i : in_grid g i -> Q i -> 0 < marg g P C i := base_pos self g comps l (lw || lw') C H Hg Hm i.
Let G A (HA : nonempty A = true) (HD : disjoint A C = true) := base_mix_gives self g comps l (lw || lw') C H Hg Hm HT A HA HD.
Let EM S i : in_grid g i -> marg g P' S i = marg g P S i.
Proof. intros Hi. symmetry. apply marg_ext; [exact Hi|exact (proj2 W)]. Qed.
Let fits A i : in_grid g i -> Q i -> same g P P' C C A i.
Proof.
  intros Hi Hq. pose proof (posQ i Hi Hq) as Hp. split; [exact Hp|]. split; [rewrite EM by exact Hi; exact Hp|].
  intros j Hj. pose proof (bins_over_in g A i j Hi Hj) as [Hj' _]. rewrite !EM by assumption. reflexivity.
Qed.
Lemma mix_same_mean k : disjoint (cvar k) C = true ->
  alike g (mix_mean self (dname (cvar k) C) (lw || lw')) (get_mean (base_obj s) (dname (cvar k) C) lw') (mcoords k C) (mcoords k C) Q.
Proof.
  intros HD. destruct (base_mean_right self g comps l (lw || lw') C H Hg Hm HT k HD) as (a & Ea & _ & Ha).
  destruct (mean_claim s g _ lw' Hon Hg Hsf (proj1 W) k C HD HT2) as (b & Eb & _ & Hb).
  exists a, b. split; [exact Ea|]. split; [exact Eb|]. intros i Hi Hq. rewrite (proj1 (Ha i Hi) Hq).
  assert (Hp : 0 < marg g P' C i) by (rewrite EM by exact Hi; apply posQ; assumption).
  rewrite (proj1 (proj1 (Hb i Hi) Hp)). f_equal. apply (Mean_same g P P' C C k). apply fits; assumption.
Qed.
Lemma mix_same_central k j : disjoint (cvar k) C = true ->
  alike g (mix_central_moment self (dname (cvar k) C) j (lw || lw')) (get_central_moment (base_obj s) (dname (cvar k) C) j lw') (mcoords k C) (mcoords k C) Q.
Proof.
  intros HD. destruct (base_central_right self g comps l (lw || lw') C H Hg Hm HT k HD j) as (a & Ea & _ & Ha).
  destruct (MomClaims.central_claim s g _ lw' Hon Hg Hsf (proj1 W) k C HD HT2 j) as (b & Eb & _ & Hb).
  exists a, b. split; [exact Ea|]. split; [exact Eb|]. intros i Hi Hq. rewrite (proj1 (Ha i Hi) Hq).
  assert (Hp : 0 < marg g P' C i) by (rewrite EM by exact Hi; apply posQ; assumption).
  rewrite (proj1 (Hb i Hi) Hp). f_equal. apply (Central_same g P P' C C k). apply fits; assumption.
Qed.
Lemma mix_same_covariance a b : before a b = true -> disjoint (union (cvar a) (cvar b)) C = true ->
  alike g (mix_covariance self (dname (union (cvar a) (cvar b)) C) (lw || lw')) (get_covariance (base_obj s) (dname (union (cvar a) (cvar b)) C) lw')
    (mcoords (xkey a b) C) (mcoords (xkey a b) C) Q.
Proof.
  intros Hab HD. destruct (mixb_covariance self g comps l (lw || lw') C H Hg Hm HT a b Hab HD) as (r & Er & _ & Hr).
  destruct (covariance_ok (base_obj s) g P' lw' (cm_cube _ _ _ Hon) Hg a b C Hab HD) as (q & Eq & _ & Hq); try reflexivity;
    try (apply (base_gives s g _ lw' _ C Hon Hg Hsf (proj1 W)); [apply cvar_nonempty || apply pair_nonempty| |exact HT2];
         first [exact HD|exact (HDa a b C HD)|exact (HDb a b C HD)]).
  exists r, q. split; [exact Er|]. split; [exact Eq|]. intros i Hi Hqi. rewrite (proj1 (Hr i Hi) Hqi).
  assert (Hp : 0 < marg g P' C i) by (rewrite EM by exact Hi; apply posQ; assumption).
  rewrite (proj1 (Hq i Hi) Hp). f_equal. apply (Covar_same g P P' C C a b); apply fits; assumption.
Qed.
Lemma mix_same_l_moment k j : disjoint (cvar k) C = true -> is_x k = false ->
  alike g (get_l_moment (mix_obj self) (dname (cvar k) C) (S j) (lw || lw')) (get_l_moment (base_obj s) (dname (cvar k) C) (S j) lw')
    (coords C) (coords C) (fun _ => True).
Proof.
  intros HD Hx. eapply alike_weaken; [intros i Hi _; exact (fit_eq g P P' C (cvar k) i HPP (proj2 W) Hi)|].
  apply (l_moment_alike (mix_obj self) (base_obj s) g Hc (cm_cube _ _ _ Hon) Hg P P' (lw || lw') lw' C C k HD HD); [|apply base_gives; try assumption; [exact (proj1 W)|apply cvar_nonempty]|exact Hx].
  apply G; [apply cvar_nonempty|exact HD].
Qed.
End Stat.
End Two.
End Mix.

(** the datacube of the mixture *)
Lemma mix_same_datacube W (K : list (component * R * joint)) self g n dv S v0 s :
  mix_on self g (map (fun m => fst (fst m)) K) (map (fun m => (snd m, snd (fst m))) K) ->
  Forall (fun m => evaluable (fst (fst m)) g (snd m) n dv S v0) K -> templates (c_ssps (mx_cube self)) g n dv S ->
  stored (mx_cube self) (mix_get_log_p self "tvxz" true true false) s ->
  forall b b', is_batch b -> is_batch b' ->
  exists ys y y', map_res (fun m => evaluate_ybar W (fst (fst m)) b) K = Ok ys /\
    mixture_ybar (map Some ys) (mx_weights self) = Ok y /\ evaluate_ybar W s b' = Ok y' /\
    shp y = [n; nx g; ny g] /\ shp y' = [n; nx g; ny g] /\
    forall w i j, (w < n)%nat -> (i < nx g)%nat -> (j < ny g)%nat -> ent y' [w; i; j] = ent y [w; i; j].
Proof.
  intros H HK HT Hs b b' Hb Hb'. set (l := map (fun m => (snd m, snd (fst m))) K) in *.
  assert (Hne : K <> []) by (intros E; apply (mo_ne _ _ _ _ H); unfold l; rewrite E; reflexivity).
  assert (HE : exists m0 : component * R * joint, evaluable (fst (fst m0)) g (snd m0) n dv S v0).
  { destruct K as [|m0 K']; [contradiction Hne; reflexivity|]. exists m0. inversion HK; assumption. }
  destruct HE as (m0 & HE). pose proof (ev_grid _ _ _ _ _ _ _ HE) as Hg.
  destruct (mix_again self g _ l H Hg s Hs) as [Ec Hon].
  assert (EF : forall t v x y z, mixf l t v x y z = combined (map (fun m => (snd (fst m), snd m)) K) t v x y z).
  { intros. unfold mixf, combined, l. rewrite !map_map. reflexivity. }
  assert (Hw : evaluable s g (combined (map (fun m => (snd (fst m), snd m)) K)) n dv S v0).
  { constructor; [|exact Hg| | |exact (ev_velocity _ _ _ _ _ _ _ HE)|exact (ev_knots _ _ _ _ _ _ _ HE)].
    - eapply comp_on_ext; [exact Hon|]. intros. apply EF.
    - intros t v x y z Ht Hv Hx Hy Hz. rewrite <- EF. apply (mixf_nonneg self g _ (mix_on_gen self g _ l H Hg) true); assumption.
    - rewrite Ec. exact HT. }
  destruct (mixture_density_claim W K g n dv S v0 s b b' Hne HK Hb Hb' Hw) as (ys & y & y' & E1 & E2 & E3 & S1 & S2 & He).
  exists ys, y, y'. split; [exact E1|]. split; [rewrite (mo_weights _ _ _ _ H); unfold l; rewrite map_map; exact E2|]. split; [exact E3|].
  split; [exact S1|]. split; [exact S2|]. intros w i j Hwn Hi Hj. symmetry. exact (proj1 (He w i j Hwn Hi Hj)).
Qed.

(** ** parametric components *)
Section Par.
Context (L : stats_lib) (self : par) (g : grid) (m : par_model).
Context (H : par_on L self g m) (Hg : good_grid g) (Hm : good_par g m).
Lemma par_stored lw : par_lw_ok g m lw true ->
  exists s, stored (pa_cube self) (par_get_log_p L self "tvxz" true lw) s /\ comp_cube s = pa_cube self /\
    comp_on s g (density_of g (weighted g (pjoint g m true) lw)).
Proof.
  intros Hl. destruct (par_p_marg L self g m H Hg Hm all_vars true lw eq_refl Hl) as (p & Ep & Hsp & He).
  unfold par_get_p, get_p_of in Ep. change (name all_vars) with "tvxz"%string in Ep. fold (par_get_log_p L self) in Ep.
  destruct (par_get_log_p L self "tvxz" true lw) as [a|e] eqn:Ea; [|discriminate Ep]. cbn [bind] in Ep. injection Ep as <-.
  apply (stored_on (pa_cube self) g (weighted g (pjoint g m true) lw) (Ok a) a (po_cube _ _ _ _ H) Hg eq_refl Hsp). intros i Hi. specialize (He i Hi). cbn [amap ent] in He.
  rewrite He. unfold pent, par_prob, pprob, weighted. cbn [has_v all_vars pgrid]. destruct i, lw; reflexivity.
Qed.
Lemma par_is lw s : par_lw_ok g m lw true -> stored (pa_cube self) (par_get_log_p L self "tvxz" true lw) s ->
  comp_on s g (density_of g (weighted g (pjoint g m true) lw)).
Proof. intros Hl Hs. destruct (par_stored lw Hl) as (s' & Hs' & Hcs & Hon). rewrite (stored_unique _ _ _ _ Hs Hs'). assumption. Qed.

Section Two.
Context (lw lw' : bool) (Hw : lw = false \/ lw' = false) (Hl : par_lw_ok g m (lw || lw') true).
Let Hl1 : par_lw_ok g m lw true. Proof. intros E. apply Hl. rewrite E. reflexivity. Qed.
Context (s : component) (Hs : stored (pa_cube self) (par_get_log_p L self "tvxz" true lw) s).
Let Hon := par_is lw s Hl1 Hs.
Let EP b S i : has_v S = true -> par_prob g m b S i = marg g (weighted g (pjoint g m true) b) S i.
Proof. intros E. unfold par_prob, pprob, weighted. rewrite E. destruct b; reflexivity. Qed.
Let HP : nonneg g (weighted g (pjoint g m true) lw).
Proof.
  intros t v x y z Ht Hv Hx Hy Hz. pose proof (par_prob_ge0 g m Hg Hm lw all_vars (Bin t v x y z) Hl1 ltac:(repeat split; assumption)) as K.
  rewrite EP in K by reflexivity. exact K.
Qed.
Lemma par_same_marg S density : has_v S = true ->
  alike g (par_get_p L self (name S) density (lw || lw')) (get_p s (name S) density lw') (coords S) (coords S) (fun _ => True).
Proof.
  intros Hv. assert (HS : nonempty S = true) by (unfold nonempty; rewrite Hv; destruct (has_t S); reflexivity).
  destruct (par_p_marg L self g m H Hg Hm S density (lw || lw') HS ltac:(rewrite Hv; exact Hl)) as (a & Ea & _ & Ha).
  destruct (stored_p_marg s g (pjoint g m true) lw lw' Hg HP Hw Hl Hon S density HS) as (b & Eb & _ & Hb).
  exists a, b. split; [exact Ea|]. split; [exact Eb|]. intros i Hi _. rewrite Ha, Hb by exact Hi. unfold pent. rewrite EP by exact Hv. reflexivity.
Qed.
Lemma par_same_cond A C density : nonempty A = true -> has_v C = true -> disjoint A C = true ->
  let at_i := fun i => (coords A i ++ coords C i)%list in
  alike g (par_get_p L self (cname A C) density (lw || lw')) (get_p s (cname A C) density lw') at_i at_i (fun _ => True).
Proof.
  intros HA Hv HD at_i. assert (HC : nonempty C = true) by (unfold nonempty; rewrite Hv; destruct (has_t C); reflexivity).
  assert (HvU : has_v (union A C) = true) by (cbn; rewrite Hv; apply orb_true_r).
  assert (Hn : ~ In (cname A C) ["x_t"; "z_tx"; "v_tx"]%string).
  { revert Hv. clear. destruct A as [[] [] [] []], C as [[] [] [] []]; cbn; intros E; try discriminate E; intuition discriminate. }
  destruct (par_cond_claim L self g m H Hg Hm A C density (lw || lw') HA HC HD ltac:(rewrite HvU; exact Hl)) as (a & Ea & _ & Ha).
  { intros _ K. apply Hn. right. right. left. symmetry. exact K. }
  destruct (stored_p_cond s g (pjoint g m true) lw lw' Hg HP Hw Hl Hon A C density HA HC HD) as (b & Eb & _ & Hb).
  exists a, b. split; [exact Ea|]. split; [exact Eb|]. intros i Hi _. unfold at_i. destruct (Ha i Hi) as [A1 A2]. destruct (Hb i Hi) as [B1 B2].
  rewrite (EP _ C i Hv), (EP _ (union A C) i HvU) in A1. rewrite (EP _ C i Hv) in A2.
  destruct (marg_nonneg g _ C i Hi (stored_P_nonneg g (pjoint g m true) lw lw' Hg HP Hw Hl)) as [Hp|Hz].
  - rewrite (A1 Hp). symmetry. exact (B1 Hp).
  - symmetry in Hz. rewrite (A2 Hz (or_intror Hn)). symmetry. exact (B2 Hz).
Qed.
End Two.
(** without the velocity the stored component misses the mass outside the range
    of velocities *)
Lemma par_less_marg s S : stored (pa_cube self) (par_get_log_p L self "tvxz" true false) s -> nonempty S = true -> has_v S = false ->
  exists a b, par_get_p L self (name S) false false = Ok a /\ get_p s (name S) false false = Ok b /\
    forall i, in_grid g i -> exists p q, ent a (coords S i) = Fin p /\ ent b (coords S i) = Fin q /\ q <= p /\
      p - q = marg (flat g) (fun t _ x y z => txz_mass g m t x y z *
        (pm_F m ((vE g 0 - pm_mu m t x y) / pm_sig m t x y) + (1 - pm_F m ((vE g (nv g) - pm_mu m t x y) / pm_sig m t x y)))) S i.
Proof.
  intros Hs HS Hv. assert (Hf : par_lw_ok g m false true) by discriminate.
  pose proof (par_is false s Hf Hs) as Hon.
  assert (HP : nonneg g (weighted g (pjoint g m true) false)).
  { intros t v x y z Ht Hv' Hx Hy Hz. pose proof (par_prob_ge0 g m Hg Hm false all_vars (Bin t v x y z) Hf ltac:(repeat split; assumption)) as K. exact K. }
  destruct (lost_claim L self g m H Hg Hm S HS Hv) as (a & b & Ea & Eb & Hab).
  destruct (stored_p_marg s g (pjoint g m true) false false Hg HP (or_introl eq_refl) Hf Hon S false HS) as (c & Ec & _ & Hcc).
  exists a, c. split; [exact Ea|]. split; [exact Ec|]. intros i Hi. destruct (Hab i Hi) as (p & q & Hp & Hq & E).
  exists p, (Sum (nv g) q). split; [exact Hp|].
  assert (Eq : marg g (pjoint g m true) S i = Sum (nv g) q).
  { destruct (par_p_marg L self g m H Hg Hm (with_v true S) false false ltac:(unfold nonempty, with_v; cbn; destruct (has_t S); reflexivity) ltac:(discriminate)) as (b' & Eb' & _ & Hb').
    rewrite Eb in Eb'. injection Eb' as <-.
    transitivity (Sum (nv g) (fun v => marg g (pjoint g m true) (with_v true S) (set_v v i))).
    - clear -Hv. destruct S as [st sv sx sz], i as [t v x y z]. cbn in Hv. subst sv. unfold marg, over, with_v, set_v. cbn [has_t has_v has_x has_z bt bv bx by_ bz].
      destruct st; [reflexivity|]. apply Sum_swap.
    - apply Sum_ext. intros v Hvv. specialize (Hq v Hvv). rewrite Hb' in Hq by (destruct Hi as (? & ? & ? & ? & ?); repeat split; assumption).
      injection Hq as Hq. rewrite <- Hq. unfold pent, par_prob, pprob. cbn [has_v with_v pgrid]. unfold Rdiv. rewrite Rinv_1, Rmult_1_r. reflexivity. }
  split; [rewrite Hcc by exact Hi; cbn [weighted orb]; rewrite Eq; f_equal; unfold Rdiv; rewrite Rinv_1, Rmult_1_r; reflexivity|].
  split; [|exact E].
  assert (K : 0 <= p - Sum (nv g) q).
  { rewrite E. clear -Hg Hm Hv Hi.
    match goal with |- 0 <= marg _ ?h _ _ => apply Rle_trans with (marg (flat g) h S (set_v 0 i)) end.
    - apply marg_nonneg; [destruct Hi as (? & ? & ? & ? & ?); repeat split; cbn; try assumption; lia|].
      intros t v x y z Ht _ Hx Hy Hz. cbn in Ht, Hx, Hy, Hz. apply Rmult_le_pos; [apply txz_nonneg; assumption|].
      match goal with |- 0 <= pm_F m ?a + (1 - pm_F m ?b) => pose proof (gp_F _ _ Hm a); pose proof (gp_F _ _ Hm b); lra end.
    - right. destruct S as [st sv sx sz], i as [t v x y z]. cbn in Hv. subst sv. reflexivity. }
  lra.
Qed.
End Par.

(** ** one particle per bin *)
Lemma mid_in n E k : (k < n)%nat -> (forall a, (a < n)%nat -> E a < E (S a)) -> in_bin n E k (Fin (mid E k)) = true.
Proof.
  intros Hk HE. cbn [in_bin]. apply orb_true_iff. left. pose proof (HE k Hk). unfold mid. apply andb_true_iff. split; [apply Rleb_iff|apply Rltb_iff]; lra.
Qed.
Lemma centre_inside g i : good_grid g -> in_grid g i -> inside g i (centre g i) = true.
Proof.
  intros Hg (Ht & Hv & Hx & Hy & Hz). unfold inside, centre. cbn [p_t p_v p_x1 p_x2 p_z].
  rewrite !mid_in; try reflexivity; try assumption; intros a Ha; apply Hg; assumption.
Qed.
Lemma centre_only g i j : good_grid g -> in_grid g i -> in_grid g j -> inside g i (centre g j) = true -> i = j.
Proof.
  intros Hg Hi Hj HI. pose proof (inside_bounds g Hg j _ Hj (centre_inside g j Hg Hj)) as HB.
  destruct (one_bin g Hg _ HB) as (k & _ & _ & Hu). rewrite (Hu i Hi HI), (Hu j Hj (centre_inside g j Hg Hj)). reflexivity.
Qed.
Lemma pick n k (F : nat -> R) : (k < n)%nat -> Sum n (fun q => if Nat.eqb k q then F q else 0) = F k.
Proof.
  intros Hk. rewrite (Sum_single n _ k Hk); [rewrite Nat.eqb_refl; reflexivity|]. intros q _ Hq.
  destruct (Nat.eqb_spec k q) as [E|_]; [symmetry in E; contradiction|reflexivity].
Qed.
Lemma Sum_none n (F : nat -> R) : (forall q, (q < n)%nat -> F q = 0) -> Sum n F = 0.
Proof. intros E. rewrite (Sum_ext n F (fun _ => 0) E). apply Sum_0. Qed.
Lemma pick_bin g i (F : bin -> R) : in_grid g i ->
  sum_over g all_vars first_bin (fun j => if Nat.eqb (bt i) (bt j) && Nat.eqb (bv i) (bv j) && Nat.eqb (bx i) (bx j) && Nat.eqb (by_ i) (by_ j) && Nat.eqb (bz i) (bz j)
    then F j else 0) = F i.
Proof.
  destruct i as [t v x y z]. intros (Ht & Hv & Hx & Hy & Hz). unfold sum_over, sum_if. cbn [has_t has_v has_x has_z all_vars bt bv bx by_ bz] in *.
  etransitivity; [|exact (pick (nt g) t (fun t' => F (Bin t' v x y z)) Ht)]. apply Sum_ext. intros t' _. destruct (Nat.eqb t t'); cbn [andb];
    [|apply Sum_none; intros; apply Sum_none; intros; apply Sum_none; intros; apply Sum_none; reflexivity].
  etransitivity; [|exact (pick (nv g) v (fun v' => F (Bin t' v' x y z)) Hv)]. apply Sum_ext. intros v' _. destruct (Nat.eqb v v'); cbn [andb];
    [|apply Sum_none; intros; apply Sum_none; intros; apply Sum_none; reflexivity].
  etransitivity; [|exact (pick (nx g) x (fun x' => F (Bin t' v' x' y z)) Hx)]. apply Sum_ext. intros x' _. destruct (Nat.eqb x x'); cbn [andb];
    [|apply Sum_none; intros; apply Sum_none; reflexivity].
  etransitivity; [|exact (pick (ny g) y (fun y' => F (Bin t' v' x' y' z)) Hy)]. apply Sum_ext. intros y' _. destruct (Nat.eqb y y'); cbn [andb];
    [|apply Sum_none; reflexivity].
  exact (pick (nz g) z (fun z' => F (Bin t' v' x' y' z')) Hz).
Qed.
Lemma all_bins_in g j : In j (bins_over g all_vars first_bin) -> in_grid g j.
Proof.
  unfold bins_over, range_if. cbn [has_t has_v has_x has_z all_vars]. rewrite in_flat_map. intros (t & Ht & Hj). apply in_seq in Ht.
  rewrite in_flat_map in Hj. destruct Hj as (v & Hv & Hj). apply in_seq in Hv. rewrite in_flat_map in Hj. destruct Hj as (x & Hx & Hj). apply in_seq in Hx.
  rewrite in_flat_map in Hj. destruct Hj as (y & Hy & Hj). apply in_seq in Hy. apply in_map_iff in Hj. destruct Hj as (z & <- & Hz). apply in_seq in Hz.
  repeat split; cbn; lia.
Qed.
Lemma weight_centres g P i : good_grid g -> in_grid g i -> weight (inside g i) (centres g P) = P (bt i) (bv i) (bx i) (by_ i) (bz i).
Proof.
  intros Hg Hi. unfold weight, centres. rewrite map_map. cbn [fst snd].
  etransitivity; [|exact (pick_bin g i (fun j => P (bt j) (bv j) (bx j) (by_ j) (bz j)) Hi)].
  rewrite <- sum_bins_over. apply SpecLemmas.sumR_map_ext. intros j Hj. apply all_bins_in in Hj.
  destruct (inside g i (centre g j)) eqn:E.
  - apply centre_only in E; try assumption. subst j. rewrite !Nat.eqb_refl. reflexivity.
  - destruct (Nat.eqb (bt i) (bt j) && Nat.eqb (bv i) (bv j) && Nat.eqb (bx i) (bx j) && Nat.eqb (by_ i) (by_ j) && Nat.eqb (bz i) (bz j)) eqn:F; [|reflexivity].
    rewrite !andb_true_iff, !Nat.eqb_eq in F. destruct F as ((((F1 & F2) & F3) & F4) & F5).
    assert (K : i = j) by (destruct i, j; cbn in *; congruence). subst j. rewrite centre_inside in E by assumption. discriminate E.
Qed.
Lemma weight_all_centres g P : good_grid g -> weight (in_bounds g) (centres g P) = total g P.
Proof.
  intros Hg. unfold weight, centres. rewrite map_map. cbn [fst snd].
  transitivity (sum_over g all_vars first_bin (fun j => P (bt j) (bv j) (bx j) (by_ j) (bz j))); [|reflexivity].
  rewrite <- sum_bins_over. apply SpecLemmas.sumR_map_ext. intros j Hj. apply all_bins_in in Hj.
  rewrite (inside_bounds g Hg j _ Hj (centre_inside g j Hg Hj)). reflexivity.
Qed.
(** the component *)
Lemma centres_claim c g P : cube_on c g -> good_grid g -> 0 < total g P ->
  exists note comp, from_particle c (map fst (centres g P)) (Some (map Fin (map snd (centres g P)))) = Ok (note, comp) /\
    n_lost note = 0%nat /\ comp_on comp g (fun t v x y z => density_of g P t v x y z / total g P).
Proof.
  intros Hc Hg HP. destruct (density_claim c g Hc Hg (centres g P) ltac:(rewrite weight_all_centres by assumption; exact HP)) as (comp & E & Hon).
  exists (note_of g (map fst (centres g P))), comp. split; [exact E|]. split.
  - unfold note_of. cbn [n_lost].
    assert (K : forall l, (forall p, In p l -> in_bounds g p = true) -> count (fun p => negb (in_bounds g p)) l = 0%nat).
    { unfold count. induction l as [|p l IH]; intros K; [reflexivity|]. cbn [filter]. rewrite (K p (or_introl eq_refl)). cbn [negb]. apply IH. intros q Hq. apply K. right. exact Hq. }
    apply K. unfold centres. rewrite map_map. cbn [fst]. intros p Hp. apply in_map_iff in Hp. destruct Hp as (j & <- & Hj). apply all_bins_in in Hj.
    exact (inside_bounds g Hg j _ Hj (centre_inside g j Hg Hj)).
  - eapply comp_on_ext; [exact Hon|]. intros t v x y z Hi. unfold particle_density, density_of. rewrite weight_all_centres, weight_centres by assumption.
    cbn [bt bv bx by_ bz]. unfold vol, ifw, all_vars. cbn [has_t has_v has_x has_z bt bv bx by_ bz]. unfold Rdiv. ring.
Qed.
