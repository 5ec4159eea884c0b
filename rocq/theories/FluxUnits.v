(** * FluxUnits: templates in other units of flux. *)
From Coq Require Import Reals Lra Lia List Bool Arith ZArith String Ascii FunctionalExtensionality Sorted.
From Verif Require Import Num NumLemmas Arr ArrLemmas PyStr Cube Base Spec SpecLemmas Repr DistLemmas Moments MomSpec MomArr MomLemmas MomClaims
  Parametric ParSpec ParRepr ParLemmas ParDist ParClaims ParMoments GaussSpec ParMomSpec ParMomLemmas ParMomClaims ParMomOther
  Mixture MixSpec MixGen MixLemmas MixCond MixMom MixExample MixParSpec MixParLemmas MixParClaims MixParExample MixRegroup
  Fft ReadMiles ReadMiles Ssps ParYbarSpec ParEval SspLemmas SspFlow FourierSpec DatacubeSpec Datacube DatacubeClaims ParYbar ParEvalLemmas ParEvalClaims Noise NoiseLemmas SharingLemmas FluxUnitsSpec.
Import ListNotations.
Local Open Scope R_scope.


Section Units.
Context (k : R) (Hk : 0 < k).

Lemma brighter_good g : good_grid g -> good_grid (brighter k g).
Proof.
  intros [H1 H2 H3 H4 H5 H6 H7 H8 H9 H10 H11]. constructor; try assumption.
  intros t z Ht Hz. cbn. apply Rmult_le_pos; [lra|apply H11; assumption].
Qed.
Lemma lit_bright g P : lit (brighter k g) P = fun t v x y z => k * lit g P t v x y z.
Proof. do 5 (apply functional_extensionality; intros ?). unfold lit. cbn [Lw brighter]. ring. Qed.
Lemma total_bright g P : total (brighter k g) (lit (brighter k g) P) = k * total g (lit g P).
Proof. rewrite lit_bright. exact (total_scal g (lit g P) k). Qed.
Lemma light_bright g P : 0 < total g (lit g P) -> light (brighter k g) P = light g P.
Proof.
  intros HT. do 5 (apply functional_extensionality; intros ?). unfold light. rewrite total_bright, lit_bright. field. split; lra.
Qed.
Lemma lit_ok_bright g P lw : lit_ok g P lw -> lit_ok (brighter k g) P lw.
Proof. intros H E. rewrite total_bright. apply Rmult_lt_0_compat; [exact Hk|apply H, E]. Qed.
Lemma weighted_bright g P lw : lit_ok g P lw -> weighted (brighter k g) lw P = weighted g lw P.
Proof. intros H. destruct lw; [|reflexivity]. apply light_bright. apply H. reflexivity. Qed.
Lemma lw_ok_bright g f lw : lw_ok g f lw -> lw_ok (brighter k g) f lw.
Proof. exact (lit_ok_bright g (mass g f) lw). Qed.
Lemma prob_bright g f lw : lw_ok g f lw -> prob (brighter k g) f lw = prob g f lw.
Proof. exact (weighted_bright g (mass g f) lw). Qed.

(** ** base components *)
Section Base.
Context (c c' : component) (g : grid) (f : joint) (Hon : comp_on c g f) (Hon' : comp_on c' (brighter k g) f) (Hg : good_grid g) (Hf : nonneg g f).
Let Hg' := brighter_good g Hg.
Let Hf' : nonneg (brighter k g) f := Hf.
Lemma bright_marg S density lw : nonempty S = true -> lw_ok g f lw ->
  exists a b, get_p c (name S) density lw = Ok a /\ get_p c' (name S) density lw = Ok b /\ shp a = dims S g /\ shp b = dims S g /\
    forall i, in_grid g i -> ent a (coords S i) = ent b (coords S i).
Proof.
  intros HS Hl. destruct (get_p_marg c g f Hon Hg Hf S density lw HS Hl) as (a & Ea & Hs & He).
  destruct (get_p_marg c' (brighter k g) f Hon' Hg' Hf' S density lw HS (lw_ok_bright g f lw Hl)) as (b & Eb & Hs' & He').
  exists a, b. do 4 (split; [assumption|]). intros i Hi. rewrite He, He' by assumption. rewrite prob_bright by exact Hl. reflexivity.
Qed.
Lemma bright_cond A C density lw : nonempty A = true -> nonempty C = true -> disjoint A C = true -> lw_ok g f lw ->
  exists a b, get_p c (cname A C) density lw = Ok a /\ get_p c' (cname A C) density lw = Ok b /\
    shp a = (dims A g ++ dims C g)%list /\ shp b = (dims A g ++ dims C g)%list /\
    forall i, in_grid g i -> ent a (coords A i ++ coords C i) = ent b (coords A i ++ coords C i).
Proof.
  intros HA HC HD Hl. destruct (get_p_cond c g f Hon Hg Hf A C density lw HA HC HD Hl) as (a & Ea & Hs & He).
  destruct (get_p_cond c' (brighter k g) f Hon' Hg' Hf' A C density lw HA HC HD (lw_ok_bright g f lw Hl)) as (b & Eb & Hs' & He').
  exists a, b. do 4 (split; [assumption|]). intros i Hi. destruct (He i Hi) as [A1 A2]. destruct (He' i Hi) as [B1 B2].
  rewrite (prob_bright g f lw Hl) in B1, B2.
  destruct (marg_nonneg g _ C i Hi (prob_nonneg g f lw Hg Hf Hl)) as [Hp|Hz].
  - rewrite (A1 Hp). symmetry. exact (B1 Hp).
  - symmetry in Hz. rewrite (A2 Hz). symmetry. exact (B2 Hz).
Qed.
Section Mom.
Context (q : coord) (C : vset) (lw : bool) (Hl : lw_ok g f lw) (HD : disjoint (cvar q) C = true).
Context (HT : nonempty C = false -> lw = false -> total g (mass g f) = 1).
Let HT1 : nonempty C = false -> total g (prob g f lw) = 1.
Proof. intros E. destruct lw eqn:El; [apply total_light; apply Rgt_not_eq, Hl; reflexivity|apply HT; auto]. Qed.
Let HT2 : nonempty C = false -> total (brighter k g) (prob (brighter k g) f lw) = 1.
Proof. intros E. rewrite prob_bright by exact Hl. exact (HT1 E). Qed.
Lemma bright_mean : exists a b, get_mean (base_obj c) (dname (cvar q) C) lw = Ok a /\ get_mean (base_obj c') (dname (cvar q) C) lw = Ok b /\
    shp a = mdims q C g /\ shp b = mdims q C g /\ forall i, in_grid g i -> ent a (mcoords q C i) = ent b (mcoords q C i).
Proof.
  destruct (mean_claim c g f lw Hon Hg Hf Hl q C HD HT1) as (a & Ea & Hs & He).
  destruct (mean_claim c' (brighter k g) f lw Hon' Hg' Hf' (lw_ok_bright g f lw Hl) q C HD HT2) as (b & Eb & Hs' & He').
  exists a, b. do 4 (split; [assumption|]). intros i Hi. destruct (He i Hi) as [A1 A2]. destruct (He' i Hi) as [B1 B2].
  rewrite (prob_bright g f lw Hl) in B1, B2.
  destruct (marg_nonneg g _ C i Hi (prob_nonneg g f lw Hg Hf Hl)) as [Hp|Hz].
  - rewrite (proj1 (A1 Hp)). symmetry. exact (proj1 (B1 Hp)).
  - symmetry in Hz. rewrite (A2 Hz). symmetry. exact (B2 Hz).
Qed.
Lemma bright_central j : exists a b, get_central_moment (base_obj c) (dname (cvar q) C) j lw = Ok a /\
    get_central_moment (base_obj c') (dname (cvar q) C) j lw = Ok b /\
    shp a = mdims q C g /\ shp b = mdims q C g /\ forall i, in_grid g i -> ent a (mcoords q C i) = ent b (mcoords q C i).
Proof.
  destruct (MomClaims.central_claim c g f lw Hon Hg Hf Hl q C HD HT1 j) as (a & Ea & Hs & He).
  destruct (MomClaims.central_claim c' (brighter k g) f lw Hon' Hg' Hf' (lw_ok_bright g f lw Hl) q C HD HT2 j) as (b & Eb & Hs' & He').
  exists a, b. do 4 (split; [assumption|]). intros i Hi. destruct (He i Hi) as [A1 A2]. destruct (He' i Hi) as [B1 B2].
  rewrite (prob_bright g f lw Hl) in B1, B2.
  destruct (marg_nonneg g _ C i Hi (prob_nonneg g f lw Hg Hf Hl)) as [Hp|Hz].
  - rewrite (A1 Hp). symmetry. exact (B1 Hp).
  - symmetry in Hz. rewrite (A2 Hz). symmetry. exact (B2 Hz).
Qed.
End Mom.
End Base.

(** ** parametric components *)
Lemma pgrid_bright g b : pgrid (brighter k g) b = brighter k (pgrid g b).
Proof. destruct b; reflexivity. Qed.
Lemma par_lw_ok_bright g m lw b : par_lw_ok g m lw b -> par_lw_ok (brighter k g) m lw b.
Proof.
  intros H E. rewrite pgrid_bright.
  change (0 < total (brighter k (pgrid g b)) (lit (brighter k (pgrid g b)) (pjoint g m b))).
  rewrite total_bright. apply Rmult_lt_0_compat; [exact Hk|apply H, E].
Qed.
Lemma pprob_bright g m lw b : par_lw_ok g m lw b -> pprob (brighter k g) m lw b = pprob g m lw b.
Proof.
  intros H. unfold pprob. destruct lw; [|reflexivity]. rewrite pgrid_bright.
  change (light (brighter k (pgrid g b)) (pjoint g m b) = light (pgrid g b) (pjoint g m b)). apply light_bright. apply H. reflexivity.
Qed.
Lemma par_prob_bright g m lw S i : par_lw_ok g m lw (has_v S) -> par_prob (brighter k g) m lw S i = par_prob g m lw S i.
Proof. intros H. unfold par_prob. rewrite pprob_bright by exact H. destruct (has_v S); reflexivity. Qed.
Lemma par_joint_bright g m lw b : par_lw_ok g m lw b -> par_joint (brighter k g) m lw b = par_joint g m lw b.
Proof.
  intros H. unfold par_joint. do 5 (apply functional_extensionality; intros ?). destruct b; rewrite pprob_bright by exact H; reflexivity.
Qed.
Section Par.
Context (L : stats_lib) (s s' : par) (g : grid) (m : par_model) (Hon : par_on L s g m) (Hon' : par_on L s' (brighter k g) m).
Context (Hg : good_grid g) (Hm : good_par g m).
Let Hg' := brighter_good g Hg.
Lemma good_par_bright : good_par (brighter k g) m.
Proof. destruct Hm. constructor; assumption. Qed.
Lemma bright_par_marg S density lw : nonempty S = true -> par_lw_ok g m lw (has_v S) ->
  exists a b, par_get_p L s (name S) density lw = Ok a /\ par_get_p L s' (name S) density lw = Ok b /\ shp a = dims S g /\ shp b = dims S g /\
    forall i, in_grid g i -> ent a (coords S i) = ent b (coords S i).
Proof.
  intros HS Hl. destruct (par_p_marg L s g m Hon Hg Hm S density lw HS Hl) as (a & Ea & Hs & He).
  destruct (par_p_marg L s' (brighter k g) m Hon' Hg' good_par_bright S density lw HS (par_lw_ok_bright g m lw _ Hl)) as (b & Eb & Hs' & He').
  exists a, b. do 4 (split; [assumption|]). intros i Hi. rewrite He, He' by assumption. unfold pent. rewrite par_prob_bright by exact Hl. reflexivity.
Qed.
Lemma bright_par_cond A C density lw : nonempty A = true -> nonempty C = true -> disjoint A C = true ->
  par_lw_ok g m lw (has_v (union A C)) -> par_lw_ok g m lw (has_v C) -> (lw = true -> cname A C <> "v_tx"%string) ->
  exists a b, par_get_p L s (cname A C) density lw = Ok a /\ par_get_p L s' (cname A C) density lw = Ok b /\
    shp a = (dims A g ++ dims C g)%list /\ shp b = (dims A g ++ dims C g)%list /\
    forall i, in_grid g i -> 0 < par_prob g m lw C i \/ lw = true -> ent a (coords A i ++ coords C i) = ent b (coords A i ++ coords C i).
Proof.
  intros HA HC HD Hl Hl2 Hv. destruct (par_cond_claim L s g m Hon Hg Hm A C density lw HA HC HD Hl Hv) as (a & Ea & Hs & He).
  destruct (par_cond_claim L s' (brighter k g) m Hon' Hg' good_par_bright A C density lw HA HC HD (par_lw_ok_bright g m lw _ Hl) Hv) as (b & Eb & Hs' & He').
  exists a, b. do 4 (split; [assumption|]). intros i Hi Hq. destruct (He i Hi) as [A1 A2]. destruct (He' i Hi) as [B1 B2].
  rewrite (par_prob_bright g m lw C i Hl2) in B1, B2. rewrite (par_prob_bright g m lw (union A C) i Hl) in B1.
  pose proof (par_prob_ge0 g m Hg Hm lw C i Hl2 Hi) as NN.
  destruct NN as [Hp|Hz].
  - rewrite (A1 Hp). symmetry. exact (B1 Hp).
  - symmetry in Hz. destruct Hq as [Hp|El]; [rewrite Hz in Hp; exfalso; lra|]. rewrite (A2 Hz (or_introl El)). symmetry. exact (B2 Hz (or_introl El)).
Qed.
End Par.

(** ** mixtures *)
Lemma kmass_bright g a b : kmass (brighter k g) a b = kmass g a b.
Proof. destruct a as [f|m]; [reflexivity|]. apply par_joint_bright. discriminate. Qed.
Lemma kmix_bright g l b : kmix (brighter k g) l b = kmix g l b.
Proof. unfold kmix. do 5 (apply functional_extensionality; intros ?). apply Sum_ext. intros q _. rewrite kmass_bright. reflexivity. Qed.
Section Mix.
Context (s s' : mixture) (g : grid) (l : kinds) (Hon : mixed_on s g l) (Hon' : mixed_on s' (brighter k g) l) (Hg : good_grid g).
Let Hg' := brighter_good g Hg.
Lemma bright_mix_marg S density lw : nonempty S = true -> lit_ok g (kmix g l (has_v S)) lw ->
  exists a b, mix_get_p s (name S) true density lw = Ok a /\ mix_get_p s' (name S) true density lw = Ok b /\
    shp a = dims S g /\ shp b = dims S g /\ forall i, in_grid g i -> ent a (coords S i) = ent b (coords S i).
Proof.
  intros HS Hl. destruct (mixed_marg_claim s g l Hon Hg S density lw HS Hl) as (a & a' & Ea & _ & Hs & _ & He).
  assert (Hl' : lit_ok (brighter k g) (kmix (brighter k g) l (has_v S)) lw) by (rewrite kmix_bright; apply lit_ok_bright; exact Hl).
  destruct (mixed_marg_claim s' (brighter k g) l Hon' Hg' S density lw HS Hl') as (b & b' & Eb & _ & Hs' & _ & He').
  exists a, b. do 4 (split; [assumption|]). intros i Hi. rewrite (proj1 (He i Hi)). symmetry. etransitivity; [exact (proj1 (He' i Hi))|].
  rewrite kmix_bright, weighted_bright by exact Hl. reflexivity.
Qed.
Lemma bright_mix_cond A C density lw : nonempty A = true -> nonempty C = true -> disjoint A C = true ->
  lit_ok g (kmix g l (has_v (union A C))) lw -> lit_ok g (kmix g l (has_v C)) lw ->
  exists a b, mix_get_p s (cname A C) true density lw = Ok a /\ mix_get_p s' (cname A C) true density lw = Ok b /\
    shp a = (dims A g ++ dims C g)%list /\ shp b = (dims A g ++ dims C g)%list /\
    forall i, in_grid g i -> ent a (coords A i ++ coords C i) = ent b (coords A i ++ coords C i).
Proof.
  intros HA HC HD Hl Hl2. destruct (mixed_cond_claim s g l Hon Hg A C density lw HA HC HD Hl) as (a & a' & Ea & _ & Hs & _ & He).
  assert (Hl' : lit_ok (brighter k g) (kmix (brighter k g) l (has_v (union A C))) lw) by (rewrite kmix_bright; apply lit_ok_bright; exact Hl).
  destruct (mixed_cond_claim s' (brighter k g) l Hon' Hg' A C density lw HA HC HD Hl') as (b & b' & Eb & _ & Hs' & _ & He').
  exists a, b. do 4 (split; [assumption|]). intros i Hi. destruct (He i Hi) as (P1 & _ & Z1 & _). destruct (He' i Hi) as (P2 & _ & Z2 & _).
  rewrite (kmix_bright g l (has_v C)), (weighted_bright g _ lw Hl2) in P2, Z2.
  rewrite (kmix_bright g l (has_v (union A C))), (weighted_bright g _ lw Hl) in P2.
  destruct (kmix_marg_nonneg s g l Hon Hg _ _ C i Hl2 Hi) as [Hp|Hz].
  - rewrite (P1 Hp). symmetry. exact (P2 Hp).
  - symmetry in Hz. rewrite (Z1 Hz). symmetry. exact (Z2 Hz).
Qed.
Section One.
Context (lw : bool) (C : vset).
Context (Hm : forall q, (q < List.length l)%nat -> lit_ok g (kmass g (kk l q) (has_v C)) lw).
Context (Hlv : lw = true -> has_v C = false).
Context (HN : nonempty C = false -> lw = false -> k_normal g l).
Let Hm' : forall q, (q < List.length l)%nat -> lit_ok (brighter k g) (kmass (brighter k g) (kk l q) (has_v C)) lw.
Proof. intros q Hq. rewrite kmass_bright. apply lit_ok_bright. apply Hm. exact Hq. Qed.
Let HN' : nonempty C = false -> lw = false -> k_normal (brighter k g) l.
Proof. intros E1 E2. destruct (HN E1 E2) as [A B]. split; [exact A|]. intros q Hq. rewrite kmass_bright. exact (B q Hq). Qed.
Lemma kmix_lit : lit_ok g (kmix g l (has_v C)) lw.
Proof.
  intros El. pose proof (lights_lw_ok s g (kl g l) (mixed_gen s g l Hon Hg) (has_v C) lw (mixed_lights g l Hg lw C Hm) El) as TT.
  rewrite (total_ext g _ _ (lit_ext g _ _ (mass_mix g Hg l (has_v C)))) in TT. exact TT.
Qed.
Lemma there_bright i : all_there (brighter k g) l lw C i <-> all_there g l lw C i.
Proof.
  unfold all_there. split; intros T q Hq; specialize (T q Hq); rewrite kmass_bright, weighted_bright in * by (apply Hm; exact Hq); exact T.
Qed.
Lemma missing_bright i : some_missing (brighter k g) l lw C i <-> some_missing g l lw C i.
Proof.
  unfold some_missing. split; intros (q & Hq & T); exists q; (split; [exact Hq|]); rewrite kmass_bright, weighted_bright in * by (apply Hm; exact Hq); exact T.
Qed.
Section Other.
Context (q : coord) (HD : disjoint (cvar q) C = true) (Hq : q <> Cv).
Context (Hh : forall p m, (p < List.length l)%nat -> kk l p = KPar m -> no_holes g m lw (cvar q) C).
Let Hh' : forall p m, (p < List.length l)%nat -> kk l p = KPar m -> no_holes (brighter k g) m lw (cvar q) C.
Proof.
  intros p m Hp E El Hin i Hi. rewrite par_prob_bright; [exact (Hh p m Hp E El Hin i Hi)|]. rewrite El. discriminate.
Qed.
Lemma bright_mix_mean : exists a b, mix_mean s (dname (cvar q) C) lw = Ok a /\ mix_mean s' (dname (cvar q) C) lw = Ok b /\
  shp a = mdims q C g /\ shp b = mdims q C g /\ forall i, in_grid g i -> ent a (mcoords q C i) = ent b (mcoords q C i).
Proof.
  destruct (mixed_mean_claim s g l Hon Hg lw q C Hm HD Hlv HN Hq Hh) as (a & Ea & Hs & He).
  destruct (mixed_mean_claim s' (brighter k g) l Hon' Hg' lw q C Hm' HD Hlv HN' Hq Hh') as (b & Eb & Hs' & He').
  exists a, b. do 4 (split; [assumption|]). intros i Hi. destruct (He i Hi) as [A1 M1]. destruct (He' i Hi) as [A2 M2].
  rewrite there_bright, kmix_bright, (weighted_bright g _ lw kmix_lit) in A2. rewrite missing_bright in M2.
  destruct (there_or_not s g l Hon Hg lw C Hm i Hi) as [T|T].
  - rewrite (A1 T). symmetry. exact (A2 T).
  - rewrite (M1 T). symmetry. exact (M2 T).
Qed.
Lemma bright_mix_central j : exists a b, mix_central_moment s (dname (cvar q) C) j lw = Ok a /\ mix_central_moment s' (dname (cvar q) C) j lw = Ok b /\
  shp a = mdims q C g /\ shp b = mdims q C g /\ forall i, in_grid g i -> ent a (mcoords q C i) = ent b (mcoords q C i).
Proof.
  destruct (mixed_central_claim s g l Hon Hg lw q C Hm HD Hlv HN Hq Hh j) as (a & Ea & Hs & He).
  destruct (mixed_central_claim s' (brighter k g) l Hon' Hg' lw q C Hm' HD Hlv HN' Hq Hh' j) as (b & Eb & Hs' & He').
  exists a, b. do 4 (split; [assumption|]). intros i Hi. destruct (He i Hi) as [A1 M1]. destruct (He' i Hi) as [A2 M2].
  rewrite there_bright, kmix_bright, (weighted_bright g _ lw kmix_lit) in A2. rewrite missing_bright in M2.
  destruct (there_or_not s g l Hon Hg lw C Hm i Hi) as [T|T].
  - rewrite (A1 T). symmetry. exact (A2 T).
  - rewrite (M1 T). symmetry. exact (M2 T).
Qed.
End Other.
Section Velocity.
Context (Hv : has_v C = false).
Let par_ok q m : (q < List.length l)%nat -> kk l q = KPar m -> par_lw_ok g m lw false.
Proof. intros Hq E. pose proof (Hm q Hq) as K. rewrite E, Hv in K. apply (par_lit_ok g Hg m lw false). exact K. Qed.
Let rest_v : has_v (union (rest C) C) = false.
Proof. destruct C as [[] [] [] []]; try discriminate Hv; reflexivity. Qed.
Lemma over_rest_bright m i G : par_lw_ok g m lw false -> over_rest (brighter k g) m lw C i G = over_rest g m lw C i G.
Proof.
  intros Hp. unfold over_rest, weight.
  change (sum_over g (rest C) i (fun b => par_prob (brighter k g) m lw (union (rest C) C) b / par_prob (brighter k g) m lw C i * G (bt b) (bx b) (by_ b)) =
    sum_over g (rest C) i (fun b => par_prob g m lw (union (rest C) C) b / par_prob g m lw C i * G (bt b) (bx b) (by_ b))).
  f_equal. apply functional_extensionality. intros b. rewrite !par_prob_bright by (rewrite ?rest_v, ?Hv; exact Hp). reflexivity.
Qed.
Lemma k_v_mean_bright q i : (q < List.length l)%nat -> k_v_mean (brighter k g) (kk l q) lw C i = k_v_mean g (kk l q) lw C i.
Proof.
  intros Hq. destruct (kk l q) as [f|m] eqn:E; cbn [k_v_mean].
  - rewrite prob_bright; [reflexivity|]. pose proof (Hm q Hq) as K. rewrite E in K. exact K.
  - unfold mixture_mean. apply over_rest_bright. apply (par_ok q m Hq E).
Qed.
Lemma k_given_bright i q : k_given (brighter k g) l lw C i q = k_given g l lw C i q.
Proof.
  unfold k_given. rewrite kmix_bright, (weighted_bright g _ lw kmix_lit).
  change (marg g (kshare (brighter k g) l lw (has_v C) q) C i / marg g (weighted g lw (kmix g l (has_v C))) C i =
    marg g (kshare g l lw (has_v C) q) C i / marg g (weighted g lw (kmix g l (has_v C))) C i).
  do 2 f_equal. unfold kshare. do 5 (apply functional_extensionality; intros ?). pose proof kmix_lit as KL. destruct lw; rewrite kmass_bright; [|reflexivity].
  rewrite kmix_bright, total_bright, lit_bright. specialize (KL eq_refl). field. split; lra.
Qed.
Lemma k_mean_v_bright i : k_mean_v (brighter k g) l lw C i = k_mean_v g l lw C i.
Proof. apply Sum_ext. intros q Hq. rewrite k_given_bright, k_v_mean_bright by exact Hq. reflexivity. Qed.
Lemma k_moment_v_bright i c j M : k_moment_v (brighter k g) l lw C i c j M -> k_moment_v g l lw C i c j M.
Proof.
  intros (Ms & HM & ->). exists Ms. split.
  - intros q Hq. specialize (HM q Hq). destruct (kk l q) as [f|m] eqn:E; cbn [k_v_moment] in *.
    + rewrite prob_bright in HM; [exact HM|]. pose proof (Hm q Hq) as K. rewrite E in K. exact K.
    + destruct HM as (G & HG & EM). exists G. split; [exact HG|]. rewrite EM. apply over_rest_bright. apply (par_ok q m Hq E).
  - apply Sum_ext. intros q Hq. rewrite k_given_bright. reflexivity.
Qed.
Lemma bright_mix_v_mean : exists a b, mix_mean s (dname V_v C) lw = Ok a /\ mix_mean s' (dname V_v C) lw = Ok b /\
  shp a = dims C g /\ shp b = dims C g /\ forall i, in_grid g i -> all_there g l lw C i -> ent a (coords C i) = ent b (coords C i).
Proof.
  destruct (mixed_v_mean_claim s g l Hon Hg lw C Hv Hm HN) as (a & Ea & Hs & He).
  destruct (mixed_v_mean_claim s' (brighter k g) l Hon' Hg' lw C Hv Hm' HN') as (b & Eb & Hs' & He').
  exists a, b. do 4 (split; [assumption|]). intros i Hi T. rewrite He by assumption. symmetry.
  etransitivity; [apply (He' i Hi); apply there_bright; exact T|]. rewrite k_mean_v_bright. reflexivity.
Qed.
Lemma bright_mix_v_central j : exists a b, mix_central_moment s (dname V_v C) j lw = Ok a /\ mix_central_moment s' (dname V_v C) j lw = Ok b /\
  shp a = dims C g /\ shp b = dims C g /\ forall i, in_grid g i -> all_there g l lw C i ->
    (forall q, (q < List.length l)%nat -> all_there g l lw C (centre_at (kk l q) C i)) -> ent a (coords C i) = ent b (coords C i).
Proof.
  destruct (mixed_v_central_claim s g l Hon Hg lw C Hv Hm HN j) as (a & Ea & Hs & He).
  destruct (mixed_v_central_claim s' (brighter k g) l Hon' Hg' lw C Hv Hm' HN' j) as (b & Eb & Hs' & He').
  exists a, b. do 4 (split; [assumption|]). intros i Hi T TC. destruct (He i Hi T TC) as (M & EM & KM).
  destruct (He' i Hi) as (M' & EM' & KM'); [apply there_bright; exact T|intros q Hq; apply there_bright; exact (TC q Hq)|].
  rewrite EM. symmetry. etransitivity; [exact EM'|]. f_equal. symmetry. apply k_moment_v_bright in KM'.
  apply (k_moment_v_unique g lw C l i _ j M M' Hi KM). destruct KM' as (Ms & HM & ->). exists Ms. split; [|reflexivity].
  intros q Hq. specialize (HM q Hq). rewrite <- k_mean_v_bright. exact HM.
Qed.
End Velocity.
End One.
End Mix.
End Units.

(** ** the templates themselves *)
Lemma refluxed_object k mg g nL F : ssp_object mg g nL F -> ssp_object (refluxed k mg) (brighter k g) nL (fun l z t => k * F l z t).
Proof.
  intros [Hon Hn Hs Hp Hl]. constructor; try assumption.
  - destruct Hon. constructor; try assumption. intros l z t Hll Hz Ht. cbn [refluxed g_X amap ent]. rewrite to_x by assumption. reflexivity.
  - intros t z Ht Hz. cbn [Lw brighter]. rewrite Hl by assumption. symmetry. apply Sum_scal.
Qed.
Lemma resample_Xw spline dv mg s : resample spline dv mg = Ok s -> exists lo hi, np_min (map ln (g_lmd mg)) = Ok lo /\ np_max (map ln (g_lmd mg)) = Ok hi /\
  n_fft s = List.length (arange lo hi (dv / speed_of_light)) /\
  forall i j, ent (Xw s) [i; j] = spline (map ln (g_lmd mg)) (map (fun q => ent (g_X mg) [q; j]) (seq 0 (len0 (g_X mg)))) (nth i (arange lo hi (dv / speed_of_light)) 0).
Proof.
  unfold resample. intros E. destruct (np_min _) as [lo|]; cbn [bind] in E; [|discriminate]. destruct (np_max _) as [hi|]; cbn [bind] in E; [|discriminate].
  destruct (Nat.ltb _ 4); [discriminate|]. destruct (Reqb _ 0); [discriminate|].
  destruct (rfft _ _) as [fx|]; cbn [bind] in E; [|discriminate]. destruct (get_light_weights mg); cbn [bind] in E; [|discriminate].
  injection E as <-. exists lo, hi. do 3 (split; [reflexivity|]). reflexivity.
Qed.
Lemma refluxed_templates k spline dv mg g nL F : finite_spline spline -> homogeneous spline -> ssp_object mg g nL F -> 0 < dv ->
  exists s s' S, resample spline dv mg = Ok s /\ resample spline dv (refluxed k mg) = Ok s' /\
    ssps_on s g /\ ssps_on s' (brighter k g) /\ n_fft s' = n_fft s /\
    templates s g (n_fft s) dv S /\ templates s' (brighter k g) (n_fft s) dv (fun t z w => k * S t z w).
Proof.
  intros Hf Hh Ho Hdv. destruct (resample_templates spline dv mg g nL F Hf Ho Hdv) as (s & S & Es & Hs & HT).
  destruct (resample_templates spline dv (refluxed k mg) (brighter k g) nL _ Hf (refluxed_object k mg g nL F Ho) Hdv) as (s' & S' & Es' & Hs' & HT').
  destruct (resample_Xw _ _ _ _ Es) as (lo & hi & E1 & E2 & En & EX). destruct (resample_Xw _ _ _ _ Es') as (lo' & hi' & E1' & E2' & En' & EX').
  cbn [g_lmd refluxed] in E1', E2'. rewrite E1 in E1'. injection E1' as <-. rewrite E2 in E2'. injection E2' as <-.
  assert (Enn : n_fft s' = n_fft s) by congruence.
  exists s, s', S. do 5 (split; [assumption|]). split; [exact HT|]. rewrite Enn in HT'. destruct HT' as [T1 T2 T3 T4 _ T6 T7]. constructor; try assumption.
  intros t z w Ht Hz Hw. rewrite EX'. cbn [refluxed g_lmd g_X amap ent]. pose proof (tp_S _ _ _ _ _ HT t z w Ht Hz Hw) as HS. rewrite EX in HS.
  set (vals := map (fun q => ent (g_X mg) [q; (z * nt g + t)%nat]) (seq 0 (len0 (g_X mg)))) in *.
  assert (EV : map (fun q => nmul (Fin k) (ent (g_X mg) [q; (z * nt (brighter k g) + t)%nat])) (seq 0 (len0 (amap (nmul (Fin k)) (g_X mg)))) = map (nmul (Fin k)) vals)
    by (unfold vals; rewrite map_map; reflexivity).
  rewrite EV, Hh, HS; [reflexivity|]. intros x Hx. apply in_map_iff in Hx as (q & <- & Hq). apply in_seq in Hq.
  destruct Ho as [Hon _ _ _ _]. unfold len0 in Hq. rewrite (to_xs _ _ _ _ _ _ _ Hon) in Hq. cbn [hd nth] in Hq.
  eexists. apply (to_x _ _ _ _ _ _ _ Hon); [lia|exact Hz|exact Ht].
Qed.

(** ** datacubes *)
Lemma conv_scal n k x K w : conv n (fun s => k * x s) K w = k * conv n x K w.
Proof. unfold conv. rewrite <- Sum_scal. apply Sum_ext. intros. ring. Qed.
Lemma datacube_bright W g f n dv v0 S k w i j :
  datacube W (brighter k g) f n dv v0 (fun t z w => k * S t z w) w i j = k * datacube W g f n dv v0 S w i j.
Proof.
  unfold datacube. cbn [nt nz nv brighter]. rewrite <- Sum_scal. apply Sum_ext. intros t _. rewrite <- Sum_scal. apply Sum_ext. intros z _.
  rewrite <- conv_scal. reflexivity.
Qed.
Lemma par_datacube_bright g P mu sig n dv S k w i j :
  par_datacube (brighter k g) P mu sig n dv (fun t z w => k * S t z w) w i j = k * par_datacube g P mu sig n dv S w i j.
Proof.
  unfold par_datacube. cbn [nt nz brighter]. rewrite <- Sum_scal. apply Sum_ext. intros t _. rewrite <- Sum_scal. apply Sum_ext. intros z _.
  rewrite conv_scal. ring.
Qed.
Lemma cubes_k_times k n nx ny D D' y y' : is_cube y n nx ny D -> is_cube y' n nx ny D' -> (forall w i j, D' w i j = k * D w i j) -> k_times k y y'.
Proof.
  intros [Hs He] [Hs' He'] HD. split; [congruence|]. intros idx Hi. rewrite Hs in Hi. inb_inv.
  eexists. rewrite He, He', HD by assumption. split; reflexivity.
Qed.
Lemma bright_ybar W c c' g f n dv S v0 k batch batch' : evaluable c g f n dv S v0 -> evaluable c' (brighter k g) f n dv (fun t z w => k * S t z w) v0 ->
  is_batch batch -> is_batch batch' ->
  exists y y', evaluate_ybar W c batch = Ok y /\ evaluate_ybar W c' batch' = Ok y' /\ k_times k y y'.
Proof.
  intros H H' Hb Hb'. destruct (evaluate_claim W c g f n dv S v0 batch H Hb) as (y & Ey & Hy).
  destruct (evaluate_claim W c' _ f n dv _ v0 batch' H' Hb') as (y' & Ey' & Hy').
  exists y, y'. do 2 (split; [assumption|]). eapply cubes_k_times; [exact Hy|exact Hy'|]. intros. apply datacube_bright.
Qed.
Lemma bright_par_ybar L s s' g m n dv S k batch batch' : par_on L s g m -> par_on L s' (brighter k g) m -> 0 < k -> good_grid g -> good_par g m ->
  templates (c_ssps (pa_cube s)) g n dv S -> templates (c_ssps (pa_cube s')) (brighter k g) n dv (fun t z w => k * S t z w) ->
  dv <> 0 -> is_batch batch -> is_batch batch' ->
  exists y y', par_evaluate_ybar L s batch = Ok y /\ par_evaluate_ybar L s' batch' = Ok y' /\ k_times k y y'.
Proof.
  intros H H' Hk Hg Hm HT HT' Hdv Hb Hb'.
  destruct (component_datacube L s g m H Hg Hm n dv S HT batch Hdv Hb) as (y & Ey & Hy).
  destruct (component_datacube L s' (brighter k g) m H' (brighter_good k Hk g Hg) (good_par_bright k g m Hm) n dv _ HT' batch' Hdv Hb') as (y' & Ey' & Hy').
  exists y, y'. do 2 (split; [assumption|]). eapply cubes_k_times; [exact Hy|exact Hy'|]. intros w i j.
  exact (par_datacube_bright g (txz_mass g m) (pm_mu m) (pm_sig m) n dv S k w i j).
Qed.
Lemma bright_mix_ybar k n nx ny (K : list (arr num * arr num * R)) : K <> [] ->
  (forall a, In a K -> k_times k (fst (fst a)) (snd (fst a)) /\ shp (fst (fst a)) = [n; nx; ny]) ->
  exists y y', mixture_ybar (map (fun a => Some (fst (fst a))) K) (map (fun a => Fin (snd a)) K) = Ok y /\
    mixture_ybar (map (fun a => Some (snd (fst a))) K) (map (fun a => Fin (snd a)) K) = Ok y' /\ k_times k y y'.
Proof.
  intros Hne HK. set (D := fun a : arr num => fun w i j => entry a w i j).
  assert (HC : forall a, In a K -> is_cube (fst (fst a)) n nx ny (D (fst (fst a))) /\ is_cube (snd (fst a)) n nx ny (fun w i j => k * D (fst (fst a)) w i j)).
  { intros a Ha. destruct (HK a Ha) as [[Hs He] Hsh]. split; (split; [congruence|]); intros w i j Hw Hi Hj;
      destruct (He [w; i; j]) as (r & E1 & E2); try (rewrite Hsh; repeat (constructor; [assumption|]); constructor).
    - unfold D, entry. rewrite E1. reflexivity.
    - unfold D, entry. rewrite E1, E2. reflexivity. }
  destruct (mixture_ybar_claim n nx ny (map (fun a => (fst (fst a), snd a, D (fst (fst a)))) K)) as (y & Ey & Hy).
  { destruct K; [congruence|discriminate]. }
  { apply Forall_forall. intros p Hp. apply in_map_iff in Hp as (a & <- & Ha). apply HC. exact Ha. }
  destruct (mixture_ybar_claim n nx ny (map (fun a => (snd (fst a), snd a, fun w i j => k * D (fst (fst a)) w i j)) K)) as (y' & Ey' & Hy').
  { destruct K; [congruence|discriminate]. }
  { apply Forall_forall. intros p Hp. apply in_map_iff in Hp as (a & <- & Ha). apply HC. exact Ha. }
  rewrite !map_map in Ey, Ey'. cbn [fst snd] in Ey, Ey'. exists y, y'. do 2 (split; [assumption|]).
  eapply cubes_k_times; [exact Hy|exact Hy'|]. intros w i j. cbn beta. rewrite !map_map. cbn [fst snd].
  clear. induction K as [|a K IH]; unfold sumR in *; cbn [map fold_right]; [ring|]. rewrite IH. ring.
Qed.

(** ** noise *)
Lemma k_times_data k y y' f : is_data y f -> k_times k y y' -> is_data y' (fun idx => k * f idx).
Proof.
  intros Hy [Hs He] idx Hi. rewrite Hs in Hi. destruct (He idx Hi) as (r & E1 & E2). rewrite (Hy idx Hi) in E1. injection E1 as <-. exact E2.
Qed.
Lemma bright_constant k y y' f snr z : 0 < k -> is_data y f -> k_times k y y' -> 0 < snr -> (forall idx, inb idx (shp y) -> 0 <= f idx) ->
  (exists a b, constant_snr_sigma (Some y) (Fin snr) = Ok a /\ constant_snr_sigma (Some y') (Fin snr) = Ok b /\ k_times k a b) /\
  (exists a b, get_noisy_data constant_snr_sigma (Some y) (Fin snr) z = Ok a /\ get_noisy_data constant_snr_sigma (Some y') (Fin snr) z = Ok b /\ k_times k a b).
Proof.
  intros Hk Hy Ht Hs Hp. pose proof (k_times_data k y y' f Hy Ht) as Hy'. destruct Ht as [Hsh _].
  assert (Hp' : forall idx, inb idx (shp y') -> 0 <= k * f idx) by (intros idx Hi; rewrite Hsh in Hi; apply Rmult_le_pos; [lra|auto]).
  split.
  - destruct (constant_claim y f snr Hy Hs) as (a & Ea & Sa & Va). destruct (constant_claim y' _ snr Hy' Hs) as (b & Eb & Sb & Vb).
    exists a, b. do 2 (split; [assumption|]). split; [congruence|]. intros idx Hi. rewrite Sa in Hi. eexists.
    rewrite (proj1 (Va idx Hi)), (proj1 (Vb idx ltac:(rewrite Hsh; exact Hi))). split; [reflexivity|]. f_equal. field. lra.
  - destruct (noisy_constant_claim y f snr z Hy Hs Hp) as (a & Ea & Sa & Va). destruct (noisy_constant_claim y' _ snr z Hy' Hs Hp') as (b & Eb & Sb & Vb).
    exists a, b. do 2 (split; [assumption|]). split; [congruence|]. intros idx Hi. rewrite Sa in Hi. eexists.
    rewrite (Va idx Hi), (Vb idx ltac:(rewrite Hsh; exact Hi)). split; [reflexivity|]. f_equal. field. lra.
Qed.
Lemma bright_shot k y y' f snr M z : 0 < k -> is_data y f -> k_times k y y' -> 0 < snr -> (forall idx, inb idx (shp y) -> 0 <= f idx) ->
  brightest y f M -> 0 < M ->
  (exists a b, shot_noise_sigma (Some y) (Fin snr) = Ok a /\ shot_noise_sigma (Some y') (Fin snr) = Ok b /\ k_times k a b) /\
  (exists a b, get_noisy_data shot_noise_sigma (Some y) (Fin snr) z = Ok a /\ get_noisy_data shot_noise_sigma (Some y') (Fin snr) z = Ok b /\ k_times k a b).
Proof.
  intros Hk Hy Ht Hs Hp HM HM0. pose proof (k_times_data k y y' f Hy Ht) as Hy'. destruct Ht as [Hsh _].
  assert (Hp' : forall idx, inb idx (shp y') -> 0 <= k * f idx) by (intros idx Hi; rewrite Hsh in Hi; apply Rmult_le_pos; [lra|auto]).
  assert (HM' : brightest y' (fun idx => k * f idx) (k * M)).
  { destruct HM as [(idx & Hi & E) HM]. split; [exists idx; rewrite Hsh; split; [exact Hi|rewrite E; reflexivity]|].
    intros j Hj. rewrite Hsh in Hj. apply Rmult_le_compat_l; [lra|auto]. }
  assert (HM0' : 0 < k * M) by (apply Rmult_lt_0_compat; assumption).
  assert (SQ : forall r, 0 <= r -> sqrt (k * M) / snr * sqrt (k * r) = k * (sqrt M / snr * sqrt r)).
  { intros r Hr. rewrite !sqrt_mult by lra. transitivity (sqrt k * sqrt k * (sqrt M / snr * sqrt r)); [field; lra|]. rewrite sqrt_sqrt by lra. reflexivity. }
  split.
  - destruct (shot_claim y f snr M Hy Hs Hp HM HM0) as (a & Ea & Sa & Va). destruct (shot_claim y' _ snr _ Hy' Hs Hp' HM' HM0') as (b & Eb & Sb & Vb).
    exists a, b. do 2 (split; [assumption|]). split; [congruence|]. intros idx Hi. rewrite Sa in Hi. eexists.
    rewrite (proj1 (Va idx Hi)), (proj1 (Vb idx ltac:(rewrite Hsh; exact Hi))). split; [reflexivity|]. f_equal. apply SQ. auto.
  - destruct (noisy_shot_claim y f snr M z Hy Hs Hp HM HM0) as (a & Ea & Sa & Va). destruct (noisy_shot_claim y' _ snr _ z Hy' Hs Hp' HM' HM0') as (b & Eb & Sb & Vb).
    exists a, b. do 2 (split; [assumption|]). split; [congruence|]. intros idx Hi. rewrite Sa in Hi. eexists.
    rewrite (Va idx Hi), (Vb idx ltac:(rewrite Hsh; exact Hi)). split; [reflexivity|]. f_equal. rewrite SQ by auto. ring.
Qed.
