(** * LightGivenMix: light weighting given what determines the light, for
    mixtures of base components. *)
From Coq Require Import Reals Lra Lia List Bool Arith ZArith String Ascii.
From Verif Require Import Num NumLemmas Arr ArrLemmas PyStr Cube Base Spec SpecLemmas Repr CondLemmas DistLemmas
  Moments MomArr MomSpec MomLemmas MomLemmas4 MomLemmas5 MomLemmas6 LMom MomClaims StatGen
  Mixture MixSpec MixGen MixLemmas MixCond MixMom MixExample MixStat MixStatLemmas MixStatClaims SameSpec CondSame LightGiven.
Import ListNotations.
Local Open Scope R_scope.

Section Mix.
Context (self : mixture) (g : grid) (comps : list component) (l : parts) (C : vset).
Context (H : mix_on self g comps l) (Hg : good_grid g).
Context (Hm : forall q, (q < List.length l)%nat -> lw_ok g (pf l q) true).
Context (HL : light_by g C).
Context (HT : nonempty C = false ->
     sumR (map snd l) = 1 /\ forall q, (q < List.length l)%nat -> total g (mass g (pf l q)) = 1).
Let P := mass g (mixf l).
Let PL := light g P.
Let HG := mix_on_gen self g comps l H Hg.
Let Hn : forall q, (q < List.length l)%nat -> lw_ok g (pf l q) false. Proof. intros q _ X; discriminate X. Qed.
Let HTL : nonempty C = false -> true = false ->
     sumR (map snd l) = 1 /\ forall q, (q < List.length l)%nat -> total g (mass g (pf l q)) = 1. Proof. intros _ X; discriminate X. Qed.
Let HTM : nonempty C = false -> false = false ->
     sumR (map snd l) = 1 /\ forall q, (q < List.length l)%nat -> total g (mass g (pf l q)) = 1. Proof. intros E _; exact (HT E). Qed.
Let Hl : lw_ok g (mixf l) true := mix_lw_ok self g comps l H Hg true Hm.
Let Hno : lw_ok g (mixf l) false. Proof. intros X; discriminate X. Qed.
Let Hpos : 0 < total g (lit g P) := Hl eq_refl.
Let Hf : nonneg g (mixf l) := mixf_nonneg self g _ HG true.
Let HP : nonneg g P := mass_nonneg g _ Hg Hf.
Let HPL : nonneg g PL := prob_nonneg g (mixf l) true Hg Hf Hl.
(** every member has mass in the bin, and the bin has light *)
Let Q (i : bin) := 0 < bright g i /\ forall q, (q < List.length l)%nat -> 0 < marg g (mass g (pf l q)) C i.

Lemma pf_nonneg q : (q < List.length l)%nat -> nonneg g (pf l q).
Proof.
  clear - H. intros Hq. destruct (nth_error comps q) as [c|] eqn:Ec.
  - assert (El : nth_error l q = Some (nth q l ((fun _ _ _ _ _ => 0), 0))) by (apply nth_error_nth'; exact Hq).
    exact (proj1 (proj2 (mo_comp _ _ _ _ H q c _ Ec El))).
  - apply nth_error_None in Ec. pose proof (mo_len _ _ _ _ H). lia.
Qed.
Lemma Q_light i : in_grid g i -> Q i -> forall q, (q < List.length l)%nat -> 0 < marg g (prob g (pf l q) true) C i.
Proof.
  clear HT HTL HTM. intros Hi [Hb Hq] q Hlq. pose proof (Hm q Hlq eq_refl) as Hp. cbn [prob].
  rewrite (marg_PL g (mass g (pf l q)) C i HL Hi).
  apply Rmult_lt_0_compat; [apply Rdiv_lt_0_compat; assumption|apply Hq; exact Hlq].
Qed.
Lemma mix_fit A i : disjoint A C = true -> in_grid g i -> 0 < bright g i -> fit g PL P C C A i.
Proof. clear HT HTL HTM. intros HD Hi Hb. exact (lit_fit g P HP Hpos C HL A i HD Hi Hb). Qed.
Lemma mix_same A i : disjoint A C = true -> in_grid g i -> Q i -> same g PL P C C A i.
Proof.
  clear HT HTL HTM. intros HD Hi HQ. destruct (mix_fit A i HD Hi (proj1 HQ)) as [K|[Z _]]; [exact K|].
  pose proof (base_pos self g comps l true C H Hg Hm i Hi (Q_light i Hi HQ)) as K. unfold PL, P in Z. cbn [prob] in K. rewrite Z in K. lra.
Qed.

(** ** distributions *)
Lemma mix_given_p A density : nonempty A = true -> disjoint A C = true ->
  exists a b, mix_get_p self (dname A C) true density true = Ok a /\ mix_get_p self (dname A C) true density false = Ok b /\
    forall i, in_grid g i ->
      (0 < bright g i -> ent a (coords A i ++ coords C i) = ent b (coords A i ++ coords C i)) /\
      (nonempty C = true -> bright g i = 0 -> ent a (coords A i ++ coords C i) = NaN).
Proof.
  intros HA HD.
  assert (T0 : nonempty C = false -> total g P = 1) by (intros E; exact (proj2 (normalised_mass self g comps l false C H Hg Hn HTM E))).
  clear HTM HTL. unfold dname. destruct (nonempty C) eqn:EC.
  - destruct (mix_p_cond self g _ HG Hg A C true density true HA EC HD Hl) as (a & Ea & _ & Ha).
    destruct (mix_p_cond self g _ HG Hg A C true density false HA EC HD Hno) as (b & Eb & _ & Hb).
    exists a, b. split; [exact Ea|]. split; [exact Eb|]. intros i Hi. cbn [prob] in Ha, Hb.
    rewrite (Ha i Hi), (Hb i Hi). fold P. fold PL. split.
    + intros Hbr. destruct (mix_fit A i HD Hi Hbr) as [(S1 & S2 & Sj)|[Z1 Z2]].
      * destruct (Rlt_dec 0 (marg g PL C i)) as [_|K]; [|lra]. destruct (Rlt_dec 0 (marg g P C i)) as [_|K]; [|lra].
        f_equal. f_equal. apply Sj, bins_over_self; exact Hi.
      * destruct (Rlt_dec 0 (marg g PL C i)) as [K|_]; [lra|]. destruct (Rlt_dec 0 (marg g P C i)) as [K|_]; [lra|]. reflexivity.
    + intros _ Hd. pose proof (lit_dark g P C i HL Hi Hd) as Z. destruct (Rlt_dec 0 (marg g PL C i)) as [K|_]; [unfold PL in K; lra|reflexivity].
  - destruct (mix_p_marg self g _ HG Hg A true density true HA Hl) as (a & Ea & _ & Ha).
    destruct (mix_p_marg self g _ HG Hg A true density false HA Hno) as (b & Eb & _ & Hb).
    exists a, b. split; [exact Ea|]. split; [exact Eb|]. intros i Hi. split; [|discriminate]. intros Hbr.
    assert (EC' : C = no_vars) by (clear - EC; destruct C as [[] [] [] []]; try discriminate EC; reflexivity).
    assert (E0 : coords C i = []) by (rewrite EC'; reflexivity).
    assert (EU : union A C = A) by (rewrite EC'; destruct A as [[] [] [] []]; reflexivity).
    rewrite E0, app_nil_r, (Ha i Hi), (Hb i Hi). cbn [prob]. fold P. fold PL. f_equal. f_equal.
    assert (T1 : marg g PL C i = 1) by (rewrite EC', marg_none; exact (total_prob_lw g (mixf l) Hl)).
    assert (T2 : marg g P C i = 1).
    { rewrite EC', marg_none. apply T0; reflexivity. }
    destruct (mix_fit A i HD Hi Hbr) as [(S1 & S2 & Sj)|[Z1 Z2]]; [|lra].
    specialize (Sj i (bins_over_self g A i Hi)). rewrite EU, T1, T2 in Sj. lra.
Qed.

(** the same member by member *)
Lemma mix_given_members A density : nonempty A = true -> nonempty C = true -> disjoint A C = true ->
  exists a b, mix_get_p self (cname A C) false density true = Ok a /\ mix_get_p self (cname A C) false density false = Ok b /\
    forall q i, (q < List.length l)%nat -> in_grid g i -> 0 < bright g i ->
      ent a (q :: coords A i ++ coords C i) = ent b (q :: coords A i ++ coords C i).
Proof.
  intros HA EC HD.
  destruct (mix_p_cond self g _ HG Hg A C false density true HA EC HD Hl) as (a & Ea & _ & Ha).
  destruct (mix_p_cond self g _ HG Hg A C false density false HA EC HD Hno) as (b & Eb & _ & Hb).
  exists a, b. split; [exact Ea|]. split; [exact Eb|]. intros q i Hq Hi Hbr.
  rewrite (Ha q i Hq Hi), (Hb q i Hq Hi). cbn [prob]. fold P. fold PL.
  destruct (mix_fit A i HD Hi Hbr) as [(S1 & S2 & Sj)|[Z1 Z2]].
  - destruct (Rlt_dec 0 (marg g PL C i)) as [_|K]; [|lra]. destruct (Rlt_dec 0 (marg g P C i)) as [_|K]; [|lra].
    f_equal. f_equal. unfold PL. rewrite (marg_PL g P C i HL Hi). cbn [share]. fold P.
    assert (E : marg g (share g l true q) (union A C) i = bright g i / total g (lit g P) * marg g (share g l false q) (union A C) i).
    { transitivity (marg g (fun t v x y z => / total g (lit g P) * lit g (share g l false q) t v x y z) (union A C) i).
      - unfold marg, share, lit, P, Rdiv. repeat (apply over_ext_all; intros). ring.
      - rewrite marg_scal, marg_lit by (auto using light_by_union). unfold Rdiv; ring. }
    etransitivity; [apply f_equal2; [exact E|reflexivity]|]. unfold Rdiv. rewrite !Rinv_mult, Rinv_inv.
    assert (X : bright g i * / bright g i = 1) by (apply Rinv_r; lra).
    assert (Y : total g (lit g P) * / total g (lit g P) = 1) by (apply Rinv_r; lra).
    replace (marg g (share g l false q) (union A C) i * / marg g P C i)
      with ((bright g i * / bright g i) * (total g (lit g P) * / total g (lit g P)) * (marg g (share g l false q) (union A C) i * / marg g P C i))
      by (rewrite X, Y; ring). ring.
  - destruct (Rlt_dec 0 (marg g PL C i)) as [K|_]; [lra|]. destruct (Rlt_dec 0 (marg g P C i)) as [K|_]; [lra|]. reflexivity.
Qed.

(** ** statistics *)
Lemma mix_given_statistics k : disjoint (cvar k) C = true ->
  let w := dname (cvar k) C in let m := mcoords k C in
  alike g (mix_mean self w true) (mix_mean self w false) m m Q /\
  (forall j, alike g (mix_central_moment self w j true) (mix_central_moment self w j false) m m Q) /\
  alike g (mix_variance self w true) (mix_variance self w false) m m Q /\
  alike g (mix_dispersion self w true) (mix_dispersion self w false) m m Q /\
  (is_x k = false -> forall j, alike g (get_l_moment (mix_obj self) w (S j) true) (get_l_moment (mix_obj self) w (S j) false) (coords C) (coords C)
     (fun i => 0 < bright g i)).
Proof.
  intros HD w m.
  assert (QL : forall i, in_grid g i -> Q i -> forall q, (q < List.length l)%nat -> 0 < marg g (prob g (pf l q) true) C i) by exact Q_light.
  assert (QM : forall i, Q i -> forall q, (q < List.length l)%nat -> 0 < marg g (prob g (pf l q) false) C i) by (intros i K; exact (proj2 K)).
  split; [|split; [|split; [|split]]].
  - destruct (base_mean_right self g comps l true C H Hg Hm HTL k HD) as (a & Ea & _ & Ha).
    destruct (base_mean_right self g comps l false C H Hg Hn HTM k HD) as (b & Eb & _ & Hb).
    exists a, b. split; [exact Ea|]. split; [exact Eb|]. intros i Hi HQ.
    etransitivity; [exact (proj1 (Ha i Hi) (QL i Hi HQ))|]. etransitivity; [|symmetry; exact (proj1 (Hb i Hi) (QM i HQ))].
    f_equal. exact (Mean_same g PL P C C k i (mix_same _ i HD Hi HQ)).
  - intros j. destruct (base_central_right self g comps l true C H Hg Hm HTL k HD j) as (a & Ea & _ & Ha).
    destruct (base_central_right self g comps l false C H Hg Hn HTM k HD j) as (b & Eb & _ & Hb).
    exists a, b. split; [exact Ea|]. split; [exact Eb|]. intros i Hi HQ.
    etransitivity; [exact (proj1 (Ha i Hi) (QL i Hi HQ))|]. etransitivity; [|symmetry; exact (proj1 (Hb i Hi) (QM i HQ))].
    f_equal. exact (Central_same g PL P C C k j i (mix_same _ i HD Hi HQ)).
  - destruct (mixb_variance self g comps l true C H Hg Hm HTL k HD) as (a & s & Ea & _ & _ & _ & Ha).
    destruct (mixb_variance self g comps l false C H Hg Hn HTM k HD) as (b & s' & Eb & _ & _ & _ & Hb).
    exists a, b. split; [exact Ea|]. split; [exact Eb|]. intros i Hi HQ.
    destruct (proj1 (Ha i Hi) (QL i Hi HQ)) as (V & V1 & V2 & V3). destruct (proj1 (Hb i Hi) (QM i HQ)) as (W & W1 & W2 & W3).
    pose proof (Mean_same g PL P C C k i (mix_same _ i HD Hi HQ)) as E.
    pose proof (Ex_same g PL P C C (cvar k) (fun b => cmid g k b ^ 2) (fun b => cmid g k b ^ 2) i (mix_same _ i HD Hi HQ) (fun _ _ => eq_refl)) as E2.
    assert (EV : V = W) by (rewrite (proj1 V3), (proj1 W3); unfold PL, P in E, E2; cbn [prob]; rewrite E, E2; reflexivity).
    unfold m. rewrite V1, W1, EV. reflexivity.
  - destruct (mixb_variance self g comps l true C H Hg Hm HTL k HD) as (a & s & _ & Ea & _ & _ & Ha).
    destruct (mixb_variance self g comps l false C H Hg Hn HTM k HD) as (b & s' & _ & Eb & _ & _ & Hb).
    exists s, s'. split; [exact Ea|]. split; [exact Eb|]. intros i Hi HQ.
    destruct (proj1 (Ha i Hi) (QL i Hi HQ)) as (V & V1 & V2 & V3). destruct (proj1 (Hb i Hi) (QM i HQ)) as (W & W1 & W2 & W3).
    pose proof (Mean_same g PL P C C k i (mix_same _ i HD Hi HQ)) as E.
    pose proof (Ex_same g PL P C C (cvar k) (fun b => cmid g k b ^ 2) (fun b => cmid g k b ^ 2) i (mix_same _ i HD Hi HQ) (fun _ _ => eq_refl)) as E2.
    assert (EV : V = W) by (rewrite (proj1 V3), (proj1 W3); unfold PL, P in E, E2; cbn [prob]; rewrite E, E2; reflexivity).
    unfold m. rewrite V2, W2, EV. reflexivity.
  - intros Hx j.
    apply (alike_weaken g _ _ (coords C) (coords C) (fit g PL P C C (cvar k))).
    + intros i Hi Hb. apply mix_fit; assumption.
    + exact (l_moment_alike (mix_obj self) g (mo_cube _ _ _ _ H) Hg PL P true false C C k HD HD
        (base_mix_gives self g comps l true C H Hg Hm HTL _ (cvar_nonempty k) HD)
        (base_mix_gives self g comps l false C H Hg Hn HTM _ (cvar_nonempty k) HD) j Hx).
Qed.
Lemma mix_given_covariance a b : before a b = true -> disjoint (union (cvar a) (cvar b)) C = true ->
  let w := dname (union (cvar a) (cvar b)) C in let m := mcoords (xkey a b) C in
  alike g (mix_covariance self w true) (mix_covariance self w false) m m Q.
Proof.
  intros Hab HD w m. pose proof (HDa a b C HD) as Da. pose proof (HDb a b C HD) as Db.
  destruct (mixb_covariance self g comps l true C H Hg Hm HTL a b Hab HD) as (r & Er & _ & Hr).
  destruct (mixb_covariance self g comps l false C H Hg Hn HTM a b Hab HD) as (s & Es & _ & Hs).
  exists r, s. split; [exact Er|]. split; [exact Es|]. intros i Hi HQ.
  etransitivity; [exact (proj1 (Hr i Hi) (Q_light i Hi HQ))|]. etransitivity; [|symmetry; exact (proj1 (Hs i Hi) (proj2 HQ))].
  f_equal. apply (Covar_same g PL P C C a b i); apply mix_same; assumption.
Qed.
End Mix.
