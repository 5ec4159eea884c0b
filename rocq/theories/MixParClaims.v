(** * MixParClaims: distributions and moments of mixtures with parametric members. *)
From Coq Require Import Reals Lra Lia List Bool Arith ZArith String Ascii.
From Verif Require Import Num NumLemmas Arr ArrLemmas PyStr StrLemmas Cube Base Spec SpecLemmas Repr CubeLemmas CondLemmas
  DistLemmas Moments MomSpec MomArr MomLemmas MomLemmas3 MomLemmas4 MomLemmas5 MomClaims Parametric ParSpec ParRepr ParLemmas ParDist ParMoments GaussSpec ParMomSpec ParMomLemmas ParMomClaims ParMomOther
  Mixture MixSpec MixGen MixLemmas MixCond MixMom MixParSpec MixParLemmas.
Import ListNotations.
Local Open Scope R_scope.

Lemma Ex_ext_P g P Q A C h i : in_grid g i -> joint_eq g P Q -> Ex g P A C h i = Ex g Q A C h i.
Proof.
  intros Hi E. unfold Ex. rewrite (marg_ext g P Q C i Hi E). f_equal. apply sum_over_ext; [assumption|].
  intros j Hj. rewrite (marg_ext g P Q (union A C) j Hj E). reflexivity.
Qed.

Lemma no_vars_eq C : nonempty C = false -> C = no_vars.
Proof. destruct C as [[] [] [] []]; try discriminate; reflexivity. Qed.

Section Mixed.
Context (self : mixture) (g : grid) (l : kinds).
Context (H : mixed_on self g l) (Hg : good_grid g).
Let HG := mixed_gen self g l H Hg.
Let n := List.length l.
Let nl b : List.length (kl g l b) = n := len_kl g l b.

Lemma mixed_lw b lw : lit_ok g (kmix g l b) lw -> lw_ok g (mixf (kl g l b)) lw.
Proof.
  intros Hl E. rewrite (total_ext g _ _ (lit_ext g _ _ (mass_mix g Hg l b))). apply Hl; assumption.
Qed.

Lemma mixed_marg_claim S density lw : nonempty S = true -> lit_ok g (kmix g l (has_v S)) lw ->
  exists a b, mix_get_p self (name S) true density lw = Ok a /\ mix_get_p self (name S) false density lw = Ok b /\
    shp a = dims S g /\ shp b = (n :: dims S g)%list /\
    forall i, in_grid g i ->
      ent a (coords S i) = Fin (marg g (weighted g lw (kmix g l (has_v S))) S i / (if density then vol g S i else 1)) /\
      (forall q, (q < n)%nat -> ent b (q :: coords S i) =
         Fin (marg g (kshare g l lw (has_v S) q) S i / (if density then vol g S i else 1))) /\
      nsum (map (fun q => ent b (q :: coords S i)) (seq 0 n)) = ent a (coords S i).
Proof.
  intros HS Hl. apply mixed_lw in Hl.
  destruct (mix_p_marg self g (kl g l) HG Hg S true density lw HS Hl) as (a & Ea & Has & Ha).
  destruct (marg_split_gen self g (kl g l) HG Hg S density lw HS Hl) as (a' & b & Ea' & Eb & _ & Hbs & Hb).
  rewrite Ea in Ea'; injection Ea' as <-. rewrite nl in Hbs, Hb. exists a, b. do 4 (split; [assumption|]).
  intros i Hi. destruct (Hb i Hi) as [Hb1 Hb2]. split; [|split; [|exact Hb2]].
  - rewrite Ha by assumption. rewrite (marg_ext g _ _ S i Hi (prob_mix g Hg l (has_v S) lw)). reflexivity.
  - intros q Hq. rewrite Hb1 by assumption. rewrite (marg_ext g _ _ S i Hi (share_mix g Hg l (has_v S) lw q Hq)). reflexivity.
Qed.

Lemma mixed_cond_claim A C density lw :
  nonempty A = true -> nonempty C = true -> disjoint A C = true -> lit_ok g (kmix g l (has_v (union A C))) lw ->
  exists a b, mix_get_p self (cname A C) true density lw = Ok a /\ mix_get_p self (cname A C) false density lw = Ok b /\
    shp a = (dims A g ++ dims C g)%list /\ shp b = (n :: dims A g ++ dims C g)%list /\
    forall i, in_grid g i ->
      let PC := marg g (weighted g lw (kmix g l (has_v C))) C i in
      (0 < PC -> ent a (coords A i ++ coords C i) =
         Fin (marg g (weighted g lw (kmix g l (has_v (union A C)))) (union A C) i / PC / (if density then vol g A i else 1))) /\
      (0 < PC -> forall q, (q < n)%nat -> ent b (q :: coords A i ++ coords C i) =
         Fin (marg g (kshare g l lw (has_v (union A C)) q) (union A C) i / PC / (if density then vol g A i else 1))) /\
      (PC = 0 -> ent a (coords A i ++ coords C i) = NaN) /\
      nsum (map (fun q => ent b (q :: coords A i ++ coords C i)) (seq 0 n)) = ent a (coords A i ++ coords C i).
Proof.
  intros HA HC HD Hl. apply mixed_lw in Hl.
  destruct (mix_p_cond self g (kl g l) HG Hg A C true density lw HA HC HD Hl) as (a & Ea & Has & Ha).
  destruct (cond_split_gen self g (kl g l) HG Hg A C density lw HA HC HD Hl) as (a' & b & Ea' & Eb & _ & Hbs & Hb).
  rewrite Ea in Ea'; injection Ea' as <-. rewrite nl in Hbs, Hb. exists a, b. do 4 (split; [assumption|]).
  intros i Hi PC. destruct (Hb i Hi) as [Hb1 Hb2]. rewrite (marg_ext g _ _ C i Hi (prob_mix g Hg l (has_v C) lw)) in Hb1. fold PC in Hb1.
  specialize (Ha i Hi). rewrite (marg_ext g _ _ C i Hi (prob_mix g Hg l (has_v C) lw)) in Ha. fold PC in Ha.
  rewrite (marg_ext g _ _ (union A C) i Hi (prob_mix g Hg l (has_v (union A C)) lw)) in Ha.
  repeat split; [..|exact Hb2].
  - intros Hp. rewrite Ha. destruct (Rlt_dec 0 PC); [reflexivity|contradiction].
  - intros Hp q Hq. rewrite Hb1 by assumption. rewrite (marg_ext g _ _ (union A C) i Hi (share_mix g Hg l (has_v (union A C)) lw q Hq)). reflexivity.
  - intros Hp. rewrite Ha, Hp. destruct (Rlt_dec 0 0); [lra|reflexivity].
Qed.

(** ** moments *)
Section One.
Context (lw : bool) (k : coord) (C : vset).
Context (Hm : forall q, (q < n)%nat -> lit_ok g (kmass g (kk l q) (has_v C)) lw).
Context (HD : disjoint (cvar k) C = true).
Context (Hlv : lw = true -> has_v C = false).
Context (HN : nonempty C = false -> lw = false -> k_normal g l).
Let b := has_v C.
Let P := weighted g lw (kmix g l b).
Let Pq q := weighted g lw (kmass g (kk l q) b).

Lemma Pq_eq q : (q < n)%nat -> joint_eq g (prob g (pf (kl g l b) q) lw) (Pq q).
Proof. intros Hq. rewrite pf_kl by exact Hq. apply prob_kdens; exact Hg. Qed.
Lemma mixed_lights : lights_ok g (kl g l) b lw.
Proof.
  intros q Hq. rewrite nl in Hq. rewrite pf_kl by exact Hq. intros E.
  rewrite (total_ext g _ _ (lit_ext g _ _ (mass_kdens g Hg (kk l q) b))). apply (Hm q Hq E).
Qed.
Lemma mixed_lights0 : lights_ok g (kl g l) false lw.
Proof.
  intros q Hq E. pose proof (mixed_lights q Hq E) as K. unfold b in K. rewrite (Hlv E) in K. exact K.
Qed.
Lemma mixed_normal : nonempty C = false -> (forall q, (q < n)%nat -> total g (Pq q) = 1) /\ total g P = 1 /\ C = no_vars.
Proof.
  intros EC. pose proof (no_vars_eq C EC) as E.
  assert (Eb : b = false) by (unfold b; rewrite E; reflexivity). rewrite <- and_assoc. split; [|exact E].
  destruct (Bool.bool_dec lw true) as [El|El].
  - split.
    + intros q Hq. unfold Pq, weighted. rewrite El. apply total_light. apply Rgt_not_eq. apply (Hm q Hq El).
    + unfold P, weighted. rewrite El. apply total_light.
      pose proof (lights_lw_ok self g (kl g l) HG b lw mixed_lights El) as K.
      rewrite (total_ext g _ _ (lit_ext g _ _ (mass_mix g Hg l b))) in K. lra.
  - apply Bool.not_true_is_false in El. destruct (HN EC El) as [N1 N2].
    assert (N3 : forall q, (q < n)%nat -> total g (Pq q) = 1).
    { intros q Hq. unfold Pq, weighted. rewrite El, Eb. apply N2; exact Hq. }
    split; [exact N3|]. unfold P, weighted. rewrite El.
    change (total g (fun t v x y z => Sum n (fun q => kw l q * kmass g (kk l q) b t v x y z)) = 1).
    rewrite total_Sum. rewrite <- N1, (sumR_Sum snd l (KBase (fun _ _ _ _ _ => 0), 0)). apply Sum_ext; intros q Hq.
    rewrite total_scal. specialize (N3 q Hq). unfold Pq, weighted in N3. rewrite El in N3. rewrite N3. unfold kw. ring.
Qed.

Lemma P_pos i : in_grid g i -> all_there g l lw C i -> 0 < marg g P C i.
Proof.
  intros Hi Hp. unfold P. rewrite <- (marg_ext g _ _ C i Hi (prob_mix g Hg l b lw)).
  apply (prob_pos self g (kl g l) HG Hg b lw C i mixed_lights Hi).
  exists 0%nat. pose proof (n_pos self g (kl g l) HG) as Hn. split; [exact Hn|]. rewrite nl in Hn.
  rewrite (marg_ext g _ _ C i Hi (Pq_eq 0 Hn)). apply Hp. exact Hn.
Qed.

(** means and moments put together, given the members' *)
Lemma mixed_entry e V i : in_grid g i -> all_there g l lw C i -> (forall q, (q < n)%nat -> e q i = Fin (V q)) ->
  mean_entry g (kl g l) lw C e i = Fin (Sum n (fun q => k_given g l lw C i q * V q)) /\
  central_entry g (kl g l) lw C e i = Fin (Sum n (fun q => k_given g l lw C i q * V q)).
Proof.
  intros Hi Hp He. pose proof (P_pos i Hi Hp) as HP.
  assert (HP' : 0 < marg g (prob g (mixf (kl g l (has_v C))) lw) C i).
  { rewrite (marg_ext g _ _ C i Hi (prob_mix g Hg l (has_v C) lw)). exact HP. }
  assert (ES : Sum n (fun q => k_given g l lw C i q * V q) =
     Sum n (fun q => marg g (share g (kl g l (has_v C)) lw q) C i * V q) / marg g (prob g (mixf (kl g l (has_v C))) lw) C i).
  { unfold Rdiv. rewrite <- Sum_scal_r. apply Sum_ext; intros q Hq. unfold k_given.
    rewrite (marg_ext g _ _ C i Hi (share_mix g Hg l (has_v C) lw q Hq)), (marg_ext g _ _ C i Hi (prob_mix g Hg l (has_v C) lw)).
    unfold Rdiv. ring. }
  rewrite ES, <- (nl false). rewrite <- (nl false) in He. destruct (Bool.bool_dec (nonempty C) true) as [EC|EC]; [|apply Bool.not_true_is_false in EC].
  - split.
    + exact (mean_entry_fin self g (kl g l) HG Hg lw C mixed_lights0 mixed_lights e V i Hi Hlv EC HP' He).
    + exact (central_entry_fin self g (kl g l) HG Hg lw C e V i Hi EC HP' He).
  - destruct (mixed_normal EC) as (N1 & N2 & E).
    assert (E1 : marg g (prob g (mixf (kl g l (has_v C))) lw) C i = 1).
    { rewrite (marg_ext g _ _ C i Hi (prob_mix g Hg l (has_v C) lw)). rewrite E at 2. rewrite marg_none. exact N2. }
    rewrite E1. unfold mean_entry, central_entry. rewrite EC.
    assert (K : forall x : R, x / 1 = x) by (intros; field). rewrite K.
    assert (N1' : forall q, (q < List.length (kl g l false))%nat -> total g (prob g (pf (kl g l false) q) lw) = 1).
    { intros q Hq. rewrite nl in Hq. rewrite <- (N1 q Hq). assert (Eb : b = false) by (unfold b; rewrite E; reflexivity).
      rewrite <- Eb. apply total_ext. apply Pq_eq; assumption. }
    pose proof (marg_entry_fin self g (kl g l) HG lw k C mixed_lights0 mixed_lights HD e V i Hi EC N1' He) as K2. split; exact K2.
Qed.

Lemma given_Ex A h i : in_grid g i -> disjoint A C = true -> all_there g l lw C i ->
  Sum n (fun q => k_given g l lw C i q * Ex g (Pq q) A C h i) = Ex g P A C h i.
Proof.
  intros Hi HDA Hp. pose proof (P_pos i Hi Hp) as HP.
  destruct (Ex_mix self g (kl g l) HG Hg b lw A C h i mixed_lights Hi HDA) as [_ E].
  { intros q Hq. rewrite nl in Hq. rewrite (marg_ext g _ _ C i Hi (Pq_eq q Hq)). apply Hp; assumption. }
  rewrite nl in E. rewrite (Ex_ext_P g _ _ A C h i Hi (prob_mix g Hg l b lw)), (marg_ext g _ _ C i Hi (prob_mix g Hg l b lw)) in E. fold P in E.
  transitivity (Ex g P A C h i * marg g P C i / marg g P C i); [|field; lra]. rewrite <- E. unfold Rdiv. rewrite <- Sum_scal_r.
  apply Sum_ext; intros q Hq. unfold k_given. fold b. fold P.
  rewrite (marg_ext g _ _ C i Hi (share_mix g Hg l b lw q Hq)), (Ex_ext_P g _ _ A C h i Hi (Pq_eq q Hq)). unfold Rdiv. ring.
Qed.

(** *** what the members return *)
Definition mgot (F : member -> res (arr num)) (q : nat) (i : bin) : num :=
  match nth_error (mx_members self) q with
  | Some mb => match F mb with Ok a => ent a (mcoords k C i) | Err _ => NaN end
  | None => NaN end.

Lemma mgot_entries F : (forall q mb, (q < n)%nat -> kind_on mb g (kk l q) -> exists a, F mb = Ok a /\ shp a = mdims k C g) ->
  entries self g (kl g l) k C F (mgot F).
Proof.
  intros HF q mb Hq Hmb. rewrite nl in Hq. unfold nth_mb in Hmb. pose proof (mp_member _ _ _ H q mb Hmb) as Hk.
  destruct (HF q mb Hq Hk) as (a & Ea & Hs). exists a. do 2 (split; [assumption|]). intros i Hi. unfold mgot. rewrite Hmb, Ea. reflexivity.
Qed.
Lemma mgot_val F q (Q : bin -> num -> Prop) : (q < n)%nat ->
  (forall mb, kind_on mb g (kk l q) -> exists a, F mb = Ok a /\ forall i, in_grid g i -> Q i (ent a (mcoords k C i))) ->
  forall i, in_grid g i -> Q i (mgot F q i).
Proof.
  intros Hq HF i Hi. unfold mgot. destruct (nth_error (mx_members self) q) as [mb|] eqn:E.
  - destruct (HF mb (mp_member _ _ _ H q mb E)) as (a & Ea & Ha). rewrite Ea. apply Ha; assumption.
  - apply nth_error_None in E. rewrite (mp_len _ _ _ H) in E. unfold n in Hq. lia.
Qed.
Lemma mgot_nan F i : some_missing g l lw C i -> (forall q, (q < n)%nat -> marg g (Pq q) C i = 0 -> mgot F q i = NaN) ->
  mean_entry g (kl g l) lw C (mgot F) i = NaN /\ central_entry g (kl g l) lw C (mgot F) i = NaN.
Proof.
  intros (q & Hq & E) HF. apply (entry_nan self g (kl g l) HG lw C (mgot F) i q); [rewrite nl; exact Hq|]. apply HF; assumption.
Qed.

(** *** age, position, metallicity *)
Section Other.
Context (Hk : k <> Cv) (Hh : forall q m, (q < n)%nat -> kk l q = KPar m -> no_holes g m lw (cvar k) C).

Lemma tot_q q : (q < n)%nat -> nonempty C = false -> total g (Pq q) = 1.
Proof. intros Hq EC. destruct (mixed_normal EC) as [N _]. auto. Qed.

Lemma other_mean q mb : (q < n)%nat -> kind_on mb g (kk l q) ->
  exists a, mb_mean mb (dname (cvar k) C) lw = Ok a /\ shp a = mdims k C g /\
    forall i, in_grid g i -> (0 < marg g (Pq q) C i -> ent a (mcoords k C i) = Fin (Mean g (Pq q) k C i)) /\
      (marg g (Pq q) C i = 0 -> ent a (mcoords k C i) = NaN).
Proof.
  intros Hq Hmb. pose proof (tot_q q Hq) as HT. pose proof (Hm q Hq) as Hl. specialize (Hh q). unfold Pq in *.
  destruct (kk l q) as [f|m]; cbn [kmass kind_on] in *.
  - destruct Hmb as (c & -> & Hc & Hf). change (weighted g lw (mass g f)) with (prob g f lw) in *.
    destruct (mean_claim c g f lw Hc Hg Hf Hl k C HD HT) as (a & Ea & Hs & He). exists a. do 2 (split; [assumption|]).
    intros i Hi. destruct (He i Hi) as [H1 H2]. split; [|exact H2]. intros Hp. apply H1; assumption.
  - destruct Hmb as (L & s & -> & Hp & Hpm).
    assert (Hl' : par_lw_ok g m lw (has_v C)) by (apply (par_lit_ok g Hg m lw (has_v C)); exact Hl).
    assert (EJ : joint_eq g (weighted g lw (par_joint g m false b)) (par_joint g m lw (has_v C))) by apply (weighted_par g Hg m lw b).
    destruct (par_other_mean L s g m (Fin 1) lw Hp Hg Hpm k C Hk HD Hl') as (a & Ea & Hs & He).
    { intros EC. rewrite <- (total_ext g _ _ EJ). auto. }
    { apply Hh; auto. }
    exists a. do 2 (split; [assumption|]). intros i Hi. destruct (He i Hi) as [H1 H2].
    rewrite (marg_ext g _ _ C i Hi EJ), (joint_marg g m lw Hg). split; [|exact H2].
    intros Hpp. destruct (H1 Hpp) as [H3 _]. rewrite H3. unfold Mean. rewrite (Ex_ext_P g _ _ (cvar k) C _ i Hi EJ). reflexivity.
Qed.
Lemma other_moment q mb j mu : (q < n)%nat -> kind_on mb g (kk l q) -> shp mu = mdims k C g ->
  exists a, mb_noncentral mb (dname (cvar k) C) j mu lw = Ok a /\ shp a = mdims k C g /\
    forall i, in_grid g i -> (forall c, 0 < marg g (Pq q) C i -> ent mu (mcoords k C i) = Fin c ->
         ent a (mcoords k C i) = Fin (Moment g (Pq q) k C j c i)) /\
      (marg g (Pq q) C i = 0 -> ent a (mcoords k C i) = NaN).
Proof.
  intros Hq Hmb Hmu. pose proof (tot_q q Hq) as HT. pose proof (Hm q Hq) as Hl. specialize (Hh q). unfold Pq in *.
  destruct (kk l q) as [f|m]; cbn [kmass kind_on] in *.
  - destruct Hmb as (c & -> & Hc & Hf). change (weighted g lw (mass g f)) with (prob g f lw) in *.
    exact (moment_claim c g f lw Hc Hg Hf Hl k C HD HT j mu Hmu).
  - destruct Hmb as (L & s & -> & Hp & Hpm).
    assert (Hl' : par_lw_ok g m lw (has_v C)) by (apply (par_lit_ok g Hg m lw (has_v C)); exact Hl).
    assert (EJ : joint_eq g (weighted g lw (par_joint g m false b)) (par_joint g m lw (has_v C))) by apply (weighted_par g Hg m lw b).
    destruct (par_other_moment L s g m (Fin 1) lw Hp Hg Hpm k C Hk HD Hl') with (j := j) (mu := mu) as (a & Ea & Hs & He).
    { intros EC. rewrite <- (total_ext g _ _ EJ). auto. }
    { apply Hh; auto. }
    { exact Hmu. }
    exists a. do 2 (split; [assumption|]). intros i Hi. destruct (He i Hi) as [H1 H2].
    rewrite (marg_ext g _ _ C i Hi EJ), (joint_marg g m lw Hg). split; [|exact H2].
    intros c Hpp Hc. rewrite (H1 c Hpp Hc). unfold Moment. rewrite (Ex_ext_P g _ _ (cvar k) C _ i Hi EJ). reflexivity.
Qed.

Lemma mixed_mean_claim : exists m, mix_mean self (dname (cvar k) C) lw = Ok m /\ shp m = mdims k C g /\
  forall i, in_grid g i ->
    (all_there g l lw C i -> ent m (mcoords k C i) = Fin (Mean g P k C i)) /\
    (some_missing g l lw C i -> ent m (mcoords k C i) = NaN).
Proof.
  set (F := fun mb => mb_mean mb (dname (cvar k) C) lw).
  destruct (mix_mean_raw self g (kl g l) HG Hg lw k C mixed_lights0 mixed_lights HD (mgot F)) as (m & E & Hs & He).
  { apply mgot_entries. intros q mb Hq Hmb. destruct (other_mean q mb Hq Hmb) as (a & Ea & Hs & _). exists a; auto. }
  exists m. do 2 (split; [assumption|]). intros i Hi. rewrite He by assumption.
  assert (HV : forall q, (q < n)%nat -> (0 < marg g (Pq q) C i -> mgot F q i = Fin (Mean g (Pq q) k C i)) /\ (marg g (Pq q) C i = 0 -> mgot F q i = NaN)).
  { intros q Hq. apply (mgot_val F q (fun i x => (0 < marg g (Pq q) C i -> x = Fin (Mean g (Pq q) k C i)) /\ (marg g (Pq q) C i = 0 -> x = NaN)) Hq); [|exact Hi].
    intros mb Hmb. destruct (other_mean q mb Hq Hmb) as (a & Ea & _ & Ha). exists a. split; [exact Ea|exact Ha]. }
  split.
  - intros Hp. destruct (mixed_entry (mgot F) (fun q => Mean g (Pq q) k C i) i Hi Hp) as [K _].
    { intros q Hq. apply HV; [assumption|]. apply Hp; assumption. }
    rewrite K. f_equal. apply given_Ex; assumption.
  - intros Hz. apply (mgot_nan F i Hz). intros q Hq E0. apply HV; assumption.
Qed.

Lemma mixed_central_claim j : exists m, mix_central_moment self (dname (cvar k) C) j lw = Ok m /\ shp m = mdims k C g /\
  forall i, in_grid g i ->
    (all_there g l lw C i -> ent m (mcoords k C i) = Fin (Moment g P k C j (Mean g P k C i) i)) /\
    (some_missing g l lw C i -> ent m (mcoords k C i) = NaN).
Proof.
  destruct mixed_mean_claim as (mean & Emean & Hmean & Hme).
  set (F := fun mb => mb_noncentral mb (dname (cvar k) C) j mean lw).
  destruct (mix_central_raw self g (kl g l) HG Hg lw k C mixed_lights0 mixed_lights HD j mean (mgot F) Emean) as (m & E & Hs & He).
  { apply mgot_entries. intros q mb Hq Hmb. destruct (other_moment q mb j mean Hq Hmb Hmean) as (a & Ea & Hs & _). exists a; auto. }
  exists m. do 2 (split; [assumption|]). intros i Hi. rewrite He by assumption. destruct (Hme i Hi) as [Hme1 _].
  assert (HV : forall q, (q < n)%nat -> (forall c, 0 < marg g (Pq q) C i -> ent mean (mcoords k C i) = Fin c ->
      mgot F q i = Fin (Moment g (Pq q) k C j c i)) /\ (marg g (Pq q) C i = 0 -> mgot F q i = NaN)).
  { intros q Hq. apply (mgot_val F q (fun i x => (forall c, 0 < marg g (Pq q) C i -> ent mean (mcoords k C i) = Fin c ->
      x = Fin (Moment g (Pq q) k C j c i)) /\ (marg g (Pq q) C i = 0 -> x = NaN)) Hq); [|exact Hi].
    intros mb Hmb. destruct (other_moment q mb j mean Hq Hmb Hmean) as (a & Ea & _ & Ha). exists a. split; [exact Ea|exact Ha]. }
  split.
  - intros Hp. specialize (Hme1 Hp). destruct (mixed_entry (mgot F) (fun q => Moment g (Pq q) k C j (Mean g P k C i) i) i Hi Hp) as [_ K].
    { intros q Hq. apply HV; [assumption| |assumption]. apply Hp; assumption. }
    rewrite K. f_equal. apply given_Ex; assumption.
  - intros Hz. apply (mgot_nan F i Hz). intros q Hq E0. apply HV; assumption.
Qed.

(** light-weighted with v among the conditioners: the shares of light are those
    without regard to the velocity range *)
Lemma light_given_v_claim : lw = true -> nonempty C = true ->
  (forall q, (q < n)%nat -> lit_ok g (kmass g (kk l q) false) true) ->
  exists m, mix_mean self (dname (cvar k) C) true = Ok m /\ shp m = mdims k C g /\
  forall i, in_grid g i -> all_there g l true C i -> ent m (mcoords k C i) =
    Fin (Sum n (fun q => kw l q * total g (lit g (kmass g (kk l q) false)) / total g (lit g (kmix g l false)) *
                         marg g (weighted g true (kmass g (kk l q) b)) C i * Mean g (weighted g true (kmass g (kk l q) b)) k C i) /
         marg g (weighted g true (kmix g l b)) C i).
Proof.
  clear Hlv. intros El EC Hm0. pose proof mixed_lights as ML. pose proof other_mean as HO. pose proof P_pos as HPP.
  unfold Pq, P in *. rewrite El in *.
  assert (ML0 : lights_ok g (kl g l) false true).
  { intros q Hq. rewrite nl in Hq. rewrite pf_kl by exact Hq. intros E.
    rewrite (total_ext g _ _ (lit_ext g _ _ (mass_kdens g Hg (kk l q) false))). apply (Hm0 q Hq E). }
  set (F := fun mb => mb_mean mb (dname (cvar k) C) true).
  destruct (mix_mean_raw self g (kl g l) HG Hg true k C ML0 ML HD (mgot F)) as (m & E & Hs & He).
  { apply mgot_entries. intros q mb Hq Hmb. destruct (HO q mb Hq Hmb) as (a & Ea & Hs & _). exists a; auto. }
  exists m. do 2 (split; [assumption|]). intros i Hi Hp. rewrite He by assumption. pose proof (HPP i Hi Hp) as HP. clear HPP.
  unfold mean_entry. rewrite EC. pose proof (vol_pos g C i Hg Hi) as Hvol. rewrite nl.
  rewrite (marg_ext g _ _ C i Hi (prob_mix g Hg l (has_v C) true)). fold b.
  set (V := fun q => kw l q * total g (lit g (kmass g (kk l q) false)) / total g (lit g (kmix g l false)) *
       marg g (weighted g true (kmass g (kk l q) b)) C i * Mean g (weighted g true (kmass g (kk l q) b)) k C i).
  rewrite (nsum_map_Fin _ (fun q => V q * / vol g C i)).
  2:{ intros q Hq. apply in_seq in Hq.
      assert (HV : mgot F q i = Fin (Mean g (weighted g true (kmass g (kk l q) b)) k C i)).
      { refine (mgot_val F q (fun i x => 0 < marg g (weighted g true (kmass g (kk l q) b)) C i ->
            x = Fin (Mean g (weighted g true (kmass g (kk l q) b)) k C i)) _ _ i Hi _); [lia| |apply Hp; lia].
        intros mb Hmb. destruct (HO q mb ltac:(lia) Hmb) as (a & Ea & _ & Ha). exists a. split; [exact Ea|]. intros j Hj. apply Ha; exact Hj. }
      rewrite HV, nmul_Fin. f_equal. unfold V, ratio. rewrite !pw_kl, !pf_kl by lia.
      rewrite (marg_ext g _ _ C i Hi (prob_kdens g Hg (kk l q) b true)).
      rewrite (total_ext g _ _ (lit_ext g _ _ (mass_kdens g Hg (kk l q) false))), (total_ext g _ _ (lit_ext g _ _ (mass_mix g Hg l false))).
      unfold Rdiv. ring. }
  rewrite sumR_map_seq, Sum_scal_r. fold P.
  rewrite ndiv_Fin by (apply Rgt_not_eq, Rmult_gt_0_compat; [assumption|apply Rinv_0_lt_compat; assumption]).
  f_equal. field. lra.
Qed.
End Other.
End One.

(** ** velocity *)
Section Vel.
Context (lw : bool) (C : vset) (Hv : has_v C = false).
Context (Hm : forall q, (q < n)%nat -> lit_ok g (kmass g (kk l q) (has_v C)) lw).
Context (HN : nonempty C = false -> lw = false -> k_normal g l).
Let HD : disjoint (cvar Cv) C = true.
Proof. destruct C as [[] [] [] []]; try discriminate Hv; reflexivity. Qed.
Let Hlv : lw = true -> has_v C = false := fun _ => Hv.
Let Pq q := weighted g lw (kmass g (kk l q) (has_v C)).

Lemma par_norm1 q m i : (q < n)%nat -> kk l q = KPar m -> nonempty C = false -> lw = false -> par_prob g m false no_vars i = 1.
Proof.
  intros Hq E EC El. destruct (HN EC El) as [_ N]. specialize (N q Hq). rewrite E in N. cbn [kmass] in N.
  rewrite <- (joint_marg g m false Hg no_vars i), marg_none. exact N.
Qed.

Lemma vel_mean q mb : (q < n)%nat -> kind_on mb g (kk l q) ->
  exists a, mb_mean mb (dname (cvar Cv) C) lw = Ok a /\ shp a = mdims Cv C g /\
    forall i, in_grid g i -> 0 < marg g (Pq q) C i -> ent a (mcoords Cv C i) = Fin (k_v_mean g (kk l q) lw C i).
Proof.
  intros Hq Hmb. pose proof (tot_q lw C Hm HN q Hq) as HT. pose proof (Hm q Hq) as Hl. pose proof (par_norm1 q) as HP1. unfold Pq in *.
  destruct (kk l q) as [f|m]; cbn [kmass kind_on k_v_mean] in *.
  - destruct Hmb as (c & -> & Hc & Hf). change (weighted g lw (mass g f)) with (prob g f lw) in *.
    destruct (mean_claim c g f lw Hc Hg Hf Hl Cv C HD HT) as (a & Ea & Hs & He). exists a. do 2 (split; [assumption|]).
    intros i Hi Hp. destruct (He i Hi) as [H1 _]. apply H1; assumption.
  - destruct Hmb as (L & s & -> & Hp & Hpm).
    assert (Hl' : par_lw_ok g m lw (has_v C)) by (apply (par_lit_ok g Hg m lw (has_v C)); exact Hl). rewrite Hv in Hl'.
    destruct (par_mean_claim L s g m lw Hp Hg Hpm Hl' (Fin 1) C Hv) as (a & Ea & Hs & He).
    exists a. do 2 (split; [assumption|]). intros i Hi Hpp. destruct (He i Hi) as [H1 _].
    rewrite (par_marg g m lw C i Hg Hi) in Hpp. apply H1; [assumption|]. intros EC El. apply (HP1 m i Hq eq_refl EC El).
Qed.

Lemma vel_moment q mb j mu : (q < n)%nat -> kind_on mb g (kk l q) -> shp mu = mdims Cv C g ->
  exists a, mb_noncentral mb (dname (cvar Cv) C) j mu lw = Ok a /\ shp a = mdims Cv C g /\
    forall i c, in_grid g i -> 0 < marg g (Pq q) C i -> ent mu (mcoords Cv C (centre_at (kk l q) C i)) = Fin c ->
      exists M, ent a (mcoords Cv C i) = Fin M /\ k_v_moment g (kk l q) lw C i c j M.
Proof.
  intros Hq Hmb Hmu. pose proof (tot_q lw C Hm HN q Hq) as HT. pose proof (Hm q Hq) as Hl. pose proof (par_norm1 q) as HP1. unfold Pq in *.
  destruct (kk l q) as [f|m]; cbn [kmass kind_on k_v_moment centre_at] in *.
  - destruct Hmb as (c & -> & Hc & Hf). change (weighted g lw (mass g f)) with (prob g f lw) in *.
    destruct (moment_claim c g f lw Hc Hg Hf Hl Cv C HD HT j mu Hmu) as (a & Ea & Hs & He). exists a. do 2 (split; [assumption|]).
    intros i c0 Hi Hp Hc0. destruct (He i Hi) as [H1 _]. eexists; split; [apply H1; eassumption|reflexivity].
  - destruct Hmb as (L & s & -> & Hp & Hpm).
    assert (Hl' : par_lw_ok g m lw (has_v C)) by (apply (par_lit_ok g Hg m lw (has_v C)); exact Hl). rewrite Hv in Hl'.
    destruct (get_moment_at L s g m lw Hp Hg Hpm Hl' 1 C j mu Hv Hmu) as (a & Ea & Hs & He).
    exists a. do 2 (split; [assumption|]). intros i c Hi Hpp Hc. destruct (He i Hi) as [H1 _].
    rewrite (par_marg g m lw C i Hg Hi) in Hpp. eexists. split; [|apply gsum_mixture; assumption].
    apply H1; [assumption| |].
    + intros EC. eapply norm_empty; eauto.
    + exact Hc.
Qed.

Lemma mixed_v_mean_claim : exists m, mix_mean self (dname V_v C) lw = Ok m /\ shp m = dims C g /\
  forall i, in_grid g i -> all_there g l lw C i -> ent m (coords C i) = Fin (k_mean_v g l lw C i).
Proof.
  set (F := fun mb => mb_mean mb (dname (cvar Cv) C) lw).
  pose proof (mixed_lights lw C Hm) as ML. pose proof (mixed_lights0 lw C Hm Hlv) as ML0.
  destruct (mix_mean_raw self g (kl g l) HG Hg lw Cv C ML0 ML HD (mgot Cv C F)) as (m & E & Hs & He).
  { apply mgot_entries. intros q mb Hq Hmb. destruct (vel_mean q mb Hq Hmb) as (a & Ea & Hs & _). exists a; auto. }
  exists m. do 2 (split; [assumption|]). intros i Hi Hp. etransitivity; [apply He; assumption|].
  destruct (mixed_entry lw Cv C Hm HD Hlv HN (mgot Cv C F) (fun q => k_v_mean g (kk l q) lw C i) i Hi Hp) as [K _]; [|exact K].
  intros q Hq. refine (mgot_val Cv C F q (fun i x => 0 < marg g (Pq q) C i -> x = Fin (k_v_mean g (kk l q) lw C i)) Hq _ i Hi _).
  - intros mb Hmb. destruct (vel_mean q mb Hq Hmb) as (a & Ea & _ & Ha). exists a. split; [exact Ea|exact Ha].
  - apply Hp; assumption.
Qed.

Lemma choose_below (N : nat) (Q : nat -> R -> Prop) : (forall q, (q < N)%nat -> exists M, Q q M) ->
  exists Ms, forall q, (q < N)%nat -> Q q (Ms q).
Proof.
  induction N as [|N IH]; intros HQ; [exists (fun _ => 0); lia|].
  destruct IH as (Ms & HM); [intros; apply HQ; lia|]. destruct (HQ N ltac:(lia)) as (M & HMN).
  exists (fun q => if Nat.eqb q N then M else Ms q). intros q Hq. destruct (Nat.eqb_spec q N) as [->|Hne]; [exact HMN|]. apply HM; lia.
Qed.

Lemma mixed_v_central_claim j : exists m, mix_central_moment self (dname V_v C) j lw = Ok m /\ shp m = dims C g /\
  forall i, in_grid g i -> all_there g l lw C i ->
    (forall q, (q < n)%nat -> all_there g l lw C (centre_at (kk l q) C i)) ->
    exists M, ent m (coords C i) = Fin M /\
      k_moment_v g l lw C i (fun q => k_mean_v g l lw C (centre_at (kk l q) C i)) j M.
Proof.
  destruct mixed_v_mean_claim as (mean & Emean & Hmean & Hme).
  set (F := fun mb => mb_noncentral mb (dname (cvar Cv) C) j mean lw).
  pose proof (mixed_lights lw C Hm) as ML. pose proof (mixed_lights0 lw C Hm Hlv) as ML0.
  destruct (mix_central_raw self g (kl g l) HG Hg lw Cv C ML0 ML HD j mean (mgot Cv C F) Emean) as (m & E & Hs & He).
  { apply mgot_entries. intros q mb Hq Hmb. destruct (vel_moment q mb j mean Hq Hmb Hmean) as (a & Ea & Hs & _). exists a; auto. }
  exists m. do 2 (split; [assumption|]). intros i Hi Hp Hpc.
  assert (HQ : forall q, (q < n)%nat -> exists M, mgot Cv C F q i = Fin M /\ k_v_moment g (kk l q) lw C i (k_mean_v g l lw C (centre_at (kk l q) C i)) j M).
  { intros q Hq. refine (mgot_val Cv C F q (fun i x => forall c, 0 < marg g (Pq q) C i -> ent mean (mcoords Cv C (centre_at (kk l q) C i)) = Fin c ->
       exists M, x = Fin M /\ k_v_moment g (kk l q) lw C i c j M) Hq _ i Hi _ _ _).
    - intros mb Hmb. destruct (vel_moment q mb j mean Hq Hmb Hmean) as (a & Ea & _ & Ha). exists a. split; [exact Ea|]. intros; apply Ha; assumption.
    - apply Hp; assumption.
    - apply Hme; [|apply Hpc; assumption]. destruct Hi as (? & ? & ? & ? & ?). pose proof (gg_z _ Hg). unfold centre_at.
      destruct (kk l q); [repeat split; assumption|]. destruct (_ && _)%bool; repeat split; assumption. }
  destruct (choose_below n _ HQ) as (Ms & HM).
  exists (Sum n (fun q => k_given g l lw C i q * Ms q)). split; [|exists Ms; split; [intros q Hq; apply HM; exact Hq|reflexivity]].
  etransitivity; [apply He; assumption|].
  apply (mixed_entry lw Cv C Hm HD Hlv HN (mgot Cv C F) Ms i Hi Hp). intros q Hq. apply HM; assumption.
Qed.
End Vel.
End Mixed.
