(** * MixRegroup: order, repeated members and single members of mixtures. *)
From Coq Require Import Reals Lra Lia List Bool Arith ZArith Permutation FunctionalExtensionality.
From Verif Require Import Num NumLemmas Arr ArrLemmas PyStr Cube Base Spec SpecLemmas Repr DistLemmas Moments MomSpec MomArr MomLemmas MomClaims
  Parametric ParSpec ParRepr ParLemmas ParDist ParMoments GaussSpec ParMomSpec ParMomLemmas ParMomOther VStatMath ParVStat StatGen
  Mixture MixSpec MixGen MixLemmas MixCond MixMom MixExample MixParSpec MixParLemmas MixParClaims MixParExample MixVStat
  Datacube DatacubeClaims Regroup ParMomClaims.
Import ListNotations.
Local Open Scope R_scope.

(** ** invariants *)
Lemma regroup_in {A} (l l' : list (A * R)) : regroup l l' -> forall a, In a (map fst l) <-> In a (map fst l').
Proof.
  induction 1 as [l l' P|b u v l|l l' _ IH|l l' l'' _ IH1 _ IH2]; intros a.
  - split; apply Permutation_in; [|symmetry]; apply Permutation_map; assumption.
  - cbn. tauto.
  - symmetry. apply IH.
  - rewrite IH1. apply IH2.
Qed.
Lemma regroup_sum {A} (h : A -> R) (l l' : list (A * R)) : regroup l l' ->
  sumR (map (fun p => snd p * h (fst p)) l) = sumR (map (fun p => snd p * h (fst p)) l').
Proof.
  induction 1 as [l l' P|b u v l|l l' _ IH|l l' l'' _ IH1 _ IH2].
  - induction P as [|x l l' P IH|x y l|l l' l'' P IH P' IH']; [reflexivity| | |congruence]; unfold sumR in *; cbn [map fold_right]; [rewrite IH; reflexivity|ring].
  - unfold sumR. cbn [map fold_right fst snd]. ring.
  - symmetry. exact IH.
  - congruence.
Qed.

Section Kinds.
Context (l l' : kinds) (HR : regroup l l').
Let d : kind * R := (KBase (fun _ _ _ _ _ => 0), 0).
Lemma each_in (k : kinds) (Q : kind -> Prop) : (forall q, (q < List.length k)%nat -> Q (kk k q)) <-> forall a, In a (map fst k) -> Q a.
Proof.
  split.
  - intros H a Ha. apply in_map_iff in Ha as (p & <- & Hp). destruct (In_nth _ _ d Hp) as (q & Hq & E).
    specialize (H q Hq). unfold kk in H. fold d in H. rewrite E in H. exact H.
  - intros H q Hq. apply H. unfold kk. apply in_map. apply nth_In. exact Hq.
Qed.
Lemma some_in (k : kinds) (Q : kind -> Prop) : (exists q, (q < List.length k)%nat /\ Q (kk k q)) <-> exists a, In a (map fst k) /\ Q a.
Proof.
  split.
  - intros (q & Hq & K). exists (kk k q). split; [|exact K]. unfold kk. apply in_map, nth_In, Hq.
  - intros (a & Ha & K). apply in_map_iff in Ha as (p & <- & Hp). destruct (In_nth _ _ d Hp) as (q & Hq & E).
    exists q. split; [exact Hq|]. unfold kk. fold d. rewrite E. exact K.
Qed.
Lemma kk_each (Q : kind -> Prop) : (forall q, (q < List.length l)%nat -> Q (kk l q)) <-> forall q, (q < List.length l')%nat -> Q (kk l' q).
Proof. rewrite !each_in. split; intros H a Ha; apply H; apply (regroup_in _ _ HR); exact Ha. Qed.
Lemma kk_some (Q : kind -> Prop) : (exists q, (q < List.length l)%nat /\ Q (kk l q)) <-> exists q, (q < List.length l')%nat /\ Q (kk l' q).
Proof. rewrite !some_in. split; intros (a & Ha & K); exists a; (split; [apply (regroup_in _ _ HR); exact Ha|exact K]). Qed.
Lemma kk_sum (h : kind -> R) : Sum (List.length l) (fun q => kw l q * h (kk l q)) = Sum (List.length l') (fun q => kw l' q * h (kk l' q)).
Proof. unfold kw, kk. rewrite <- !(sumR_Sum (fun p => snd p * h (fst p))). apply regroup_sum. exact HR. Qed.

Context (g : grid).
Lemma kmix_eq b : kmix g l b = kmix g l' b.
Proof. unfold kmix. do 5 (apply functional_extensionality; intros ?). apply (kk_sum (fun k => kmass g k b _ _ _ _ _)). Qed.
Lemma all_there_eq lw C i : all_there g l lw C i <-> all_there g l' lw C i.
Proof. apply (kk_each (fun k => 0 < marg g (weighted g lw (kmass g k (has_v C))) C i)). Qed.
Lemma some_missing_eq lw C i : some_missing g l lw C i <-> some_missing g l' lw C i.
Proof. apply (kk_some (fun k => marg g (weighted g lw (kmass g k (has_v C))) C i = 0)). Qed.
Lemma k_normal_eq : k_normal g l <-> k_normal g l'.
Proof.
  unfold k_normal. rewrite (kk_each (fun k => total g (kmass g k false) = 1)).
  assert (E : sumR (map snd l) = sumR (map snd l')).
  { pose proof (regroup_sum (fun _ => 1) l l' HR) as E.
    rewrite !(map_ext (fun p : kind * R => snd p * 1) snd) in E by (intros; ring). exact E. }
  rewrite E. reflexivity.
Qed.
Lemma marg_kshare (k : kinds) lw C i q : marg g (kshare g k lw (has_v C) q) C i =
  kw k q * (if lw then marg g (lit g (kmass g (kk k q) (has_v C))) C i / total g (lit g (kmix g k (has_v C)))
            else marg g (kmass g (kk k q) (has_v C)) C i).
Proof.
  destruct lw; unfold kshare.
  - transitivity (kw k q / total g (lit g (kmix g k (has_v C))) * marg g (lit g (kmass g (kk k q) (has_v C))) C i);
      [|unfold Rdiv; ring]. rewrite <- marg_scal. f_equal. do 5 (apply functional_extensionality; intros ?). unfold Rdiv. ring.
  - apply marg_scal.
Qed.
Lemma k_mean_v_eq lw C i : k_mean_v g l lw C i = k_mean_v g l' lw C i.
Proof.
  set (h := fun k => (if lw then marg g (lit g (kmass g k (has_v C))) C i / total g (lit g (kmix g l (has_v C)))
            else marg g (kmass g k (has_v C)) C i) / marg g (weighted g lw (kmix g l (has_v C))) C i * k_v_mean g k lw C i).
  unfold k_mean_v, k_given. etransitivity; [|etransitivity; [apply (kk_sum h)|]]; apply Sum_ext; intros q Hq; unfold h;
    rewrite marg_kshare, <- ?kmix_eq; unfold Rdiv; ring.
Qed.
End Kinds.

(** sums over values found for each member *)
Lemma regroup_values {A} (Q : A -> R -> Prop) (l l' : list (A * R)) : (forall a, In a (map fst l) -> forall x y, Q a x -> Q a y -> x = y) ->
  regroup l l' -> forall L, map fst L = l -> Forall (fun p => Q (fst (fst p)) (snd p)) L ->
  exists L', map fst L' = l' /\ Forall (fun p => Q (fst (fst p)) (snd p)) L' /\
    forall h, sumR (map (fun p => snd (fst p) * h (fst (fst p)) * snd p) L) = sumR (map (fun p => snd (fst p) * h (fst (fst p)) * snd p) L').
Proof.
  assert (G : (forall a, In a (map fst l) -> forall x y, Q a x -> Q a y -> x = y) -> regroup l l' ->
    (forall L, map fst L = l -> Forall (fun p => Q (fst (fst p)) (snd p)) L ->
      exists L', map fst L' = l' /\ Forall (fun p => Q (fst (fst p)) (snd p)) L' /\
      forall h, sumR (map (fun p => snd (fst p) * h (fst (fst p)) * snd p) L) = sumR (map (fun p => snd (fst p) * h (fst (fst p)) * snd p) L')) /\
    (forall L, map fst L = l' -> Forall (fun p => Q (fst (fst p)) (snd p)) L ->
      exists L', map fst L' = l /\ Forall (fun p => Q (fst (fst p)) (snd p)) L' /\
      forall h, sumR (map (fun p => snd (fst p) * h (fst (fst p)) * snd p) L) = sumR (map (fun p => snd (fst p) * h (fst (fst p)) * snd p) L'))).
  { intros HU HR. induction HR as [l l' P|a u v l|l l' HR IH|l l' l'' HR1 IH1 HR2 IH2].
    - assert (PS : forall (L : list (A * R * R)) k, map fst L = k -> forall k', Permutation k k' -> Forall (fun p => Q (fst (fst p)) (snd p)) L ->
        exists L', map fst L' = k' /\ Forall (fun p => Q (fst (fst p)) (snd p)) L' /\
        forall h, sumR (map (fun p => snd (fst p) * h (fst (fst p)) * snd p) L) = sumR (map (fun p => snd (fst p) * h (fst (fst p)) * snd p) L')).
      { intros L k E k' PP HF. subst k. destruct (Permutation_map_inv _ _ (Permutation_sym PP)) as (L' & E' & P'). exists L'. split; [symmetry; exact E'|]. split.
        - rewrite Forall_forall in *. intros p Hp. apply HF. eapply Permutation_in; [symmetry; exact P'|exact Hp].
        - intros h. unfold sumR. clear E' PP HF. induction P' as [|x l1 l2 P' IH|x y l1|l1 l2 l3 P1 IH1 P2 IH2]; cbn [map fold_right]; [reflexivity|rewrite IH; reflexivity|ring|congruence]. }
      split; intros L E HF; [exact (PS L l E l' P HF)|exact (PS L l' E l (Permutation_sym P) HF)].
    - split.
      + intros L E HF. destruct L as [|[p x] [|[p' y] L]]; try discriminate E. cbn in E. injection E as -> -> <-.
        inversion HF as [|? ? Hx HF']; subst. inversion HF' as [|? ? Hy HF'']; subst. cbn in Hx, Hy.
        assert (x = y) by (apply (HU a); [cbn; tauto|exact Hx|exact Hy]). subst y.
        exists ((a, u + v, x) :: L). split; [reflexivity|]. split; [constructor; assumption|].
        intros h. unfold sumR. cbn [map fold_right fst snd]. ring.
      + intros L E HF. destruct L as [|[p x] L]; try discriminate E. cbn in E. injection E as -> <-.
        inversion HF as [|? ? Hx HF']; subst. cbn in Hx.
        exists ((a, u, x) :: (a, v, x) :: L). split; [reflexivity|]. split; [repeat (constructor; try assumption)|].
        intros h. unfold sumR. cbn [map fold_right fst snd]. ring.
    - apply and_comm. apply IH. intros a Ha. apply HU. apply (regroup_in _ _ HR). exact Ha.
    - assert (HU' : forall a, In a (map fst l') -> forall x y, Q a x -> Q a y -> x = y)
        by (intros a Ha; apply HU; apply (regroup_in _ _ HR1); exact Ha).
      destruct (IH1 HU) as [A1 B1]. destruct (IH2 HU') as [A2 B2]. split; intros L E HF.
      + destruct (A1 L E HF) as (L1 & E1 & F1 & S1). destruct (A2 L1 E1 F1) as (L2 & E2 & F2 & S2). exists L2. do 2 (split; [assumption|]).
        intros h. rewrite S1. apply S2.
      + destruct (B2 L E HF) as (L1 & E1 & F1 & S1). destruct (B1 L1 E1 F1) as (L2 & E2 & F2 & S2). exists L2. do 2 (split; [assumption|]).
        intros h. rewrite S1. apply S2. }
  intros HU HR. apply G; assumption.
Qed.

(** ** the two mixtures *)
Section Two.
Context (self self' : mixture) (g : grid) (l l' : kinds).
Context (H : mixed_on self g l) (H' : mixed_on self' g l') (Hg : good_grid g) (HR : regroup l l').

Lemma regroup_marg_claim S density lw : nonempty S = true -> lit_ok g (kmix g l (has_v S)) lw ->
  exists a b, mix_get_p self (name S) true density lw = Ok a /\ mix_get_p self' (name S) true density lw = Ok b /\
    shp a = dims S g /\ shp b = dims S g /\ forall i, in_grid g i -> ent a (coords S i) = ent b (coords S i) /\ ent a (coords S i) <> NaN.
Proof.
  intros HS Hl. destruct (mixed_marg_claim self g l H Hg S density lw HS Hl) as (a & a' & Ea & _ & Hs & _ & He).
  rewrite (kmix_eq l l' HR) in Hl.
  destruct (mixed_marg_claim self' g l' H' Hg S density lw HS Hl) as (b & b' & Eb & _ & Hs' & _ & He').
  exists a, b. do 4 (split; [assumption|]). intros i Hi. rewrite (proj1 (He i Hi)), (proj1 (He' i Hi)), (kmix_eq l l' HR).
  split; [reflexivity|discriminate].
Qed.
Lemma kmix_marg_nonneg b lw S i : lit_ok g (kmix g l b) lw -> in_grid g i -> 0 <= marg g (weighted g lw (kmix g l b)) S i.
Proof.
  intros Hl Hi. rewrite <- (marg_ext g _ _ S i Hi (prob_mix g Hg l b lw)). apply marg_nonneg; [exact Hi|].
  apply prob_nonneg; [exact Hg| |apply mixed_lw; assumption].
  exact (mixf_nonneg self g (kl g l) (mixed_gen self g l H Hg) b).
Qed.
Lemma regroup_cond_claim A C density lw : nonempty A = true -> nonempty C = true -> disjoint A C = true ->
  lit_ok g (kmix g l (has_v (union A C))) lw -> lit_ok g (kmix g l (has_v C)) lw ->
  exists a b, mix_get_p self (cname A C) true density lw = Ok a /\ mix_get_p self' (cname A C) true density lw = Ok b /\
    shp a = (dims A g ++ dims C g)%list /\ shp b = (dims A g ++ dims C g)%list /\
    forall i, in_grid g i -> ent a (coords A i ++ coords C i) = ent b (coords A i ++ coords C i) /\
      (ent a (coords A i ++ coords C i) = NaN <-> marg g (weighted g lw (kmix g l (has_v C))) C i = 0).
Proof.
  intros HA HC HD Hl Hl2. destruct (mixed_cond_claim self g l H Hg A C density lw HA HC HD Hl) as (a & a' & Ea & _ & Hs & _ & He).
  rewrite (kmix_eq l l' HR) in Hl.
  destruct (mixed_cond_claim self' g l' H' Hg A C density lw HA HC HD Hl) as (b & b' & Eb & _ & Hs' & _ & He').
  exists a, b. do 4 (split; [assumption|]). intros i Hi. destruct (He i Hi) as (P1 & _ & Z1 & _). destruct (He' i Hi) as (P2 & _ & Z2 & _).
  rewrite <- (kmix_eq l l' HR g (has_v C)) in P2, Z2. rewrite <- (kmix_eq l l' HR g (has_v (union A C))) in P2. destruct (kmix_marg_nonneg _ _ C i Hl2 Hi) as [Hp|Hz].
  - rewrite (P1 Hp), (P2 Hp). split; [reflexivity|]. split; [discriminate|intros Hz; rewrite Hz in Hp; exfalso; lra].
  - symmetry in Hz. rewrite (Z1 Hz), (Z2 Hz). tauto.
Qed.

Section One.
Context (lw : bool) (C : vset).
Context (Hm : forall q, (q < List.length l)%nat -> lit_ok g (kmass g (kk l q) (has_v C)) lw).
Context (Hlv : lw = true -> has_v C = false).
Context (HN : nonempty C = false -> lw = false -> k_normal g l).
Let Hm' : forall q, (q < List.length l')%nat -> lit_ok g (kmass g (kk l' q) (has_v C)) lw.
Proof. apply (kk_each l l' HR (fun k => lit_ok g (kmass g k (has_v C)) lw)). exact Hm. Qed.
Let HN' : nonempty C = false -> lw = false -> k_normal g l'.
Proof. intros E1 E2. apply (k_normal_eq l l' HR g). apply HN; assumption. Qed.

Lemma there_or_not i : in_grid g i -> all_there g l lw C i \/ some_missing g l lw C i.
Proof.
  intros Hi. assert (N : forall q, (q < List.length l)%nat -> 0 <= marg g (weighted g lw (kmass g (kk l q) (has_v C))) C i).
  { intros q Hq. rewrite <- (marg_ext g _ _ C i Hi (prob_kdens g Hg (kk l q) (has_v C) lw)).
    apply marg_nonneg; [exact Hi|]. apply prob_nonneg; [exact Hg| |].
    - pose proof (mp_member _ _ _ H q) as K. destruct (nth_error (mx_members self) q) as [mb|] eqn:E.
      + apply (kmass_nonneg mb); auto.
      + apply nth_error_None in E. rewrite (mp_len _ _ _ H) in E. lia.
    - intros El. rewrite (total_ext g _ _ (lit_ext g _ _ (mass_kdens g Hg (kk l q) (has_v C)))). apply (Hm q Hq El). }
  unfold all_there, some_missing. revert N. generalize (List.length l). intros n. induction n as [|n IH]; intros N; [left; intros; lia|].
  destruct IH as [A|(q & Hq & E)]; [intros; apply N; lia| |right; exists q; split; [lia|exact E]].
  destruct (N n ltac:(lia)) as [P|Z]; [|right; exists n; split; [lia|congruence]].
  left. intros q Hq. destruct (Nat.eq_dec q n) as [->|D]; [exact P|apply A; lia].
Qed.

Section Other.
Context (k : coord) (HD : disjoint (cvar k) C = true) (Hk : k <> Cv).
Context (Hh : forall q m, (q < List.length l)%nat -> kk l q = KPar m -> no_holes g m lw (cvar k) C).
Let Hh' : forall q m, (q < List.length l')%nat -> kk l' q = KPar m -> no_holes g m lw (cvar k) C.
Proof.
  intros q m Hq. revert q Hq m. apply (kk_each l l' HR (fun a => forall m, a = KPar m -> no_holes g m lw (cvar k) C)).
  intros q Hq m. apply Hh; exact Hq.
Qed.

Lemma regroup_mean_claim : exists a b, mix_mean self (dname (cvar k) C) lw = Ok a /\ mix_mean self' (dname (cvar k) C) lw = Ok b /\
  shp a = mdims k C g /\ shp b = mdims k C g /\ forall i, in_grid g i -> ent a (mcoords k C i) = ent b (mcoords k C i) /\
    (ent a (mcoords k C i) = NaN <-> some_missing g l lw C i).
Proof.
  destruct (mixed_mean_claim self g l H Hg lw k C Hm HD Hlv HN Hk Hh) as (a & Ea & Hs & He).
  destruct (mixed_mean_claim self' g l' H' Hg lw k C Hm' HD Hlv HN' Hk Hh') as (b & Eb & Hs' & He').
  exists a, b. do 4 (split; [assumption|]). intros i Hi. destruct (He i Hi) as [A1 M1]. destruct (He' i Hi) as [A2 M2].
  rewrite <- (all_there_eq l l' HR), <- (kmix_eq l l' HR) in A2. rewrite <- (some_missing_eq l l' HR) in M2.
  destruct (there_or_not i Hi) as [T|T].
  - rewrite (A1 T), (A2 T). split; [reflexivity|]. split; [discriminate|]. intros (q & Hq & E). specialize (T q Hq). rewrite E in T. exfalso; lra.
  - rewrite (M1 T), (M2 T). tauto.
Qed.
Lemma regroup_central_claim j : exists a b, mix_central_moment self (dname (cvar k) C) j lw = Ok a /\
  mix_central_moment self' (dname (cvar k) C) j lw = Ok b /\
  shp a = mdims k C g /\ shp b = mdims k C g /\ forall i, in_grid g i -> ent a (mcoords k C i) = ent b (mcoords k C i) /\
    (ent a (mcoords k C i) = NaN <-> some_missing g l lw C i).
Proof.
  destruct (mixed_central_claim self g l H Hg lw k C Hm HD Hlv HN Hk Hh j) as (a & Ea & Hs & He).
  destruct (mixed_central_claim self' g l' H' Hg lw k C Hm' HD Hlv HN' Hk Hh' j) as (b & Eb & Hs' & He').
  exists a, b. do 4 (split; [assumption|]). intros i Hi. destruct (He i Hi) as [A1 M1]. destruct (He' i Hi) as [A2 M2].
  rewrite <- (all_there_eq l l' HR), <- (kmix_eq l l' HR) in A2. rewrite <- (some_missing_eq l l' HR) in M2.
  destruct (there_or_not i Hi) as [T|T].
  - rewrite (A1 T), (A2 T). split; [reflexivity|]. split; [discriminate|]. intros (q & Hq & E). specialize (T q Hq). rewrite E in T. exfalso; lra.
  - rewrite (M1 T), (M2 T). tauto.
Qed.
End Other.

Section Velocity.
Context (Hv : has_v C = false).
Lemma regroup_v_mean_claim : exists a b, mix_mean self (dname V_v C) lw = Ok a /\ mix_mean self' (dname V_v C) lw = Ok b /\
  shp a = dims C g /\ shp b = dims C g /\ forall i, in_grid g i -> all_there g l lw C i ->
    ent a (coords C i) = ent b (coords C i) /\ ent a (coords C i) <> NaN.
Proof.
  destruct (mixed_v_mean_claim self g l H Hg lw C Hv Hm HN) as (a & Ea & Hs & He).
  destruct (mixed_v_mean_claim self' g l' H' Hg lw C Hv Hm' HN') as (b & Eb & Hs' & He').
  exists a, b. do 4 (split; [assumption|]). intros i Hi T. rewrite He by assumption.
  rewrite He' by (try assumption; apply (all_there_eq l l' HR); exact T). rewrite (k_mean_v_eq l l' HR). split; [reflexivity|discriminate].
Qed.
Lemma k_v_moment_unique a i c j : in_grid g i -> forall x y, k_v_moment g a lw C i c j x -> k_v_moment g a lw C i c j y -> x = y.
Proof.
  intros Hi x y. destruct a as [f|m]; cbn [k_v_moment]; [congruence|]. apply mixture_moment_unique. exact Hi.
Qed.
Lemma k_moment_v_regroup i (c : kind -> R) j M : in_grid g i -> k_moment_v g l lw C i (fun q => c (kk l q)) j M -> k_moment_v g l' lw C i (fun q => c (kk l' q)) j M.
Proof.
  intros Hi (Ms & HM & EM).
  set (h := fun k => (if lw then marg g (lit g (kmass g k (has_v C))) C i / total g (lit g (kmix g l (has_v C)))
            else marg g (kmass g k (has_v C)) C i) / marg g (weighted g lw (kmix g l (has_v C))) C i).
  set (d := (KBase (fun _ _ _ _ _ => 0), 0) : kind * R).
  set (L := map (fun q => (nth q l d, Ms q)) (seq 0 (List.length l))).
  assert (EL : map fst L = l).
  { unfold L. rewrite map_map. cbn [fst]. apply nth_ext with (d := d) (d' := d); [rewrite map_length, seq_length; reflexivity|].
    intros q Hq. rewrite map_length, seq_length in Hq.
    rewrite (nth_indep _ d (nth 0 l d)) by (rewrite map_length, seq_length; exact Hq).
    rewrite (map_nth (fun q => nth q l d)), seq_nth by exact Hq. reflexivity. }
  assert (FL : Forall (fun p => k_v_moment g (fst (fst p)) lw C i (c (fst (fst p))) j (snd p)) L).
  { apply Forall_forall. intros p Hp. apply in_map_iff in Hp as (q & <- & Hq). apply in_seq in Hq. cbn [fst snd]. apply (HM q). lia. }
  destruct (regroup_values (fun a x => k_v_moment g a lw C i (c a) j x) l l' (fun a _ => k_v_moment_unique a i (c a) j Hi) HR L EL FL) as (L' & EL' & FL' & S).
  assert (Len : List.length L' = List.length l') by (rewrite <- EL', map_length; reflexivity).
  assert (Fst : forall q, nth q l' d = fst (nth q L' (d, 0))) by (intros q; rewrite <- EL'; exact (map_nth fst L' (d, 0) q)).
  exists (fun q => snd (nth q L' (d, 0))). split.
  - intros q Hq. rewrite Forall_forall in FL'. unfold kk. fold d. rewrite Fst. apply (FL' (nth q L' (d, 0))). apply nth_In. lia.
  - rewrite EM. specialize (S h). rewrite (sumR_Sum _ L' (d, 0)), Len in S. rewrite (sumR_Sum _ L (d, 0)) in S.
    assert (LL : List.length L = List.length l) by (unfold L; rewrite map_length, seq_length; reflexivity). rewrite LL in S.
    etransitivity; [|etransitivity; [exact S|]]; apply Sum_ext; intros q Hq.
    + assert (NL : nth q L (d, 0) = (nth q l d, Ms q)).
      { unfold L. rewrite (nth_indep _ (d, 0) ((fun q => (nth q l d, Ms q)) 0%nat)) by (rewrite map_length, seq_length; exact Hq).
        rewrite (map_nth (fun q => (nth q l d, Ms q))), seq_nth by exact Hq. reflexivity. }
      rewrite NL. cbn [fst snd]. unfold k_given. rewrite marg_kshare. unfold h, kw, kk. fold d. unfold Rdiv. ring.
    + unfold k_given. rewrite marg_kshare, <- !(kmix_eq l l' HR). unfold h, kw, kk. fold d. rewrite Fst. unfold Rdiv. ring.
Qed.
Lemma k_moment_v_unique (k : kinds) i c j M M' : in_grid g i -> k_moment_v g k lw C i c j M -> k_moment_v g k lw C i c j M' -> M = M'.
Proof.
  intros Hi (Ms & HM & ->) (Ms' & HM' & ->). apply Sum_ext. intros q Hq. f_equal. eapply k_v_moment_unique; [exact Hi|apply HM; exact Hq|apply HM'; exact Hq].
Qed.
Lemma regroup_v_central_claim j : exists a b, mix_central_moment self (dname V_v C) j lw = Ok a /\
  mix_central_moment self' (dname V_v C) j lw = Ok b /\
  shp a = dims C g /\ shp b = dims C g /\ forall i, in_grid g i -> all_there g l lw C i ->
    (forall q, (q < List.length l)%nat -> all_there g l lw C (centre_at (kk l q) C i)) ->
    ent a (coords C i) = ent b (coords C i) /\ ent a (coords C i) <> NaN.
Proof.
  destruct (mixed_v_central_claim self g l H Hg lw C Hv Hm HN j) as (a & Ea & Hs & He).
  destruct (mixed_v_central_claim self' g l' H' Hg lw C Hv Hm' HN' j) as (b & Eb & Hs' & He').
  exists a, b. do 4 (split; [assumption|]). intros i Hi T TC. destruct (He i Hi T TC) as (M & EM & KM).
  assert (T' := proj1 (all_there_eq l l' HR g lw C i) T).
  destruct (He' i Hi T') as (M' & EM' & KM').
  { apply (kk_each l l' HR (fun a => all_there g l' lw C (centre_at a C i))). intros q Hq. apply (all_there_eq l l' HR). apply TC. exact Hq. }
  rewrite EM, EM'. split; [|discriminate]. f_equal.
  apply (k_moment_v_regroup i (fun a => k_mean_v g l lw C (centre_at a C i)) j M Hi) in KM.
  apply (k_moment_v_unique l' i _ j M M' Hi KM). destruct KM' as (Ms & HM & ->). exists Ms. split; [|reflexivity].
  intros q Hq. specialize (HM q Hq). rewrite (k_mean_v_eq l l' HR). exact HM.
Qed.
End Velocity.
End One.
End Two.

(** ** datacubes *)
Definition entry (a : arr num) (w i j : nat) : R := match ent a [w; i; j] with Fin r => r | _ => 0 end.
Lemma regroup_ybar_claim n nx ny (l l' : list (arr num * R)) : l <> [] -> regroup l l' ->
  (forall a, In a (map fst l) -> exists D, is_cube a n nx ny D) ->
  exists y y', mixture_ybar (map (fun m => Some (fst m)) l) (map (fun m => Fin (snd m)) l) = Ok y /\
    mixture_ybar (map (fun m => Some (fst m)) l') (map (fun m => Fin (snd m)) l') = Ok y' /\
    shp y = [n; nx; ny] /\ shp y' = [n; nx; ny] /\
    forall w i j, (w < n)%nat -> (i < nx)%nat -> (j < ny)%nat -> ent y [w; i; j] = ent y' [w; i; j] /\ exists r, ent y [w; i; j] = Fin r.
Proof.
  intros Hne HR HD.
  assert (One : forall k : list (arr num * R), k <> [] -> (forall a, In a (map fst k) -> exists D, is_cube a n nx ny D) ->
    exists y, mixture_ybar (map (fun m => Some (fst m)) k) (map (fun m => Fin (snd m)) k) = Ok y /\
      is_cube y n nx ny (fun w i j => sumR (map (fun m => snd m * entry (fst m) w i j) k))).
  { intros k Hk Hc. set (K := map (fun m => (m, entry (fst m))) k).
    destruct (mixture_ybar_claim n nx ny K) as (y & Ey & Hy).
    - destruct k; [congruence|discriminate].
    - apply Forall_forall. intros p Hp. apply in_map_iff in Hp as (m & <- & Hm). cbn [fst snd].
      destruct (Hc (fst m) (in_map fst _ _ Hm)) as (D & Hs & He). split; [exact Hs|]. intros w i j Hw Hi Hj. unfold entry. rewrite He by assumption. reflexivity.
    - exists y. unfold K in Ey, Hy. rewrite !map_map in Ey. split; [exact Ey|]. destruct Hy as [Hs He]. split; [exact Hs|].
      intros w i j Hw Hi Hj. rewrite He by assumption. rewrite map_map. reflexivity. }
  destruct (One l Hne HD) as (y & Ey & Hs & He).
  assert (Hne' : l' <> []).
  { intros E. destruct l as [|[a u] k]; [congruence|]. pose proof (proj1 (regroup_in _ _ HR a) (or_introl eq_refl)) as K. rewrite E in K. exact K. }
  destruct (One l' Hne') as (y' & Ey' & Hs' & He'); [intros a Ha; apply HD; apply (regroup_in _ _ HR); exact Ha|].
  exists y, y'. do 4 (split; [assumption|]). intros w i j Hw Hi Hj. rewrite He, He' by assumption.
  rewrite (regroup_sum (fun a => entry a w i j) l l' HR). split; [reflexivity|eexists; reflexivity].
Qed.

(** ** a single member *)
Section Single.
Context (c : component) (g : grid) (f : joint) (Hon : comp_on c g f) (Hg : good_grid g) (Hf : nonneg g f).
Let self := Mixture (comp_cube c) [comp_member c] [Fin 1].
Let l : parts := [(f, 1)].
Lemma single_on : mix_on self g [c] l.
Proof.
  constructor; try reflexivity; [exact (cm_cube _ _ _ Hon)|discriminate|].
  intros [|q] c' p E1 E2; cbn in E1, E2; [|destruct q; discriminate E1]. injection E1 as <-. injection E2 as <-. cbn. split; [exact Hon|]. split; [exact Hf|lra].
Qed.
Lemma single_mixf : mixf l = f.
Proof. do 5 (apply functional_extensionality; intros ?). unfold mixf, l, sumR. cbn. ring. Qed.
Let HG := mix_on_gen self g [c] l single_on.
Lemma single_marg S density lw : nonempty S = true -> lw_ok g f lw ->
  exists a b, mix_get_p self (name S) true density lw = Ok a /\ get_p c (name S) density lw = Ok b /\ shp a = dims S g /\ shp b = dims S g /\
    forall i, in_grid g i -> ent a (coords S i) = ent b (coords S i).
Proof.
  intros HS Hl. rewrite <- single_mixf in Hl.
  destruct (marg_as_plain self g [c] l single_on Hg c S density lw) as (a & b & Ea & Eb & Hs & Hs' & He); auto; [rewrite single_mixf; exact Hon|].
  exists a, b. do 4 (split; [assumption|]). intros i Hi. apply He, Hi.
Qed.
Lemma single_cond A C density lw : nonempty A = true -> nonempty C = true -> disjoint A C = true -> lw_ok g f lw ->
  exists a b, mix_get_p self (cname A C) true density lw = Ok a /\ get_p c (cname A C) density lw = Ok b /\
    shp a = (dims A g ++ dims C g)%list /\ shp b = (dims A g ++ dims C g)%list /\
    forall i, in_grid g i -> ent a (coords A i ++ coords C i) = ent b (coords A i ++ coords C i).
Proof.
  intros HA HC HD Hl. rewrite <- single_mixf in Hl.
  destruct (cond_as_plain self g [c] l single_on Hg c A C density lw) as (a & b & Ea & Eb & Hs & Hs' & He); auto; [rewrite single_mixf; exact Hon|].
  exists a, b. do 4 (split; [assumption|]). intros i Hi. apply He, Hi.
Qed.
Lemma single_mean k C lw : lw_ok g f lw -> disjoint (cvar k) C = true -> (nonempty C = false -> lw = false -> total g (mass g f) = 1) ->
  exists a b, mix_mean self (dname (cvar k) C) lw = Ok a /\ get_mean (base_obj c) (dname (cvar k) C) lw = Ok b /\
    shp a = mdims k C g /\ shp b = mdims k C g /\ forall i, in_grid g i -> ent a (mcoords k C i) = ent b (mcoords k C i).
Proof.
  intros Hl HD HT. destruct (mix_mean_claim self g [c] l lw k C single_on Hg) as (a & Ea & Hs & He); auto.
  { intros [|q] Hq; [exact Hl|cbn in Hq; lia]. }
  { intros E1 E2. split; [unfold sumR; cbn; ring|]. intros [|q] Hq; [apply HT; assumption|cbn in Hq; lia]. }
  destruct (mean_claim c g f lw Hon Hg Hf Hl k C HD) as (b & Eb & Hs' & He').
  { intros E1. destruct lw; [apply total_light; apply Rgt_not_eq, Hl; reflexivity|apply HT; auto]. }
  exists a, b. do 4 (split; [assumption|]). intros i Hi. destruct (He i Hi) as [A1 A2]. destruct (He' i Hi) as [B1 B2].
  rewrite single_mixf in A1. destruct (marg_nonneg g _ C i Hi (prob_nonneg g f lw Hg Hf Hl)) as [Hp|Hz].
  - rewrite (proj1 (B1 Hp)). apply A1. intros [|q] Hq; [exact Hp|cbn in Hq; lia].
  - symmetry in Hz. rewrite (B2 Hz). apply A2. exists 0%nat. split; [cbn; lia|exact Hz].
Qed.
Lemma single_central k C lw j : lw_ok g f lw -> disjoint (cvar k) C = true -> (nonempty C = false -> lw = false -> total g (mass g f) = 1) ->
  exists a b, mix_central_moment self (dname (cvar k) C) j lw = Ok a /\ get_central_moment (base_obj c) (dname (cvar k) C) j lw = Ok b /\
    shp a = mdims k C g /\ shp b = mdims k C g /\ forall i, in_grid g i -> ent a (mcoords k C i) = ent b (mcoords k C i).
Proof.
  intros Hl HD HT. destruct (MixExample.central_claim self g [c] l lw k C j single_on Hg) as (a & Ea & Hs & He); auto.
  { intros [|q] Hq; [exact Hl|cbn in Hq; lia]. }
  { intros E1 E2. split; [unfold sumR; cbn; ring|]. intros [|q] Hq; [apply HT; assumption|cbn in Hq; lia]. }
  destruct (MomClaims.central_claim c g f lw Hon Hg Hf Hl k C HD) with (j := j) as (b & Eb & Hs' & He').
  { intros E1. destruct lw; [apply total_light; apply Rgt_not_eq, Hl; reflexivity|apply HT; auto]. }
  exists a, b. do 4 (split; [assumption|]). intros i Hi. destruct (He i Hi) as [A1 A2]. destruct (He' i Hi) as [B1 B2].
  rewrite single_mixf in A1. destruct (marg_nonneg g _ C i Hi (prob_nonneg g f lw Hg Hf Hl)) as [Hp|Hz].
  - rewrite (B1 Hp). apply A1. intros [|q] Hq; [exact Hp|cbn in Hq; lia].
  - symmetry in Hz. rewrite (B2 Hz). apply A2. exists 0%nat. split; [cbn; lia|exact Hz].
Qed.
End Single.
Lemma single_ybar a n nx ny D : is_cube a n nx ny D ->
  exists y, mixture_ybar [Some a] [Fin 1] = Ok y /\ shp y = shp a /\
    forall w i j, (w < n)%nat -> (i < nx)%nat -> (j < ny)%nat -> ent y [w; i; j] = ent a [w; i; j].
Proof.
  intros Ha. destruct (mixture_ybar_claim n nx ny [(a, 1, D)]) as (y & Ey & Hs & He); [discriminate|repeat constructor; apply Ha|].
  exists y. split; [exact Ey|]. split; [rewrite Hs; symmetry; apply Ha|]. intros w i j Hw Hi Hj.
  rewrite He, (proj2 Ha) by assumption. f_equal. unfold sumR. cbn. ring.
Qed.
