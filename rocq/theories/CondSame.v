(** * CondSame: statistics agree where the conditional probabilities do. *)
From Coq Require Import Reals Lra Lia List Bool Arith ZArith String Ascii.
From Verif Require Import Num NumLemmas Arr PyStr Cube Base Spec SpecLemmas Repr DistLemmas
  Moments MomSpec MomLemmas MomLemmas2 MomLemmas3 MomLemmas4 MomLemmas5 MomLemmas6 Stat LMom MomClaims SameSpec.
Import ListNotations.
Local Open Scope R_scope.

Lemma in_range_self b n i : (i < n)%nat -> In i (range_if b n i).
Proof. intros H. destruct b; cbn [range_if]; [apply in_seq; lia|left; reflexivity]. Qed.
Lemma bins_over_self g A i : in_grid g i -> In i (bins_over g A i).
Proof.
  intros (H1 & H2 & H3 & H4 & H5). unfold bins_over.
  apply in_flat_map. exists (bt i). split; [apply in_range_self; exact H1|].
  apply in_flat_map. exists (bv i). split; [apply in_range_self; exact H2|].
  apply in_flat_map. exists (bx i). split; [apply in_range_self; exact H3|].
  apply in_flat_map. exists (by_ i). split; [apply in_range_self; exact H4|].
  apply in_map_iff. exists (bz i). split; [destruct i; reflexivity|apply in_range_self; exact H5].
Qed.

Lemma alike_weaken g ra rb pa pb (Q1 Q2 : bin -> Prop) : (forall i, in_grid g i -> Q2 i -> Q1 i) -> alike g ra rb pa pb Q1 -> alike g ra rb pa pb Q2.
Proof. intros W (a & b & Ea & Eb & He). exists a, b. split; [exact Ea|]. split; [exact Eb|]. intros i Hi Hq. apply He; auto. Qed.
Lemma mcoords_no_x k C i : is_x k = false -> mcoords k C i = coords C i.
Proof. destruct k; intros H; try discriminate H; reflexivity. Qed.

Section Same.
Context (o : obj) (g : grid) (Hc : cube_on (o_cube o) g) (Hg : good_grid g).
Context (P P' : joint) (lw lw' : bool) (C C' : vset) (HP : nonneg g P) (HP' : nonneg g P').

(** the conditional probabilities of A agree at the A-bins of i *)
Definition same (A : vset) (i : bin) : Prop :=
  0 < marg g P C i /\ 0 < marg g P' C' i /\
  forall j, In j (bins_over g A i) -> marg g P (union A C) j / marg g P C i = marg g P' (union A C') j / marg g P' C' i.
Definition fit (A : vset) (i : bin) : Prop := same A i \/ (marg g P C i = 0 /\ marg g P' C' i = 0).

Lemma Ex_same A h h' i : same A i -> (forall j, In j (bins_over g A i) -> h j = h' j) ->
  Ex g P A C h i = Ex g P' A C' h' i.
Proof.
  intros (H1 & H2 & Hj) Hh. unfold Ex. rewrite <- !sum_bins_over. unfold Rdiv. rewrite !(Rmult_comm _ (/ _)).
  rewrite <- !sumR_scal. rewrite !map_map. apply sumR_map_ext. intros j Hin. rewrite (Hh j Hin).
  transitivity (h' j * (marg g P (union A C) j / marg g P C i)); [unfold Rdiv; ring|]. rewrite (Hj j Hin). unfold Rdiv; ring.
Qed.
Lemma Mean_same k i : same (cvar k) i -> Mean g P k C i = Mean g P' k C' i.
Proof. intros H. apply Ex_same; auto. Qed.
Lemma Moment_same k j c i : same (cvar k) i -> Moment g P k C j c i = Moment g P' k C' j c i.
Proof. intros H. apply Ex_same; auto. Qed.
Lemma Central_same k j i : same (cvar k) i ->
  Moment g P k C j (Mean g P k C i) i = Moment g P' k C' j (Mean g P' k C' i) i.
Proof. intros H. rewrite <- (Mean_same k i H). apply Moment_same; assumption. Qed.
Lemma Variance_same k i : same (cvar k) i -> Variance g P k C i = Variance g P' k C' i.
Proof. apply Central_same. Qed.
Lemma Covar_same a b i : same (cvar a) i -> same (cvar b) i -> same (union (cvar a) (cvar b)) i ->
  Covar g P a b C i = Covar g P' a b C' i.
Proof. intros Ha Hb H. apply Ex_same; [exact H|]. intros j _. rewrite (Mean_same a i Ha), (Mean_same b i Hb). reflexivity. Qed.

Lemma p_alike A : gives o g P lw A C -> gives o g P' lw' A C' ->
  alike g (o_get_p o (dname A C) false lw) (o_get_p o (dname A C') false lw')
    (fun i => coords A i ++ coords C i)%list (fun i => coords A i ++ coords C' i)%list (fit A).
Proof.
  intros (a & Ea & _ & Ha) (b & Eb & _ & Hb). exists a, b. split; [exact Ea|]. split; [exact Eb|].
  intros i Hi [(H1 & H2 & Hj)|[H1 H2]].
  - rewrite (proj1 (Ha i Hi) H1), (proj1 (Hb i Hi) H2). f_equal. apply Hj. apply bins_over_self; assumption.
  - rewrite (proj2 (Ha i Hi) H1), (proj2 (Hb i Hi) H2). reflexivity.
Qed.

Section One.
Context (k : coord) (HD : disjoint (cvar k) C = true) (HD' : disjoint (cvar k) C' = true).
Context (HG : gives o g P lw (cvar k) C) (HG' : gives o g P' lw' (cvar k) C').
Context (HM : o_mean o (dname (cvar k) C) = None) (HM' : o_mean o (dname (cvar k) C') = None).
Context (HN : o_moment o (dname (cvar k) C) = None) (HN' : o_moment o (dname (cvar k) C') = None).

Lemma mean_alike : alike g (get_mean o (dname (cvar k) C) lw) (get_mean o (dname (cvar k) C') lw') (mcoords k C) (mcoords k C') (fit (cvar k)).
Proof.
  destruct (mean_ok o g P lw Hc Hg k C HD HG HM) as (a & Ea & _ & Ha).
  destruct (mean_ok o g P' lw' Hc Hg k C' HD' HG' HM') as (b & Eb & _ & Hb).
  exists a, b. split; [exact Ea|]. split; [exact Eb|]. intros i Hi [S|[H1 H2]].
  - rewrite (proj1 (Ha i Hi) (proj1 S)), (proj1 (Hb i Hi) (proj1 (proj2 S))), (Mean_same k i S). reflexivity.
  - rewrite (proj2 (Ha i Hi) H1), (proj2 (Hb i Hi) H2). reflexivity.
Qed.
Lemma moment_alike j mu mu' : shp mu = mdims k C g -> shp mu' = mdims k C' g ->
  alike g (get_noncentral_moment o (dname (cvar k) C) j mu lw) (get_noncentral_moment o (dname (cvar k) C') j mu' lw') (mcoords k C) (mcoords k C')
    (fun i => fit (cvar k) i /\ exists c, ent mu (mcoords k C i) = Fin c /\ ent mu' (mcoords k C' i) = Fin c).
Proof.
  intros Hs Hs'. destruct (moment_ok o g P lw Hc Hg k C HD HG j mu HN Hs) as (a & Ea & _ & Ha).
  destruct (moment_ok o g P' lw' Hc Hg k C' HD' HG' j mu' HN' Hs') as (b & Eb & _ & Hb).
  exists a, b. split; [exact Ea|]. split; [exact Eb|]. intros i Hi [[S|[H1 H2]] (c & E1 & E2)].
  - rewrite (proj1 (Ha i Hi) c (proj1 S) E1), (proj1 (Hb i Hi) c (proj1 (proj2 S)) E2), (Moment_same k j c i S). reflexivity.
  - rewrite (proj2 (Ha i Hi) H1), (proj2 (Hb i Hi) H2). reflexivity.
Qed.
Lemma central_alike j : alike g (get_central_moment o (dname (cvar k) C) j lw) (get_central_moment o (dname (cvar k) C') j lw')
  (mcoords k C) (mcoords k C') (fit (cvar k)).
Proof.
  destruct (central_ok o g P lw Hc Hg k C HD HG HM HN j) as (a & Ea & _ & Ha).
  destruct (central_ok o g P' lw' Hc Hg k C' HD' HG' HM' HN' j) as (b & Eb & _ & Hb).
  exists a, b. split; [exact Ea|]. split; [exact Eb|]. intros i Hi [S|[H1 H2]].
  - rewrite (proj1 (Ha i Hi) (proj1 S)), (proj1 (Hb i Hi) (proj1 (proj2 S))), (Central_same k j i S). reflexivity.
  - rewrite (proj2 (Ha i Hi) H1), (proj2 (Hb i Hi) H2). reflexivity.
Qed.
Lemma dispersion_alike : alike g (get_dispersion o (dname (cvar k) C) lw) (get_dispersion o (dname (cvar k) C') lw')
  (mcoords k C) (mcoords k C') (fit (cvar k)).
Proof.
  destruct (dispersion_ok o g P lw Hc Hg HP k C HD HG HM HN) as (a & Ea & _ & Ha).
  destruct (dispersion_ok o g P' lw' Hc Hg HP' k C' HD' HG' HM' HN') as (b & Eb & _ & Hb).
  exists a, b. split; [exact Ea|]. split; [exact Eb|]. intros i Hi [S|[H1 H2]].
  - rewrite (proj1 (Ha i Hi) (proj1 S)), (proj1 (Hb i Hi) (proj1 (proj2 S))), (Variance_same k i S). reflexivity.
  - rewrite (proj2 (Ha i Hi) H1), (proj2 (Hb i Hi) H2). reflexivity.
Qed.
Lemma normalised_alike j : (0 < j)%nat ->
  alike g (get_normalised_central_moment o (dname (cvar k) C) j lw) (get_normalised_central_moment o (dname (cvar k) C') j lw')
  (mcoords k C) (mcoords k C') (fit (cvar k)).
Proof.
  intros Hj. destruct (normalised_ok o g P lw Hc Hg HP k C HD HG HM HN j Hj) as (a & Ea & _ & Ha).
  destruct (normalised_ok o g P' lw' Hc Hg HP' k C' HD' HG' HM' HN' j Hj) as (b & Eb & _ & Hb).
  exists a, b. split; [exact Ea|]. split; [exact Eb|]. intros i Hi [S|[H1 H2]].
  - destruct (Ha i Hi) as (A1 & A2 & _). destruct (Hb i Hi) as (B1 & B2 & _). pose proof S as (S1 & S2 & _).
    destruct (Variance_nonneg g P HP k C i Hi S1) as [V|V].
    + rewrite A1, B1 by (try assumption; rewrite <- (Variance_same k i S); assumption).
      rewrite (Central_same k j i S), (Variance_same k i S). reflexivity.
    + rewrite A2, B2 by (try assumption; try (rewrite <- (Variance_same k i S)); symmetry; assumption).
      rewrite (Central_same k j i S). reflexivity.
  - rewrite (proj2 (proj2 (Ha i Hi)) H1), (proj2 (proj2 (Hb i Hi)) H2). reflexivity.
Qed.
Lemma excess_alike f2m1 : alike g (get_excess_kurtosis f2m1 o (dname (cvar k) C) lw) (get_excess_kurtosis f2m1 o (dname (cvar k) C') lw')
  (mcoords k C) (mcoords k C') (fit (cvar k)).
Proof.
  destruct (excess_kurtosis_ok o g P lw Hc Hg HP k C HD HG HM HN f2m1) as (a & x & Ea & Ex & Hx).
  destruct (excess_kurtosis_ok o g P' lw' Hc Hg HP' k C' HD' HG' HM' HN' f2m1) as (b & y & Eb & Ey & Hy).
  destruct (normalised_alike 4 ltac:(lia)) as (a' & b' & Ea' & Eb' & H).
  unfold get_kurtosis in Ea, Eb. rewrite Ea in Ea'. rewrite Eb in Eb'. injection Ea' as <-. injection Eb' as <-.
  exists x, y. split; [exact Ex|]. split; [exact Ey|]. intros i Hi Hf. rewrite Hx, Hy, (H i Hi Hf) by assumption. reflexivity.
Qed.
Lemma cdf_same i n : in_grid g i -> same (cvar k) i -> (n <= cn g k)%nat -> is_x k = false -> cdf g P k C i n = cdf g P' k C' i n.
Proof.
  clear HG HG' HM HM' HN HN'. intros Hi (_ & _ & Hj) Hn Hx. unfold cdf. apply Sum_ext. intros m Hm. apply Hj.
  destruct Hi as (I1 & I2 & I3 & I4 & I5).
  destruct k; try discriminate Hx; cbn [cvar at_ cn] in *; unfold bins_over; cbn [has_t has_v has_x has_z range_if];
    repeat (first [ apply in_flat_map; eexists; split; [first [apply in_seq; lia|left; reflexivity]|]
                  | apply in_map_iff; eexists; split; [reflexivity|first [apply in_seq; lia|left; reflexivity]] ]).
Qed.
Lemma trap_ext e F F' n j : (forall m, (m <= n)%nat -> F m = F' m) -> trap e F n j = trap e F' n j.
Proof. clear. intros H. unfold trap. apply Sum_ext. intros m Hm. rewrite !H by lia. reflexivity. Qed.
Lemma l_moment_alike j : is_x k = false -> alike g (get_l_moment o (dname (cvar k) C) (S j) lw) (get_l_moment o (dname (cvar k) C') (S j) lw')
  (coords C) (coords C') (fit (cvar k)).
Proof.
  clear HM HM' HN HN'. intros Hx. destruct (l_moment_ok o g P lw Hc Hg k C Hx HD HG j) as (a & Ea & _ & Ha).
  destruct (l_moment_ok o g P' lw' Hc Hg k C' Hx HD' HG' j) as (b & Eb & _ & Hb).
  exists a, b. split; [exact Ea|]. split; [exact Eb|]. intros i Hi [S|[H1 H2]].
  - rewrite (proj1 (Ha i Hi) (proj1 S)), (proj1 (Hb i Hi) (proj1 (proj2 S))). f_equal. unfold Ltrap.
    apply trap_ext. intros m Hm. apply cdf_same; assumption.
  - rewrite (proj2 (Ha i Hi) H1), (proj2 (Hb i Hi) H2). reflexivity.
Qed.
Lemma statistics_ok (Q : bin -> Prop) : (forall i, in_grid g i -> Q i -> fit (cvar k) i) -> statistics_alike o g k C C' lw lw' Q.
Proof.
  intros W. unfold statistics_alike. cbv zeta.
  split; [|split; [|split; [|split; [|split; [|split; [|split; [|split]]]]]]].
  - eapply alike_weaken; [exact W|]. exact mean_alike.
  - intros j mu mu' Hs Hs'. eapply alike_weaken; [|exact (moment_alike j mu mu' Hs Hs')].
    intros i Hi [Hq E]. split; [apply W; assumption|exact E].
  - intros j. eapply alike_weaken; [exact W|]. exact (central_alike j).
  - eapply alike_weaken; [exact W|]. exact (central_alike 2).
  - eapply alike_weaken; [exact W|]. exact dispersion_alike.
  - eapply alike_weaken; [exact W|]. exact (normalised_alike 3 ltac:(lia)).
  - eapply alike_weaken; [exact W|]. exact (normalised_alike 4 ltac:(lia)).
  - intros q. eapply alike_weaken; [exact W|]. exact (excess_alike q).
  - intros Hx j. eapply alike_weaken; [exact W|]. destruct (l_moment_alike j Hx) as (a & b & Ea & Eb & He).
    exists a, b. split; [exact Ea|]. split; [exact Eb|]. intros i Hi Hq. rewrite !mcoords_no_x by assumption. apply He; assumption.
Qed.
End One.

Section Two.
Context (a b : coord) (Hab : before a b = true).
Let AB := union (cvar a) (cvar b).
Context (HD : disjoint AB C = true) (HD' : disjoint AB C' = true).
Context (Ga : gives o g P lw (cvar a) C) (Gb : gives o g P lw (cvar b) C) (Gab : gives o g P lw AB C).
Context (Ga' : gives o g P' lw' (cvar a) C') (Gb' : gives o g P' lw' (cvar b) C') (Gab' : gives o g P' lw' AB C').
Context (Ma : o_mean o (dname (cvar a) C) = None) (Mb : o_mean o (dname (cvar b) C) = None).
Context (Ma' : o_mean o (dname (cvar a) C') = None) (Mb' : o_mean o (dname (cvar b) C') = None).
Context (Na : o_moment o (dname (cvar a) C) = None) (Nb : o_moment o (dname (cvar b) C) = None).
Context (Na' : o_moment o (dname (cvar a) C') = None) (Nb' : o_moment o (dname (cvar b) C') = None).
Let Q i := fit AB i /\ fit (cvar a) i /\ fit (cvar b) i.
Lemma Q_cases i : Q i -> (same AB i /\ same (cvar a) i /\ same (cvar b) i) \/ (marg g P C i = 0 /\ marg g P' C' i = 0).
Proof.
  intros ([S|Z] & [Sa|Za] & [Sb|Zb]); [left; auto|right; assumption..].
Qed.
Lemma covariance_alike : alike g (get_covariance o (dname AB C) lw) (get_covariance o (dname AB C') lw')
  (mcoords (xkey a b) C) (mcoords (xkey a b) C') Q.
Proof.
  destruct (covariance_ok o g P lw Hc Hg a b C Hab HD Ga Gb Gab Ma Mb) as (x & Ex & _ & Hx).
  destruct (covariance_ok o g P' lw' Hc Hg a b C' Hab HD' Ga' Gb' Gab' Ma' Mb') as (y & Ey & _ & Hy).
  exists x, y. split; [exact Ex|]. split; [exact Ey|]. intros i Hi HQ. destruct (Q_cases i HQ) as [(S & Sa & Sb)|[H1 H2]].
  - rewrite (proj1 (Hx i Hi) (proj1 S)), (proj1 (Hy i Hi) (proj1 (proj2 S))), (Covar_same a b i Sa Sb S). reflexivity.
  - rewrite (proj2 (Hx i Hi) H1), (proj2 (Hy i Hi) H2). reflexivity.
Qed.
Lemma correlation_alike : alike g (get_correlation o (dname AB C) lw) (get_correlation o (dname AB C') lw')
  (mcoords (xkey a b) C) (mcoords (xkey a b) C') Q.
Proof.
  destruct (correlation_ok o g P lw Hc Hg HP a b C Hab HD Ga Gb Gab Ma Mb Na Nb) as (x & Ex & _ & Hx).
  destruct (correlation_ok o g P' lw' Hc Hg HP' a b C' Hab HD' Ga' Gb' Gab' Ma' Mb' Na' Nb') as (y & Ey & _ & Hy).
  exists x, y. split; [exact Ex|]. split; [exact Ey|]. intros i Hi HQ. destruct (Q_cases i HQ) as [(S & Sa & Sb)|[H1 H2]].
  - destruct (Hx i Hi) as (X1 & X2 & _). destruct (Hy i Hi) as (Y1 & Y2 & _). pose proof S as (S1 & S2 & _).
    pose proof (Variance_same a i Sa) as Va. pose proof (Variance_same b i Sb) as Vb.
    destruct (Variance_nonneg g P HP a C i Hi S1) as [Wa|Wa]; [destruct (Variance_nonneg g P HP b C i Hi S1) as [Wb|Wb]|].
    + rewrite X1, Y1 by (try assumption; rewrite <- ?Va, <- ?Vb; assumption). rewrite Va, Vb, (Covar_same a b i Sa Sb S). reflexivity.
    + rewrite X2, Y2 by (try assumption; rewrite <- ?Va, <- ?Vb, <- Wb; ring). reflexivity.
    + rewrite X2, Y2 by (try assumption; rewrite <- ?Va, <- ?Vb, <- Wa; ring). reflexivity.
  - rewrite (proj2 (proj2 (Hx i Hi)) H1), (proj2 (proj2 (Hy i Hi)) H2). reflexivity.
Qed.
Lemma covariances_ok (R : bin -> Prop) : (forall i, in_grid g i -> R i -> Q i) -> covariances_alike o g a b C C' lw lw' R.
Proof.
  intros W. split; (eapply alike_weaken; [exact W|]); [exact covariance_alike|exact correlation_alike].
Qed.
End Two.
End Same.
