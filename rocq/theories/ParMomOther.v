(** * ParMomOther: moments of age, position and metallicity, and correlations,
    of parametric components. *)
From Coq Require Import Reals Lra Lia List Bool Arith ZArith String Ascii.
From Verif Require Import MilesLemmas Num NumLemmas Arr ArrLemmas PyStr StrLemmas Cube Base Spec SpecLemmas Repr CubeLemmas CondLemmas DiskLemmas
  DistLemmas StringClaims Moments MomArr MomSpec MomLemmas MomLemmas2 MomLemmas3 MomLemmas4 MomLemmas5 MomLemmas6 LMom MomClaims Parametric ParSpec ParRepr ParLemmas ParDist ParClaims ParMoments
  GaussSpec GaussLemmas ParMomSpec ParMomMath ParMomArr ParMomLemmas ParMomMeans ParMomClaims.
Import ListNotations.
Local Open Scope R_scope.

Lemma Sum_first n (F : nat -> R) : (0 < n)%nat -> Sum n (fun v => match v with O => F 0%nat | _ => 0 end) = F 0%nat.
Proof.
  intros Hn. destruct n as [|n]; [lia|]. rewrite Sum_shift. cbn beta iota. transitivity (F 0%nat + Sum n (fun _ => 0)); [reflexivity|]. rewrite Sum_0. ring.
Qed.

Lemma over_zero b n i f : (forall k, f k = 0) -> over b n i f = 0.
Proof. intros E. unfold over. destruct b; [apply E|]. transitivity (Sum n (fun _ => 0)); [apply Sum_ext; intros; apply E|apply Sum_0]. Qed.

Section Other.
Context (L : stats_lib) (self : par) (g : grid) (m : par_model) (q : num) (lw : bool).
Context (H : par_on L self g m) (Hg : good_grid g) (Hm : good_par g m).

Lemma joint_marg S i : marg g (par_joint g m lw (has_v S)) S i = par_prob g m lw S i.
Proof.
  unfold par_prob. destruct (has_v S) eqn:E; [reflexivity|].
  unfold marg, par_joint. rewrite E. cbn [pgrid flat nt nv nx ny nz over].
  apply over_ext_all; intros t. cbn [over Sum]. rewrite Rplus_0_l.
  rewrite <- (Sum_first (nv g) (fun _ => over (has_x S) (nx g) (bx i) (fun x => over (has_x S) (ny g) (by_ i) (fun y =>
    over (has_z S) (nz g) (bz i) (fun z => pprob g m lw false t 0%nat x y z))))) by apply (gg_v _ Hg).
  apply Sum_ext. intros [|v] Hv; [reflexivity|]. repeat (apply over_zero; intros). reflexivity.
Qed.
Lemma joint_nonneg b : par_lw_ok g m lw b -> nonneg g (par_joint g m lw b).
Proof.
  intros Hl t v x y z Ht Hv Hx Hy Hz. unfold par_joint. destruct b.
  - apply (pprob_nonneg g m lw true Hg Hm Hl); assumption.
  - destruct v as [|v]; [|lra]. apply (pprob_nonneg g m lw false Hg Hm Hl); cbn; (assumption || lia).
Qed.

(** the queries which use a stored array where the condition has no mass *)
Definition no_holes (A C : vset) : Prop :=
  lw = false -> In (dname A C) ["x_t"; "z_tx"]%string -> forall i, in_grid g i -> 0 < par_prob g m lw C i.

Lemma par_gives A C : has_v A = false -> nonempty A = true -> disjoint A C = true -> par_lw_ok g m lw (has_v C) ->
  (nonempty C = false -> total g (par_joint g m lw (has_v C)) = 1) -> no_holes A C ->
  gives (par_obj L q self) g (par_joint g m lw (has_v C)) lw A C.
Proof.
  intros Hv HA HD Hl HT Hh. unfold gives, dname. cbn [o_get_p par_obj].
  assert (EU : has_v (union A C) = has_v C) by (destruct A as [[] [] [] []]; try discriminate Hv; reflexivity).
  destruct (nonempty C) eqn:EC.
  - destruct (par_p_cond L self g m H Hg Hm A C false lw HA EC HD) as (a & E & Hs & He).
    { rewrite EU. exact Hl. }
    { destruct A as [[] [] [] []]; try discriminate Hv; destruct lw; reflexivity. }
    exists a. do 2 (split; [assumption|]). intros i Hi. destruct (He i Hi) as [He1 He2].
    rewrite <- EU at 1 3. rewrite !joint_marg. rewrite <- EU. rewrite joint_marg, EU, joint_marg.
    split; [intros Hp; rewrite He1 by assumption; f_equal; field; lra|].
    intros Hp. apply He2; [assumption|]. destruct (special A C && negb lw)%bool eqn:ES; [|reflexivity]. exfalso.
    apply andb_prop in ES as [ES El]. apply negb_true_iff in El.
    assert (HI : In (dname A C) ["x_t"; "z_tx"]%string).
    { unfold dname. rewrite EC. destruct A as [[] [] [] []], C as [[] [] [] []]; try discriminate Hv; try discriminate HD; try discriminate ES; cbn; auto. }
    specialize (Hh El HI i Hi). lra.
  - specialize (HT eq_refl). assert (C = no_vars) by (destruct C as [[] [] [] []]; try discriminate; reflexivity). subst C.
    destruct (par_p_marg L self g m H Hg Hm A false lw HA) as (a & E & Hs & He).
    { rewrite Hv. exact Hl. }
    exists a. split; [exact E|]. split; [rewrite app_nil_r; exact Hs|]. intros i Hi.
    rewrite marg_none, HT. split; [|lra]. intros _. cbn [coords no_vars opt has_t has_v has_x has_z app]. rewrite app_nil_r, He by assumption.
    replace (union A no_vars) with A by (destruct A as [[] [] [] []]; reflexivity). unfold pent.
    change (has_v no_vars) with false. rewrite <- Hv, joint_marg. reflexivity.
Qed.

Let o := par_obj L q self.
Let Hc : cube_on (o_cube o) g := po_cube _ _ _ _ H.

Lemma not_v k : k <> Cv -> has_v (cvar k) = false.
Proof. destruct k; intros E; try reflexivity; contradiction E; reflexivity. Qed.
Lemma no_own_mean k C : k <> Cv -> disjoint (cvar k) C = true -> o_mean o (dname (cvar k) C) = None /\ o_moment o (dname (cvar k) C) = None.
Proof. destruct k; intros E HD; try (contradiction E; reflexivity); destruct C as [[] [] [] []]; try discriminate HD; split; reflexivity. Qed.

Section One.
Context (k : coord) (C : vset) (Hk : k <> Cv) (HD : disjoint (cvar k) C = true) (Hl : par_lw_ok g m lw (has_v C)).
Let P := par_joint g m lw (has_v C).
Context (HT : nonempty C = false -> total g P = 1) (Hh : no_holes (cvar k) C).
Let HG : gives o g P lw (cvar k) C := par_gives (cvar k) C (not_v k Hk) (cvar_nonempty k) HD Hl HT Hh.
Let HP : nonneg g P := joint_nonneg (has_v C) Hl.

Lemma par_other_mean :
  exists a, get_mean o (dname (cvar k) C) lw = Ok a /\ shp a = mdims k C g /\
    forall i, in_grid g i ->
      (0 < par_prob g m lw C i -> ent a (mcoords k C i) = Fin (Mean g P k C i) /\
        mid (cedge g k) 0 <= Mean g P k C i <= mid (cedge g k) (cn g k - 1)) /\
      (par_prob g m lw C i = 0 -> ent a (mcoords k C i) = NaN).
Proof.
  destruct (no_own_mean k C Hk HD) as [N1 N2].
  destruct (mean_ok o g P lw Hc Hg k C HD HG N1) as (a & E & Hs & He). exists a. do 2 (split; [assumption|]).
  intros i Hi. destruct (He i Hi) as [H1 H2]. unfold P in H1, H2. rewrite joint_marg in H1, H2. split; [|exact H2].
  intros Hp. split; [auto|]. apply Mean_bounds; auto; [|intros j Hj; apply cmid_range; assumption].
  unfold P. rewrite joint_marg. exact Hp.
Qed.
Lemma par_other_moment j mu : shp mu = mdims k C g ->
  exists a, get_noncentral_moment o (dname (cvar k) C) j mu lw = Ok a /\ shp a = mdims k C g /\
    forall i, in_grid g i ->
      (forall c, 0 < par_prob g m lw C i -> ent mu (mcoords k C i) = Fin c ->
         ent a (mcoords k C i) = Fin (Moment g P k C j c i)) /\
      (par_prob g m lw C i = 0 -> ent a (mcoords k C i) = NaN).
Proof.
  intros Hs. destruct (no_own_mean k C Hk HD) as [N1 N2].
  destruct (moment_ok o g P lw Hc Hg k C HD HG j mu N2 Hs) as (a & E & Ha & He). exists a. do 2 (split; [assumption|]).
  intros i Hi. specialize (He i Hi). unfold P in He at 1 3. rewrite joint_marg in He. exact He.
Qed.
Lemma par_other_central j :
  exists a, get_central_moment o (dname (cvar k) C) j lw = Ok a /\ shp a = mdims k C g /\
    forall i, in_grid g i ->
      (0 < par_prob g m lw C i -> ent a (mcoords k C i) = Fin (Moment g P k C j (Mean g P k C i) i)) /\
      (par_prob g m lw C i = 0 -> ent a (mcoords k C i) = NaN).
Proof.
  destruct (no_own_mean k C Hk HD) as [N1 N2].
  destruct (central_ok o g P lw Hc Hg k C HD HG N1 N2 j) as (a & E & Ha & He). exists a. do 2 (split; [assumption|]).
  intros i Hi. specialize (He i Hi). unfold P in He at 1 4. rewrite joint_marg in He. exact He.
Qed.
End One.

Lemma par_corr_claim a b C : a <> Cv -> b <> Cv -> before a b = true -> disjoint (union (cvar a) (cvar b)) C = true ->
  par_lw_ok g m lw (has_v C) -> let P := par_joint g m lw (has_v C) in
  (nonempty C = false -> total g P = 1) -> no_holes (cvar a) C -> no_holes (cvar b) C ->
  exists r, get_correlation o (dname (union (cvar a) (cvar b)) C) lw = Ok r /\ shp r = mdims (xkey a b) C g /\
    forall i, in_grid g i ->
      (0 < par_prob g m lw C i -> 0 < Variance g P a C i -> 0 < Variance g P b C i ->
         exists c, ent r (mcoords (xkey a b) C i) = Fin c /\ -1 <= c <= 1 /\
           c = Covar g P a b C i / sqrt (Variance g P a C i * Variance g P b C i)) /\
      (0 < par_prob g m lw C i -> Variance g P a C i * Variance g P b C i = 0 -> ent r (mcoords (xkey a b) C i) = NaN) /\
      (par_prob g m lw C i = 0 -> ent r (mcoords (xkey a b) C i) = NaN).
Proof.
  intros Ha Hb Hab HD Hl P HT Hha Hhb. pose proof (HDa a b C HD) as Da. pose proof (HDb a b C HD) as Db.
  assert (HP : nonneg g P) by exact (joint_nonneg (has_v C) Hl).
  destruct (no_own_mean a C Ha Da) as [A1 A2]. destruct (no_own_mean b C Hb Db) as [B1 B2].
  assert (HV : has_v (union (cvar a) (cvar b)) = false) by (destruct a, b; try reflexivity; contradiction Ha + contradiction Hb; reflexivity).
  destruct (correlation_ok o g P lw Hc Hg HP a b C Hab HD) as (r & Er & Hrs & Hre); auto.
  - apply par_gives; auto using not_v, cvar_nonempty.
  - apply par_gives; auto using not_v, cvar_nonempty.
  - apply par_gives; auto using cvar_nonempty, union_nonempty.
    intros _ HI. exfalso. clear - HI Ha Hb Hab HD. destruct a, b; try discriminate Hab; try (contradiction Ha; reflexivity); try (contradiction Hb; reflexivity);
      destruct C as [[] [] [] []]; try discriminate HD; cbn in HI; repeat (destruct HI as [HI|HI]; [discriminate HI|]); exact HI.
  - exists r. do 2 (split; [assumption|]). intros i Hi. destruct (Hre i Hi) as (M1 & M2 & M3).
    assert (EM : marg g P C i = par_prob g m lw C i) by apply joint_marg. rewrite EM in M1, M2, M3.
    split; [|split; assumption]. intros Hp Va Vb. eexists; split; [apply M1; assumption|]. split; [|reflexivity].
    apply correlation_range; auto. rewrite EM. exact Hp.
Qed.
End Other.
