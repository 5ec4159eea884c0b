(** * TotalVar: variance and covariance from those given further variables. *)
From Coq Require Import Reals Lra Lia List Bool Arith ZArith String Ascii.
From Verif Require Import Num NumLemmas Arr ArrLemmas PyStr Cube Base Spec SpecLemmas Repr CubeLemmas
  BaseLemmas CondLemmas DistLemmas Moments MomArr MomSpec MomLemmas MomLemmas2 MomLemmas3 MomLemmas4 MomLemmas5 MomLemmas6 Stat
  LMom MomClaims TotalSpec ParSpec Parametric ParRepr ParMoments ParMomSpec ParMomOther ParStat
  Mixture MixSpec MixGen MixLemmas MixCond MixMom MixExample MixStat MixStatSpec MixStatLemmas MixStatClaims.
Import ListNotations.
Local Open Scope R_scope.

(** ** numbers *)
Section Real.
Context (g : grid) (P : joint) (HP : nonneg g P).

Lemma bins_marg B C i j : in_grid g i -> disjoint B C = true -> In j (bins_over g B i) ->
  in_grid g j /\ agree C j i /\ marg g P C j = marg g P C i.
Proof.
  intros Hi HD Hj. apply bins_over_in in Hj as [Hj Ha]; [|assumption]. split; [assumption|].
  assert (A : agree C j i) by (eapply agree_sub; [|exact Ha]; rewrite disjoint_comm; assumption).
  split; [exact A|]. apply marg_agree. exact A.
Qed.
Lemma Ex_lin A C i h c d : disjoint A C = true -> 0 < marg g P C i ->
  Ex g P A C (fun j => c * h j + d) i = c * Ex g P A C h i + d.
Proof.
  intros HD Hm. rewrite !Ex_E, E_plus, E_scal. f_equal. apply E_const. apply cw_sum; assumption.
Qed.
Lemma Ex_plus A C i h k : Ex g P A C (fun j => h j + k j) i = Ex g P A C h i + Ex g P A C k i.
Proof. rewrite !Ex_E. apply E_plus. Qed.
Lemma Ex_scal A C i h c : Ex g P A C (fun j => c * h j) i = c * Ex g P A C h i.
Proof. rewrite !Ex_E. apply E_scal. Qed.
Lemma Ex_const A C i c : disjoint A C = true -> 0 < marg g P C i -> Ex g P A C (fun _ => c) i = c.
Proof. intros HD Hm. rewrite Ex_E. apply E_const. apply cw_sum; assumption. Qed.
Lemma Ex_minus A C i h k : Ex g P A C (fun j => h j - k j) i = Ex g P A C h i - Ex g P A C k i.
Proof. rewrite !Ex_E. apply E_minus. Qed.
(** only bins with mass count *)
Lemma Ex_occupied B C i h h' : in_grid g i -> 0 < marg g P C i ->
  (forall j, In j (bins_over g B i) -> 0 < marg g P (union B C) j -> h j = h' j) -> Ex g P B C h i = Ex g P B C h' i.
Proof.
  intros Hi Hm H. rewrite !Ex_E. unfold E. apply sumR_map_ext. intros j Hj. unfold cw.
  pose proof (proj1 (bins_over_in g B i j Hi Hj)) as Hjg.
  destruct (marg_nonneg g P (union B C) j Hjg HP) as [Hp|Hz]; [rewrite H by assumption; reflexivity|].
  rewrite <- Hz. unfold Rdiv. ring.
Qed.

Section One.
Context (k : coord) (B C : vset) (i : bin) (Hi : in_grid g i) (Hm : 0 < marg g P C i).
Context (H1 : disjoint (cvar k) B = true) (H2 : disjoint (cvar k) C = true) (H3 : disjoint B C = true).
Lemma dis_union : disjoint (cvar k) (union B C) = true.
Proof. rewrite disjoint_union_r, H1, H2. reflexivity. Qed.

Lemma total_mean : Ex g P B C (Mean g P k (union B C)) i = Mean g P k C i.
Proof. unfold Mean. apply Ex_tower; auto using only_cmid. Qed.
Lemma total_variance :
  Ex g P B C (fun j => Variance g P k (union B C) j + (Mean g P k (union B C) j - Mean g P k C i) ^ 2) i
  = Variance g P k C i.
Proof.
  set (M := Mean g P k (union B C)). set (mu := Mean g P k C i).
  rewrite (Ex_occupied _ _ _ _
    (fun j => Ex g P (cvar k) (union B C) (fun b => cmid g k b ^ 2) j + ((-2 * mu) * M j + mu ^ 2))); [|assumption|assumption|].
  - rewrite Ex_plus, Ex_lin by assumption. unfold M. rewrite total_mean. fold mu.
    rewrite (Ex_tower g P (cvar k) B C) by (auto; intros x y E; rewrite (only_cmid g k x y E); reflexivity).
    rewrite (Variance_eq g P k C i H2 Hi Hm). fold mu. ring.
  - intros j Hj Hp. destruct (bins_marg B C i j Hi H3 Hj) as (Hjg & _ & _).
    rewrite (Variance_eq g P k (union B C) j dis_union Hjg Hp). fold (M j). ring.
Qed.
End One.

Section Two.
Context (a b : coord) (C : vset) (i : bin) (Hi : in_grid g i) (Hm : 0 < marg g P C i).
Context (Hab : before a b = true) (HD : disjoint (union (cvar a) (cvar b)) C = true).
Let A := union (cvar a) (cvar b).
Let Da : disjoint (cvar a) C = true := HDa a b C HD.
Let Db : disjoint (cvar b) C = true := HDb a b C HD.

Lemma only_prod : only A (fun j => cmid g a j * cmid g b j).
Proof.
  intros x y (E1 & E2 & E3 & E4). unfold A, union in *. cbn [has_t has_v has_x has_z] in *.
  rewrite (only_cmid g a x y), (only_cmid g b x y); [reflexivity| |];
    (split; [|split; [|split]]); intros Z; [apply E1|apply E2|apply E3|apply E4|apply E1|apply E2|apply E3|apply E4]; rewrite Z; auto using orb_true_r.
Qed.

Lemma total_covariance B : disjoint A B = true -> disjoint B C = true ->
  Ex g P B C (fun j => Covar g P a b (union B C) j +
     (Mean g P a (union B C) j - Mean g P a C i) * (Mean g P b (union B C) j - Mean g P b C i)) i
  = Covar g P a b C i.
Proof.
  intros HB H3. assert (HDu : disjoint A (union B C) = true) by (rewrite disjoint_union_r, HB; exact HD).
  pose proof (HDa a b B HB) as Ba. pose proof (HDb a b B HB) as Bb.
  set (Ma := Mean g P a (union B C)). set (Mb := Mean g P b (union B C)).
  set (ma := Mean g P a C i). set (mb := Mean g P b C i).
  rewrite (Ex_occupied _ _ _ _
    (fun j => Ex g P A (union B C) (fun c => cmid g a c * cmid g b c) j + ((- mb) * Ma j + ((- ma) * Mb j + ma * mb))));
    [|assumption|assumption|].
  - rewrite Ex_plus, Ex_plus, Ex_scal, Ex_lin by assumption. unfold Ma, Mb.
    rewrite (total_mean a B C i), (total_mean b B C i) by assumption. fold ma mb.
    rewrite (Ex_tower g P A B C) by (auto using only_prod).
    rewrite (Covar_eq g P a b C i Hab HD Hi Hm). fold A ma mb. ring.
  - intros j Hj Hp. destruct (bins_marg B C i j Hi H3 Hj) as (Hjg & _ & _).
    rewrite (Covar_eq g P a b (union B C) j Hab HDu Hjg Hp). fold A (Ma j) (Mb j). ring.
Qed.

(** the covariance is carried by the means of a at each value of b *)
Lemma covariance_by_means :
  Ex g P (cvar b) C (fun j => (Mean g P a (union (cvar b) C) j - Mean g P a C i) * (cmid g b j - Mean g P b C i)) i
  = Covar g P a b C i.
Proof.
  pose proof (pair_disjoint a b Hab) as Hd.
  assert (HDu : disjoint (cvar a) (union (cvar b) C) = true) by (rewrite disjoint_union_r, Hd; exact Da).
  set (Ma := Mean g P a (union (cvar b) C)). set (ma := Mean g P a C i). set (mb := Mean g P b C i).
  rewrite (Ex_ext g P _ _ _ (fun j => (Ma j * cmid g b j) + ((- mb) * Ma j + ((- ma) * cmid g b j + ma * mb)))) by (auto; intros; ring).
  rewrite Ex_plus, Ex_plus, Ex_scal, Ex_lin by assumption. fold (Mean g P b C i). fold mb.
  unfold Ma at 2. rewrite (total_mean a (cvar b) C i) by assumption. fold ma.
  rewrite (Covar_eq g P a b C i Hab HD Hi Hm). fold A ma mb.
  assert (X : Ex g P (cvar b) C (fun j => Ma j * cmid g b j) i = Ex g P A C (fun j => cmid g a j * cmid g b j) i); [|rewrite X; ring].
  unfold Ex at 1 2. f_equal. unfold A. rewrite (union_comm (cvar a) (cvar b)).
  rewrite <- sum_over_union by (rewrite disjoint_comm; exact Hd). apply sum_over_ext; [assumption|]. intros j Hj.
  rewrite (union_comm (cvar b) (cvar a)), union_assoc.
  destruct (marg_nonneg g P (union (cvar b) C) j Hj HP) as [Hp|Hz].
  - unfold Ma, Mean, Ex.
    transitivity (cmid g b j * sum_over g (cvar a) j (fun j' => cmid g a j' * marg g P (union (cvar a) (union (cvar b) C)) j')).
    + field. lra.
    + rewrite <- (sum_over_const g (cvar a) j (cmid g b) (cmid g b j)); [|assumption|].
      * apply sum_over_ext; [assumption|]. intros; ring.
      * intros j' Hj'. apply bins_over_in in Hj' as [_ Ha]; [|assumption]. apply only_cmid.
        eapply agree_sub; [|exact Ha]. rewrite disjoint_comm. exact Hd.
  - rewrite <- Hz, Rmult_0_r. symmetry. rewrite <- sum_bins_over.
    assert (W : sum_over g (cvar a) j (marg g P (union (cvar a) (union (cvar b) C))) = 0) by (rewrite sum_over_marg; auto).
    rewrite <- sum_bins_over in W.
    assert (V : forall j', In j' (bins_over g (cvar a) j) -> marg g P (union (cvar a) (union (cvar b) C)) j' = 0).
    { apply (sumR_zero_terms (marg g P (union (cvar a) (union (cvar b) C)))); [|exact W].
      intros j' Hj'. apply bins_over_in in Hj' as [Hg' _]; [|assumption]. apply marg_nonneg; assumption. }
    transitivity (sumR (map (fun _ : bin => 0 * 0) (bins_over g (cvar a) j))); [|rewrite sumR_map_scal; ring].
    apply sumR_map_ext. intros j' Hj'. rewrite V by assumption. ring.
Qed.
End Two.

(** ** returned numbers *)
Lemma averaged_Ex B C p (T : bin -> num) h i : in_grid g i -> 0 < marg g P C i -> disjoint B C = true ->
  (forall j, in_grid g j -> 0 < marg g P C j -> ent p (coords B j ++ coords C j) = Fin (marg g P (union B C) j / marg g P C j)) ->
  (forall j, In j (bins_over g B i) -> 0 < marg g P (union B C) j -> T j = Fin (h j)) ->
  averaged g P B C p T i = Fin (Ex g P B C h i).
Proof.
  intros Hi Hm HD Hp HT. unfold averaged.
  rewrite (nsum_map_Fin _ (fun j => h j * (marg g P (union B C) j / marg g P C i))).
  - f_equal. rewrite Ex_E. unfold occupied. rewrite sumR_filter; [reflexivity|].
    intros j Hj Hq. destruct (bins_marg B C i j Hi HD Hj) as (Hjg & _ & _).
    destruct (Rlt_dec 0 (marg g P (union B C) j)); [discriminate|].
    pose proof (marg_nonneg g P (union B C) j Hjg HP). replace (marg g P (union B C) j) with 0 by lra. unfold Rdiv. ring.
  - intros j Hj. apply filter_In in Hj as [Hj Hq]. destruct (Rlt_dec 0 (marg g P (union B C) j)) as [Hpos|]; [|discriminate].
    destruct (bins_marg B C i j Hi HD Hj) as (Hjg & _ & MA). rewrite (HT j Hj Hpos).
    rewrite (Hp j Hjg) by (rewrite MA; assumption). rewrite MA. apply nmul_Fin.
Qed.
End Real.

Section Arrays.
Context (g : grid) (P : joint) (HP : nonneg g P) (B C : vset) (HBC : disjoint B C = true) (p : arr num).
Context (Hp : forall j, in_grid g j -> 0 < marg g P C j ->
  ent p (coords B j ++ coords C j) = Fin (marg g P (union B C) j / marg g P C j)).
Context (i : bin) (Hi : in_grid g i) (Hm : 0 < marg g P C i).
(** entry of x at each occupied bin, and of x0 at bin i *)
Definition fine (k : coord) (x : arr num) (h : bin -> R) : Prop :=
  forall j, In j (bins_over g B i) -> 0 < marg g P (union B C) j -> ent x (mcoords k (union B C) j) = Fin (h j).

Lemma law_mean k m m0 : disjoint (cvar k) B = true -> disjoint (cvar k) C = true ->
  fine k m (Mean g P k (union B C)) -> ent m0 (mcoords k C i) = Fin (Mean g P k C i) ->
  averaged g P B C p (fun j => ent m (mcoords k (union B C) j)) i = ent m0 (mcoords k C i).
Proof.
  intros H1 H2 Fm E0. rewrite E0. rewrite (averaged_Ex g P HP B C p _ (Mean g P k (union B C)) i) by assumption.
  f_equal. apply total_mean; assumption.
Qed.
Lemma law_variance k m m0 v v0 : disjoint (cvar k) B = true -> disjoint (cvar k) C = true ->
  fine k m (Mean g P k (union B C)) -> ent m0 (mcoords k C i) = Fin (Mean g P k C i) ->
  fine k v (Variance g P k (union B C)) -> ent v0 (mcoords k C i) = Fin (Variance g P k C i) ->
  averaged g P B C p (fun j => nadd (ent v (mcoords k (union B C) j))
     (npow (nsub (ent m (mcoords k (union B C) j)) (ent m0 (mcoords k C i))) 2)) i = ent v0 (mcoords k C i).
Proof.
  intros H1 H2 Fm E0 Fv V0. rewrite E0, V0.
  rewrite (averaged_Ex g P HP B C p _
    (fun j => Variance g P k (union B C) j + (Mean g P k (union B C) j - Mean g P k C i) ^ 2) i); try assumption.
  - f_equal. apply total_variance; assumption.
  - intros j Hj Hpos. rewrite (Fm j Hj Hpos), (Fv j Hj Hpos), nsub_Fin, npow_Fin, nadd_Fin. reflexivity.
Qed.
Lemma law_covariance a b ma mb c ma0 mb0 c0 : before a b = true ->
  disjoint (union (cvar a) (cvar b)) B = true -> disjoint (union (cvar a) (cvar b)) C = true ->
  fine a ma (Mean g P a (union B C)) -> ent ma0 (mcoords a C i) = Fin (Mean g P a C i) ->
  fine b mb (Mean g P b (union B C)) -> ent mb0 (mcoords b C i) = Fin (Mean g P b C i) ->
  fine (xkey a b) c (Covar g P a b (union B C)) -> ent c0 (mcoords (xkey a b) C i) = Fin (Covar g P a b C i) ->
  averaged g P B C p (fun j => nadd (ent c (mcoords (xkey a b) (union B C) j))
     (nmul (nsub (ent ma (mcoords a (union B C) j)) (ent ma0 (mcoords a C i)))
           (nsub (ent mb (mcoords b (union B C) j)) (ent mb0 (mcoords b C i))))) i
  = ent c0 (mcoords (xkey a b) C i).
Proof.
  intros Hab H1 H2 Fa A0 Fb B0 Fc C0. rewrite A0, B0, C0.
  rewrite (averaged_Ex g P HP B C p _
    (fun j => Covar g P a b (union B C) j +
     (Mean g P a (union B C) j - Mean g P a C i) * (Mean g P b (union B C) j - Mean g P b C i)) i); try assumption.
  - f_equal. apply total_covariance; assumption.
  - intros j Hj Hpos. rewrite (Fa j Hj Hpos), (Fb j Hj Hpos), (Fc j Hj Hpos), !nsub_Fin, nmul_Fin, nadd_Fin. reflexivity.
Qed.
End Arrays.
Lemma law_means g P (HP : nonneg g P) a b C p i : 
  (forall j, in_grid g j -> 0 < marg g P C j ->
    ent p (coords (cvar b) j ++ coords C j) = Fin (marg g P (union (cvar b) C) j / marg g P C j)) ->
  in_grid g i -> 0 < marg g P C i -> before a b = true -> disjoint (union (cvar a) (cvar b)) C = true ->
  forall ma ma0 mb0 c0, fine g P (cvar b) C i a ma (Mean g P a (union (cvar b) C)) ->
  ent ma0 (mcoords a C i) = Fin (Mean g P a C i) -> ent mb0 (mcoords b C i) = Fin (Mean g P b C i) ->
  ent c0 (mcoords (xkey a b) C i) = Fin (Covar g P a b C i) ->
  averaged g P (cvar b) C p (fun j =>
     nmul (nsub (ent ma (mcoords a (union (cvar b) C) j)) (ent ma0 (mcoords a C i)))
          (nsub (Fin (cmid g b j)) (ent mb0 (mcoords b C i)))) i
  = ent c0 (mcoords (xkey a b) C i).
Proof.
  intros Hp Hi Hm Hab HD ma ma0 mb0 c0 Fa A0 B0 C0. rewrite A0, B0, C0.
  rewrite (averaged_Ex g P HP (cvar b) C p _
    (fun j => (Mean g P a (union (cvar b) C) j - Mean g P a C i) * (cmid g b j - Mean g P b C i)) i); try assumption.
  - f_equal. apply covariance_by_means; assumption.
  - exact (HDb a b C HD).
  - intros j Hj Hpos. rewrite (Fa j Hj Hpos), !nsub_Fin, nmul_Fin. reflexivity.
Qed.
