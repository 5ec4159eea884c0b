(** * TotalClaims: the laws of total expectation, variance and covariance among
    the arrays returned for the three kinds of component. *)
From Coq Require Import Reals Lra Lia List Bool Arith ZArith String Ascii.
From Verif Require Import Num NumLemmas Arr ArrLemmas PyStr Cube Base Spec SpecLemmas Repr CubeLemmas
  BaseLemmas CondLemmas DistLemmas Moments MomArr MomSpec MomLemmas MomLemmas2 MomLemmas3 MomLemmas4 MomLemmas5 MomLemmas6 Stat
  LMom MomClaims TotalSpec TotalVar ParSpec Parametric ParRepr ParMoments ParMomSpec ParMomOther ParStat
  Mixture MixSpec MixGen MixLemmas MixCond MixMom MixExample MixParSpec MixParLemmas MixParClaims MixStat MixStatSpec MixStatLemmas MixStatClaims.
Import ListNotations.
Local Open Scope R_scope.

Section Gen.
Context (g : grid) (P : joint) (HP : nonneg g P) (B C : vset) (HBC : disjoint B C = true).
Context (gp gm gv gc : string -> res (arr num)) (Q Q' : bin -> Prop).
Context (HQ : forall i, in_grid g i -> Q i -> 0 < marg g P C i).

(** the named array has the numbers h where R holds *)
Definition right (get : string -> res (arr num)) (w : string) (k : coord) (D : vset) (h : bin -> R) (R : bin -> Prop) : Prop :=
  exists a, get w = Ok a /\ forall i, in_grid g i -> R i -> ent a (mcoords k D i) = Fin (h i).
Context (Hp : exists p, gp (dname B C) = Ok p /\ forall j, in_grid g j -> 0 < marg g P C j ->
  ent p (coords B j ++ coords C j) = Fin (marg g P (union B C) j / marg g P C j)).
(** bin i can be looked at *)
Definition seen (i : bin) : Prop :=
  in_grid g i /\ Q i /\ forall j, In j (bins_over g B i) -> 0 < marg g P (union B C) j -> Q' j.
Lemma seen_fine i k a h : seen i -> (forall j, in_grid g j -> Q' j -> ent a (mcoords k (union B C) j) = Fin (h j)) ->
  fine g P B C i k a h.
Proof.
  intros (Hi & _ & Hs) He j Hj Hpos. apply He; [|apply Hs; assumption].
  exact (proj1 (bins_over_in g B i j Hi Hj)).
Qed.

Section One.
Context (k : coord) (H1 : disjoint (cvar k) B = true) (H2 : disjoint (cvar k) C = true).
Context (Rm' : right gm (dname (cvar k) (union B C)) k (union B C) (Mean g P k (union B C)) Q').
Context (Rm : right gm (dname (cvar k) C) k C (Mean g P k C) Q).
Context (Rv' : right gv (dname (cvar k) (union B C)) k (union B C) (Variance g P k (union B C)) Q').
Context (Rv : right gv (dname (cvar k) C) k C (Variance g P k C) Q).

Lemma gen_variance :
  exists p m v m0 v0, gp (dname B C) = Ok p /\ gm (dname (cvar k) (union B C)) = Ok m /\
    gv (dname (cvar k) (union B C)) = Ok v /\ gm (dname (cvar k) C) = Ok m0 /\ gv (dname (cvar k) C) = Ok v0 /\
    forall i, in_grid g i -> Q i -> (forall j, In j (bins_over g B i) -> 0 < marg g P (union B C) j -> Q' j) ->
      averaged g P B C p (fun j => ent m (mcoords k (union B C) j)) i = ent m0 (mcoords k C i) /\
      averaged g P B C p (fun j => nadd (ent v (mcoords k (union B C) j))
         (npow (nsub (ent m (mcoords k (union B C) j)) (ent m0 (mcoords k C i))) 2)) i = ent v0 (mcoords k C i) /\
      ent v0 (mcoords k C i) <> NaN.
Proof.
  destruct Hp as (p & Ep & Pe). destruct Rm' as (m & Em & Me). destruct Rm as (m0 & Em0 & Me0).
  destruct Rv' as (v & Ev & Ve). destruct Rv as (v0 & Ev0 & Ve0).
  exists p, m, v, m0, v0. do 5 (split; [assumption|]). intros i Hi Hq Hs. assert (S : seen i) by (split; [|split]; assumption).
  split; [|split].
  - apply law_mean; auto using seen_fine.
  - apply law_variance; auto using seen_fine.
  - rewrite Ve0 by assumption. discriminate.
Qed.
End One.

Section Two.
Context (a b : coord) (Hab : before a b = true).
Context (H1 : disjoint (union (cvar a) (cvar b)) B = true) (H2 : disjoint (union (cvar a) (cvar b)) C = true).
Let AB := union (cvar a) (cvar b).
Context (Ra' : right gm (dname (cvar a) (union B C)) a (union B C) (Mean g P a (union B C)) Q').
Context (Ra : right gm (dname (cvar a) C) a C (Mean g P a C) Q).
Context (Rb' : right gm (dname (cvar b) (union B C)) b (union B C) (Mean g P b (union B C)) Q').
Context (Rb : right gm (dname (cvar b) C) b C (Mean g P b C) Q).
Context (Rc' : right gc (dname AB (union B C)) (xkey a b) (union B C) (Covar g P a b (union B C)) Q').
Context (Rc : right gc (dname AB C) (xkey a b) C (Covar g P a b C) Q).

Lemma gen_covariance :
  exists p ma mb c ma0 mb0 c0, gp (dname B C) = Ok p /\ gm (dname (cvar a) (union B C)) = Ok ma /\
    gm (dname (cvar b) (union B C)) = Ok mb /\ gc (dname AB (union B C)) = Ok c /\
    gm (dname (cvar a) C) = Ok ma0 /\ gm (dname (cvar b) C) = Ok mb0 /\ gc (dname AB C) = Ok c0 /\
    forall i, in_grid g i -> Q i -> (forall j, In j (bins_over g B i) -> 0 < marg g P (union B C) j -> Q' j) ->
      averaged g P B C p (fun j => nadd (ent c (mcoords (xkey a b) (union B C) j))
         (nmul (nsub (ent ma (mcoords a (union B C) j)) (ent ma0 (mcoords a C i)))
               (nsub (ent mb (mcoords b (union B C) j)) (ent mb0 (mcoords b C i))))) i
      = ent c0 (mcoords (xkey a b) C i) /\ ent c0 (mcoords (xkey a b) C i) <> NaN.
Proof.
  destruct Hp as (p & Ep & Pe). destruct Ra' as (ma & Ea & Ae). destruct Ra as (ma0 & Ea0 & Ae0).
  destruct Rb' as (mb & Eb & Be). destruct Rb as (mb0 & Eb0 & Be0). destruct Rc' as (c & Ec & Ce). destruct Rc as (c0 & Ec0 & Ce0).
  exists p, ma, mb, c, ma0, mb0, c0. do 7 (split; [assumption|]). intros i Hi Hq Hs.
  assert (S : seen i) by (split; [|split]; assumption). split.
  - apply law_covariance; auto using seen_fine.
  - rewrite Ce0 by assumption. discriminate.
Qed.
End Two.
End Gen.

Section Means.
Context (g : grid) (P : joint) (HP : nonneg g P) (a b : coord) (C : vset) (Hab : before a b = true).
Context (gp gm gc : string -> res (arr num)) (Q Q' : bin -> Prop).
Context (HQ : forall i, in_grid g i -> Q i -> 0 < marg g P C i).
Context (HD : disjoint (union (cvar a) (cvar b)) C = true).
Context (Hp : exists p, gp (dname (cvar b) C) = Ok p /\ forall j, in_grid g j -> 0 < marg g P C j ->
  ent p (coords (cvar b) j ++ coords C j) = Fin (marg g P (union (cvar b) C) j / marg g P C j)).
Context (Ra' : right g gm (dname (cvar a) (union (cvar b) C)) a (union (cvar b) C) (Mean g P a (union (cvar b) C)) Q').
Context (Ra : right g gm (dname (cvar a) C) a C (Mean g P a C) Q).
Context (Rb : right g gm (dname (cvar b) C) b C (Mean g P b C) Q).
Context (Rc : right g gc (dname (union (cvar a) (cvar b)) C) (xkey a b) C (Covar g P a b C) Q).
Lemma gen_means :
  exists p ma ma0 mb0 c0, gp (dname (cvar b) C) = Ok p /\ gm (dname (cvar a) (union (cvar b) C)) = Ok ma /\
    gm (dname (cvar a) C) = Ok ma0 /\ gm (dname (cvar b) C) = Ok mb0 /\ gc (dname (union (cvar a) (cvar b)) C) = Ok c0 /\
    forall i, in_grid g i -> Q i ->
      (forall j, In j (bins_over g (cvar b) i) -> 0 < marg g P (union (cvar b) C) j -> Q' j) ->
      averaged g P (cvar b) C p (fun j =>
         nmul (nsub (ent ma (mcoords a (union (cvar b) C) j)) (ent ma0 (mcoords a C i)))
              (nsub (Fin (cmid g b j)) (ent mb0 (mcoords b C i)))) i
      = ent c0 (mcoords (xkey a b) C i).
Proof.
  destruct Hp as (p & Ep & Pe). destruct Ra' as (ma & Ea & Ae). destruct Ra as (ma0 & Ea0 & Ae0).
  destruct Rb as (mb0 & Eb0 & Be0). destruct Rc as (c0 & Ec0 & Ce0).
  exists p, ma, ma0, mb0, c0. do 5 (split; [assumption|]). intros i Hi Hq Hs.
  apply law_means; auto. apply (seen_fine g P (cvar b) C Q Q' i a); auto. split; [|split]; assumption.
Qed.
End Means.

(** ** objects which answer every distribution *)
Section Obj.
Context (o : obj) (g : grid) (P : joint) (lw : bool).
Context (Hc : cube_on (o_cube o) g) (Hg : good_grid g) (HP : nonneg g P).
Let gm w := get_mean o w lw.
Let gv w := get_variance o w lw.
Let gc w := get_covariance o w lw.

Lemma obj_p A C : gives o g P lw A C -> exists p, o_get_p o (dname A C) false lw = Ok p /\
  forall j, in_grid g j -> 0 < marg g P C j -> ent p (coords A j ++ coords C j) = Fin (marg g P (union A C) j / marg g P C j).
Proof. intros (p & E & _ & He). exists p. split; [exact E|]. intros j Hj. apply (proj1 (He j Hj)). Qed.
Section K.
Context (k : coord) (C : vset) (HD : disjoint (cvar k) C = true) (HG : gives o g P lw (cvar k) C).
Context (HM : o_mean o (dname (cvar k) C) = None) (HN : o_moment o (dname (cvar k) C) = None).
Lemma obj_mean : right g gm (dname (cvar k) C) k C (Mean g P k C) (fun i => 0 < marg g P C i).
Proof.
  destruct (mean_ok o g P lw Hc Hg k C HD HG HM) as (m & E & _ & He). exists m. split; [exact E|].
  intros i Hi. apply (proj1 (He i Hi)).
Qed.
Lemma obj_variance : right g gv (dname (cvar k) C) k C (Variance g P k C) (fun i => 0 < marg g P C i).
Proof.
  destruct (central_ok o g P lw Hc Hg k C HD HG HM HN 2) as (m & E & _ & He). exists m. split; [exact E|].
  intros i Hi. apply (proj1 (He i Hi)).
Qed.
End K.
Lemma obj_covariance a b C : before a b = true -> disjoint (union (cvar a) (cvar b)) C = true ->
  gives o g P lw (cvar a) C -> gives o g P lw (cvar b) C -> gives o g P lw (union (cvar a) (cvar b)) C ->
  o_mean o (dname (cvar a) C) = None -> o_mean o (dname (cvar b) C) = None ->
  right g gc (dname (union (cvar a) (cvar b)) C) (xkey a b) C (Covar g P a b C) (fun i => 0 < marg g P C i).
Proof.
  intros Hab HD Ga Gb Gab Ma Mb.
  destruct (covariance_ok o g P lw Hc Hg a b C Hab HD) as (m & E & _ & He); try assumption.
  exists m. split; [exact E|]. intros i Hi. apply (proj1 (He i Hi)).
Qed.
End Obj.

(** ** base components *)
Section Base.
Context (self : component) (g : grid) (f : joint) (lw : bool).
Context (H : comp_on self g f) (Hg : good_grid g) (Hf : nonneg g f) (Hl : lw_ok g f lw).
Let P := prob g f lw.
Let o := base_obj self.
Let HP : nonneg g P := prob_nonneg g f lw Hg Hf Hl.
Let Hc : cube_on (o_cube o) g := cm_cube _ _ _ H.
Let gv A C := base_gives self g f lw A C H Hg Hf Hl.

Lemma base_total_variance k B C : nonempty B = true ->
  disjoint (cvar k) B = true -> disjoint (cvar k) C = true -> disjoint B C = true ->
  (nonempty C = false -> total g P = 1) ->
  exists p m v m0 v0, get_p self (dname B C) false lw = Ok p /\ get_mean o (dname (cvar k) (union B C)) lw = Ok m /\
    get_variance o (dname (cvar k) (union B C)) lw = Ok v /\ get_mean o (dname (cvar k) C) lw = Ok m0 /\
    get_variance o (dname (cvar k) C) lw = Ok v0 /\
    forall i, in_grid g i -> 0 < marg g P C i ->
      averaged g P B C p (fun j => ent m (mcoords k (union B C) j)) i = ent m0 (mcoords k C i) /\
      averaged g P B C p (fun j => nadd (ent v (mcoords k (union B C) j))
         (npow (nsub (ent m (mcoords k (union B C) j)) (ent m0 (mcoords k C i))) 2)) i = ent v0 (mcoords k C i) /\
      ent v0 (mcoords k C i) <> NaN.
Proof.
  intros HB H1 H2 H3 HT.
  assert (H4 : disjoint (cvar k) (union B C) = true) by (rewrite disjoint_union_r, H1, H2; reflexivity).
  pose proof (union_nonempty B C HB) as HBC.
  assert (G' : gives o g P lw (cvar k) (union B C)) by (apply gv; auto using cvar_nonempty; congruence).
  assert (G : gives o g P lw (cvar k) C) by (apply gv; auto using cvar_nonempty).
  assert (GB : gives o g P lw B C) by (apply gv; auto).
  destruct (gen_variance g P HP B C H3 (fun w => get_p self w false lw) (fun w => get_mean o w lw) (fun w => get_variance o w lw)
    (fun i => 0 < marg g P C i) (fun i => 0 < marg g P (union B C) i) (fun i _ h => h) (obj_p o g P lw B C GB) k H1 H2
    (obj_mean o g P lw Hc Hg k _ H4 G' eq_refl) (obj_mean o g P lw Hc Hg k _ H2 G eq_refl)
    (obj_variance o g P lw Hc Hg k _ H4 G' eq_refl eq_refl) (obj_variance o g P lw Hc Hg k _ H2 G eq_refl eq_refl))
    as (p & m & v & m0 & v0 & E1 & E2 & E3 & E4 & E5 & He).
  exists p, m, v, m0, v0. do 5 (split; [assumption|]). intros i Hi Hm. apply He; auto.
Qed.
Lemma base_total_covariance a b B C : nonempty B = true -> before a b = true ->
  disjoint (union (cvar a) (cvar b)) B = true -> disjoint (union (cvar a) (cvar b)) C = true -> disjoint B C = true ->
  (nonempty C = false -> total g P = 1) ->
  exists p ma mb c ma0 mb0 c0, get_p self (dname B C) false lw = Ok p /\
    get_mean o (dname (cvar a) (union B C)) lw = Ok ma /\ get_mean o (dname (cvar b) (union B C)) lw = Ok mb /\
    get_covariance o (dname (union (cvar a) (cvar b)) (union B C)) lw = Ok c /\
    get_mean o (dname (cvar a) C) lw = Ok ma0 /\ get_mean o (dname (cvar b) C) lw = Ok mb0 /\
    get_covariance o (dname (union (cvar a) (cvar b)) C) lw = Ok c0 /\
    forall i, in_grid g i -> 0 < marg g P C i ->
      averaged g P B C p (fun j => nadd (ent c (mcoords (xkey a b) (union B C) j))
         (nmul (nsub (ent ma (mcoords a (union B C) j)) (ent ma0 (mcoords a C i)))
               (nsub (ent mb (mcoords b (union B C) j)) (ent mb0 (mcoords b C i))))) i
      = ent c0 (mcoords (xkey a b) C i) /\ ent c0 (mcoords (xkey a b) C i) <> NaN.
Proof.
  intros HB Hab H1 H2 H3 HT. pose proof (union_nonempty B C HB) as HBC.
  assert (H4 : disjoint (union (cvar a) (cvar b)) (union B C) = true) by (rewrite disjoint_union_r, H1, H2; reflexivity).
  assert (T' : nonempty (union B C) = false -> total g P = 1) by congruence.
  pose proof (HDa a b _ H4) as Da'. pose proof (HDb a b _ H4) as Db'. pose proof (HDa a b _ H2) as Da. pose proof (HDb a b _ H2) as Db.
  pose proof (gv _ _ (cvar_nonempty a) Da' T') as Ga'. pose proof (gv _ _ (cvar_nonempty b) Db' T') as Gb'.
  pose proof (gv _ _ (cvar_nonempty a) Da HT) as Ga. pose proof (gv _ _ (cvar_nonempty b) Db HT) as Gb.
  pose proof (gv _ _ (pair_nonempty a b) H4 T') as Gc'. pose proof (gv _ _ (pair_nonempty a b) H2 HT) as Gc.
  pose proof (gv _ _ HB H3 HT) as GB.
  destruct (gen_covariance g P HP B C H3 (fun w => get_p self w false lw) (fun w => get_mean o w lw) (fun w => get_covariance o w lw)
    (fun i => 0 < marg g P C i) (fun i => 0 < marg g P (union B C) i) (fun i _ h => h) (obj_p o g P lw B C GB) a b Hab H1 H2
    (obj_mean o g P lw Hc Hg a _ Da' Ga' eq_refl) (obj_mean o g P lw Hc Hg a _ Da Ga eq_refl)
    (obj_mean o g P lw Hc Hg b _ Db' Gb' eq_refl) (obj_mean o g P lw Hc Hg b _ Db Gb eq_refl)
    (obj_covariance o g P lw Hc Hg a b _ Hab H4 Ga' Gb' Gc' eq_refl eq_refl)
    (obj_covariance o g P lw Hc Hg a b _ Hab H2 Ga Gb Gc eq_refl eq_refl))
    as (p & ma & mb & c & ma0 & mb0 & c0 & E1 & E2 & E3 & E4 & E5 & E6 & E7 & He).
  exists p, ma, mb, c, ma0, mb0, c0. do 7 (split; [assumption|]). intros i Hi Hm. apply He; auto.
Qed.
Lemma base_means a b C : before a b = true -> disjoint (union (cvar a) (cvar b)) C = true ->
  (nonempty C = false -> total g P = 1) ->
  exists p ma ma0 mb0 c0, get_p self (dname (cvar b) C) false lw = Ok p /\
    get_mean o (dname (cvar a) (union (cvar b) C)) lw = Ok ma /\
    get_mean o (dname (cvar a) C) lw = Ok ma0 /\ get_mean o (dname (cvar b) C) lw = Ok mb0 /\
    get_covariance o (dname (union (cvar a) (cvar b)) C) lw = Ok c0 /\
    forall i, in_grid g i -> 0 < marg g P C i ->
      averaged g P (cvar b) C p (fun j =>
         nmul (nsub (ent ma (mcoords a (union (cvar b) C) j)) (ent ma0 (mcoords a C i)))
              (nsub (Fin (cmid g b j)) (ent mb0 (mcoords b C i)))) i
      = ent c0 (mcoords (xkey a b) C i).
Proof.
  intros Hab HD HT. pose proof (HDa a b _ HD) as Da. pose proof (HDb a b _ HD) as Db.
  assert (Da' : disjoint (cvar a) (union (cvar b) C) = true) by (rewrite disjoint_union_r, (pair_disjoint a b Hab); exact Da).
  assert (T' : nonempty (union (cvar b) C) = false -> total g P = 1) by (rewrite (union_nonempty _ C (cvar_nonempty b)); discriminate).
  pose proof (gv _ _ (cvar_nonempty a) Da' T') as Ga'.
  pose proof (gv _ _ (cvar_nonempty a) Da HT) as Ga. pose proof (gv _ _ (cvar_nonempty b) Db HT) as Gb.
  pose proof (gv _ _ (pair_nonempty a b) HD HT) as Gc.
  destruct (gen_means g P HP a b C Hab (fun w => get_p self w false lw) (fun w => get_mean o w lw) (fun w => get_covariance o w lw)
    (fun i => 0 < marg g P C i) (fun i => 0 < marg g P (union (cvar b) C) i) (fun i _ h => h) HD (obj_p o g P lw _ C Gb)
    (obj_mean o g P lw Hc Hg a _ Da' Ga' eq_refl) (obj_mean o g P lw Hc Hg a _ Da Ga eq_refl) (obj_mean o g P lw Hc Hg b _ Db Gb eq_refl)
    (obj_covariance o g P lw Hc Hg a b _ Hab HD Ga Gb Gc eq_refl eq_refl)) as (p & ma & ma0 & mb0 & c0 & E1 & E2 & E3 & E4 & E5 & He).
  exists p, ma, ma0, mb0, c0. do 5 (split; [assumption|]). intros i Hi Hm. apply He; auto.
Qed.
End Base.

(** ** parametric components: ages, positions and metallicities *)
Section Par.
Context (L : stats_lib) (self : par) (g : grid) (m : par_model) (q : num) (lw : bool).
Context (H : par_on L self g m) (Hg : good_grid g) (Hm : good_par g m).
Let o := par_obj L q self.
Let Hc : cube_on (o_cube o) g := po_cube _ _ _ _ H.
Lemma union_no_v B C : has_v B = false -> has_v (union B C) = has_v C.
Proof. intros HB. unfold union; cbn [has_v]. rewrite HB. reflexivity. Qed.

Lemma par_total_variance k B C : k <> Cv -> nonempty B = true -> has_v B = false ->
  disjoint (cvar k) B = true -> disjoint (cvar k) C = true -> disjoint B C = true -> par_lw_ok g m lw (has_v C) ->
  let P := par_joint g m lw (has_v C) in
  (nonempty C = false -> total g P = 1) ->
  no_holes g m lw B C -> no_holes g m lw (cvar k) C -> no_holes g m lw (cvar k) (union B C) ->
  exists p a v a0 v0, par_get_p L self (dname B C) false lw = Ok p /\ get_mean o (dname (cvar k) (union B C)) lw = Ok a /\
    get_variance o (dname (cvar k) (union B C)) lw = Ok v /\ get_mean o (dname (cvar k) C) lw = Ok a0 /\
    get_variance o (dname (cvar k) C) lw = Ok v0 /\
    forall i, in_grid g i -> 0 < marg g P C i ->
      averaged g P B C p (fun j => ent a (mcoords k (union B C) j)) i = ent a0 (mcoords k C i) /\
      averaged g P B C p (fun j => nadd (ent v (mcoords k (union B C) j))
         (npow (nsub (ent a (mcoords k (union B C) j)) (ent a0 (mcoords k C i))) 2)) i = ent v0 (mcoords k C i) /\
      ent v0 (mcoords k C i) <> NaN.
Proof.
  intros Hk HB Hv H1 H2 H3 Hl P HT N1 N2 N3.
  assert (H4 : disjoint (cvar k) (union B C) = true) by (rewrite disjoint_union_r, H1, H2; reflexivity).
  pose proof (union_nonempty B C HB) as HBC. pose proof (union_no_v B C Hv) as UV.
  assert (G' : gives o g P lw (cvar k) (union B C)).
  { pose proof (par_gives L self g m q lw H Hg Hm (cvar k) (union B C) (not_v k Hk) (cvar_nonempty k) H4) as X.
    rewrite UV in X. apply X; auto. intros E; congruence. }
  assert (G : gives o g P lw (cvar k) C) by (apply par_gives; auto using cvar_nonempty, not_v).
  assert (GB : gives o g P lw B C) by (apply par_gives; auto).
  pose proof (joint_nonneg g m lw Hg Hm (has_v C) Hl) as HP.
  destruct (no_own_mean L self q k _ Hk H4) as [A1 A2]. destruct (no_own_mean L self q k _ Hk H2) as [B1 B2].
  destruct (gen_variance g P HP B C H3 (fun w => par_get_p L self w false lw) (fun w => get_mean o w lw) (fun w => get_variance o w lw)
    (fun i => 0 < marg g P C i) (fun i => 0 < marg g P (union B C) i) (fun i _ h => h) (obj_p o g P lw B C GB) k H1 H2
    (obj_mean o g P lw Hc Hg k _ H4 G' A1) (obj_mean o g P lw Hc Hg k _ H2 G B1)
    (obj_variance o g P lw Hc Hg k _ H4 G' A1 A2) (obj_variance o g P lw Hc Hg k _ H2 G B1 B2))
    as (p & a & v & a0 & v0 & E1 & E2 & E3 & E4 & E5 & He).
  exists p, a, v, a0, v0. do 5 (split; [assumption|]). intros i Hi Hp. apply He; auto.
Qed.
End Par.

(** ** mixtures of base components, where every member has mass *)
Section Mix.
Context (self : mixture) (g : grid) (comps : list component) (l : parts) (lw : bool).
Context (H : mix_on self g comps l) (Hg : good_grid g).
Context (Hm : forall q, (q < List.length l)%nat -> lw_ok g (pf l q) lw).
Let P := prob g (mixf l) lw.
Let there (D : vset) (i : bin) := forall q, (q < List.length l)%nat -> 0 < marg g (prob g (pf l q) lw) D i.
Let normal := sumR (map snd l) = 1 /\ forall q, (q < List.length l)%nat -> total g (mass g (pf l q)) = 1.

Section D.
Context (D : vset) (HT : nonempty D = false -> lw = false -> normal).
Lemma mb_mean k : disjoint (cvar k) D = true -> right g (fun w => mix_mean self w lw) (dname (cvar k) D) k D (Mean g P k D) (there D).
Proof.
  intros HD. destruct (base_mean_right self g comps l lw D H Hg Hm HT k HD) as (a & E & _ & He). exists a. split; [exact E|].
  intros i Hi. apply (proj1 (He i Hi)).
Qed.
Lemma mb_variance k : disjoint (cvar k) D = true -> right g (fun w => mix_variance self w lw) (dname (cvar k) D) k D (Variance g P k D) (there D).
Proof.
  intros HD. destruct (base_central_right self g comps l lw D H Hg Hm HT k HD 2%nat) as (a & E & _ & He). exists a. split; [exact E|].
  intros i Hi. apply (proj1 (He i Hi)).
Qed.
Lemma mb_covariance a b : before a b = true -> disjoint (union (cvar a) (cvar b)) D = true ->
  right g (fun w => mix_covariance self w lw) (dname (union (cvar a) (cvar b)) D) (xkey a b) D (Covar g P a b D) (there D).
Proof.
  intros Hab HD. destruct (mixb_covariance self g comps l lw D H Hg Hm HT a b Hab HD) as (r & E & _ & He). exists r. split; [exact E|].
  intros i Hi. apply (proj1 (He i Hi)).
Qed.
End D.

Lemma mix_total_variance k B C : nonempty B = true ->
  disjoint (cvar k) B = true -> disjoint (cvar k) C = true -> disjoint B C = true -> (nonempty C = false -> lw = false -> normal) ->
  exists p m v m0 v0, mix_get_p self (dname B C) true false lw = Ok p /\ mix_mean self (dname (cvar k) (union B C)) lw = Ok m /\
    mix_variance self (dname (cvar k) (union B C)) lw = Ok v /\ mix_mean self (dname (cvar k) C) lw = Ok m0 /\
    mix_variance self (dname (cvar k) C) lw = Ok v0 /\
    forall i, in_grid g i -> there C i -> (forall j, In j (bins_over g B i) -> 0 < marg g P (union B C) j -> there (union B C) j) ->
      averaged g P B C p (fun j => ent m (mcoords k (union B C) j)) i = ent m0 (mcoords k C i) /\
      averaged g P B C p (fun j => nadd (ent v (mcoords k (union B C) j))
         (npow (nsub (ent m (mcoords k (union B C) j)) (ent m0 (mcoords k C i))) 2)) i = ent v0 (mcoords k C i) /\
      ent v0 (mcoords k C i) <> NaN.
Proof.
  intros HB H1 H2 H3 HT.
  assert (H4 : disjoint (cvar k) (union B C) = true) by (rewrite disjoint_union_r, H1, H2; reflexivity).
  assert (T' : nonempty (union B C) = false -> lw = false -> normal) by (rewrite (union_nonempty B C HB); discriminate).
  exact (gen_variance g P (base_nonneg self g comps l lw H Hg Hm) B C H3 (fun w => mix_get_p self w true false lw)
    (fun w => mix_mean self w lw) (fun w => mix_variance self w lw) (there C) (there (union B C))
    (base_pos self g comps l lw C H Hg Hm) (obj_p (mix_obj self) g P lw B C (base_mix_gives self g comps l lw C H Hg Hm HT B HB H3)) k H1 H2
    (mb_mean _ T' k H4) (mb_mean _ HT k H2) (mb_variance _ T' k H4) (mb_variance _ HT k H2)).
Qed.
Lemma mix_total_covariance a b B C : nonempty B = true -> before a b = true ->
  disjoint (union (cvar a) (cvar b)) B = true -> disjoint (union (cvar a) (cvar b)) C = true -> disjoint B C = true ->
  (nonempty C = false -> lw = false -> normal) ->
  exists p ma mb c ma0 mb0 c0, mix_get_p self (dname B C) true false lw = Ok p /\
    mix_mean self (dname (cvar a) (union B C)) lw = Ok ma /\ mix_mean self (dname (cvar b) (union B C)) lw = Ok mb /\
    mix_covariance self (dname (union (cvar a) (cvar b)) (union B C)) lw = Ok c /\
    mix_mean self (dname (cvar a) C) lw = Ok ma0 /\ mix_mean self (dname (cvar b) C) lw = Ok mb0 /\
    mix_covariance self (dname (union (cvar a) (cvar b)) C) lw = Ok c0 /\
    forall i, in_grid g i -> there C i -> (forall j, In j (bins_over g B i) -> 0 < marg g P (union B C) j -> there (union B C) j) ->
      averaged g P B C p (fun j => nadd (ent c (mcoords (xkey a b) (union B C) j))
         (nmul (nsub (ent ma (mcoords a (union B C) j)) (ent ma0 (mcoords a C i)))
               (nsub (ent mb (mcoords b (union B C) j)) (ent mb0 (mcoords b C i))))) i
      = ent c0 (mcoords (xkey a b) C i) /\ ent c0 (mcoords (xkey a b) C i) <> NaN.
Proof.
  intros HB Hab H1 H2 H3 HT.
  assert (H4 : disjoint (union (cvar a) (cvar b)) (union B C) = true) by (rewrite disjoint_union_r, H1, H2; reflexivity).
  assert (T' : nonempty (union B C) = false -> lw = false -> normal) by (rewrite (union_nonempty B C HB); discriminate).
  exact (gen_covariance g P (base_nonneg self g comps l lw H Hg Hm) B C H3 (fun w => mix_get_p self w true false lw)
    (fun w => mix_mean self w lw) (fun w => mix_covariance self w lw) (there C) (there (union B C))
    (base_pos self g comps l lw C H Hg Hm) (obj_p (mix_obj self) g P lw B C (base_mix_gives self g comps l lw C H Hg Hm HT B HB H3)) a b Hab H1 H2
    (mb_mean _ T' a (HDa a b _ H4)) (mb_mean _ HT a (HDa a b _ H2)) (mb_mean _ T' b (HDb a b _ H4)) (mb_mean _ HT b (HDb a b _ H2))
    (mb_covariance _ T' a b Hab H4) (mb_covariance _ HT a b Hab H2)).
Qed.
End Mix.
