(** * MomClaims: the claims about moments of a base component. *)
From Coq Require Import Reals Lra Lia List Bool Arith ZArith String Ascii Permutation.
From Verif Require Import Num NumLemmas Arr ArrLemmas PyStr StrLemmas Cube Base Spec SpecLemmas Repr CubeLemmas
  BaseLemmas CondLemmas DistLemmas StringClaims Build Moments MomArr MomSpec MomLemmas MomLemmas2 MomLemmas3
  MomLemmas4 MomLemmas5 MomLemmas6 LMom Stat.
Import ListNotations.
Local Open Scope R_scope.

Lemma mid_mono n e i j : increasing n e -> (i <= j)%nat -> (j < n)%nat -> mid e i <= mid e j.
Proof.
  intros H Hij Hj. induction j as [|j IH]; [replace i with 0%nat by lia; lra|].
  destruct (Nat.eq_dec i (S j)) as [->|]; [lra|].
  specialize (IH ltac:(lia) ltac:(lia)). unfold mid in *.
  pose proof (H j ltac:(lia)). pose proof (H (S j) Hj). lra.
Qed.
Lemma cmid_range g k i : good_grid g -> in_grid g i ->
  mid (cedge g k) 0 <= cmid g k i <= mid (cedge g k) (cn g k - 1).
Proof.
  intros Hg (H1 & H2 & H3 & H4 & H5). destruct Hg. unfold cmid.
  split; destruct k; cbn; (eapply mid_mono; [eassumption|lia|lia]).
Qed.

Section Claims.
Context (self : component) (g : grid) (f : joint) (lw : bool).
Context (H : comp_on self g f) (Hg : good_grid g) (Hf : nonneg g f) (Hl : lw_ok g f lw).
Let P := prob g f lw.
Let o := base_obj self.

Lemma cvar_nonempty k : nonempty (cvar k) = true. Proof. destruct k; reflexivity. Qed.
Lemma union_nonempty A B : nonempty A = true -> nonempty (union A B) = true.
Proof. destruct A as [[] [] [] []], B as [[] [] [] []]; intros X; try discriminate X; reflexivity. Qed.
Let Hc : cube_on (o_cube o) g := cm_cube _ _ _ H.
Let HP : nonneg g P := prob_nonneg g f lw Hg Hf Hl.

Section One.
Context (k : coord) (C : vset) (HD : disjoint (cvar k) C = true).
Context (HT : nonempty C = false -> total g P = 1).
Let HG : gives o g P lw (cvar k) C :=
  base_gives self g f lw (cvar k) C H Hg Hf Hl (cvar_nonempty k) HD HT.

Lemma mean_claim :
  exists m, get_mean o (dname (cvar k) C) lw = Ok m /\ shp m = mdims k C g /\
    forall i, in_grid g i ->
      (0 < marg g P C i -> ent m (mcoords k C i) = Fin (Mean g P k C i) /\
        mid (cedge g k) 0 <= Mean g P k C i <= mid (cedge g k) (cn g k - 1)) /\
      (marg g P C i = 0 -> ent m (mcoords k C i) = NaN).
Proof.
  destruct (mean_ok o g P lw Hc Hg k C HD HG eq_refl) as (m & E & Hs & He). exists m. do 2 (split; [assumption|]).
  intros i Hi. destruct (He i Hi) as [H1 H2]. split; [|exact H2]. intros Hm. split; [auto|].
  apply Mean_bounds; auto. intros j Hj. apply cmid_range; assumption.
Qed.
Lemma moment_claim j mu : shp mu = mdims k C g ->
  exists m, get_noncentral_moment o (dname (cvar k) C) j mu lw = Ok m /\ shp m = mdims k C g /\
    forall i, in_grid g i ->
      (forall c, 0 < marg g P C i -> ent mu (mcoords k C i) = Fin c ->
         ent m (mcoords k C i) = Fin (Moment g P k C j c i)) /\
      (marg g P C i = 0 -> ent m (mcoords k C i) = NaN).
Proof. intros Hs. apply (moment_ok o g P lw Hc Hg k C HD HG j mu eq_refl Hs). Qed.
Lemma central_claim j :
  exists m, get_central_moment o (dname (cvar k) C) j lw = Ok m /\ shp m = mdims k C g /\
    forall i, in_grid g i ->
      (0 < marg g P C i -> ent m (mcoords k C i) = Fin (Moment g P k C j (Mean g P k C i) i)) /\
      (marg g P C i = 0 -> ent m (mcoords k C i) = NaN).
Proof. apply (central_ok o g P lw Hc Hg k C HD HG eq_refl eq_refl j). Qed.
Lemma low_orders i : 0 < marg g P C i ->
  (forall c, Moment g P k C 0 c i = 1) /\ Moment g P k C 1 (Mean g P k C i) i = 0.
Proof. intros Hm. split; [intros c; apply Moment_0|apply Moment_1]; assumption. Qed.

Lemma variance_claim :
  exists v s, get_variance o (dname (cvar k) C) lw = Ok v /\ get_dispersion o (dname (cvar k) C) lw = Ok s /\
    shp v = mdims k C g /\ shp s = mdims k C g /\
    forall i, in_grid g i -> 0 < marg g P C i ->
      exists V, ent v (mcoords k C i) = Fin V /\ ent s (mcoords k C i) = Fin (sqrt V) /\
        V = Ex g P (cvar k) C (fun b => cmid g k b ^ 2) i - Mean g P k C i ^ 2 /\
        0 <= V <= (mid (cedge g k) (cn g k - 1) - mid (cedge g k) 0) ^ 2 / 4 /\
        (V = 0 <-> forall j, In j (bins_over g (cvar k) i) -> 0 < marg g P (union (cvar k) C) j ->
                             cmid g k j = Mean g P k C i).
Proof.
  destruct (central_claim 2) as (v & Ev & Hvs & Hve).
  destruct (dispersion_ok o g P lw Hc Hg HP k C HD HG eq_refl eq_refl) as (s & Es & Hss & Hse).
  exists v, s. do 4 (split; [assumption|]). intros i Hi Hm.
  exists (Variance g P k C i). split; [apply (Hve i Hi); assumption|]. split; [apply (Hse i Hi); assumption|].
  split; [apply Variance_eq; assumption|]. split; [split|].
  - apply Variance_nonneg; assumption.
  - apply Variance_Popoviciu; auto. intros j Hj. apply cmid_range; assumption.
  - apply Variance_zero; assumption.
Qed.

Lemma zero_over_zero : ndiv (Fin 0) (Fin 0) = NaN.
Proof.
  cbv [ndiv inf_of_sign]. destruct (Req_EM_T 0 0) as [_|n]; [|contradiction n; reflexivity].
  repeat (match goal with |- context [Rlt_dec ?a ?b] => destruct (Rlt_dec a b); try lra end). reflexivity.
Qed.

Lemma shape_claim f2m1 :
  exists sk ku ek, get_skewness o (dname (cvar k) C) lw = Ok sk /\ get_kurtosis o (dname (cvar k) C) lw = Ok ku /\
    get_excess_kurtosis f2m1 o (dname (cvar k) C) lw = Ok ek /\
    shp sk = mdims k C g /\ shp ku = mdims k C g /\
    forall i, in_grid g i -> 0 < marg g P C i ->
      (0 < Variance g P k C i ->
         exists a b, ent sk (mcoords k C i) = Fin a /\ ent ku (mcoords k C i) = Fin b /\
           ent ek (mcoords k C i) = Fin (b - 3) /\
           a = Moment g P k C 3 (Mean g P k C i) i / sqrt (Variance g P k C i) ^ 3 /\
           b = Moment g P k C 4 (Mean g P k C i) i / sqrt (Variance g P k C i) ^ 4 /\
           a ^ 2 + 1 <= b) /\
      (Variance g P k C i = 0 ->
         ent sk (mcoords k C i) = NaN /\ ent ku (mcoords k C i) = NaN /\ ent ek (mcoords k C i) = NaN).
Proof.
  destruct (normalised_ok o g P lw Hc Hg HP k C HD HG eq_refl eq_refl 3 ltac:(lia)) as (sk & Esk & Hsks & Hske).
  destruct (normalised_ok o g P lw Hc Hg HP k C HD HG eq_refl eq_refl 4 ltac:(lia)) as (ku & Eku & Hkus & Hkue).
  destruct (excess_kurtosis_ok o g P lw Hc Hg HP k C HD HG eq_refl eq_refl f2m1) as (ku' & ek & Eku' & Eek & Heke).
  unfold get_kurtosis in Eku'. rewrite Eku in Eku'. inversion Eku'; subst ku'.
  exists sk, ku, ek. do 5 (split; [assumption|]). intros i Hi Hm.
  destruct (Hske i Hi) as (S1 & S2 & _). destruct (Hkue i Hi) as (K1 & K2 & _).
  rewrite (Heke i Hi). split; intros Hv.
  - eexists _, _. rewrite S1, K1 by assumption. rewrite nsub_Fin. do 3 (split; [reflexivity|]).
    do 2 (split; [reflexivity|]). apply Kurt_skew; assumption.
  - rewrite S2, K2 by assumption. rewrite !Moment_zero by (assumption || lia). rewrite zero_over_zero. auto.
Qed.

Lemma l_mean_claim : is_x k = false ->
  exists a b, get_l_mean o (dname (cvar k) C) lw = Ok a /\ get_mean o (dname (cvar k) C) lw = Ok b /\
    shp a = shp b /\ forall i, in_grid g i -> ent a (coords C i) = ent b (coords C i).
Proof.
  intros Hk. destruct (l_moment_ok o g P lw Hc Hg k C Hk HD HG 0) as (a & Ea & Hsa & Hea).
  destruct (mean_ok o g P lw Hc Hg k C HD HG eq_refl) as (b & Eb & Hsb & Heb).
  assert (M : mdims k C g = dims C g) by (destruct k; try discriminate Hk; reflexivity).
  assert (M' : forall i, mcoords k C i = coords C i) by (intros; destruct k; try discriminate Hk; reflexivity).
  exists a, b. do 2 (split; [assumption|]). split; [congruence|]. intros i Hi.
  destruct (Hea i Hi) as [A1 A2]. destruct (Heb i Hi) as [B1 B2]. rewrite M' in *.
  destruct (marg_nonneg g P C i Hi HP) as [Hm|Hm].
  - rewrite A1, B1, Ltrap_mean by (assumption || lra). reflexivity.
  - rewrite A2, B2 by (symmetry; assumption). reflexivity.
Qed.
Lemma l_disp_claim : is_x k = false ->
  exists a, get_l_dispersion o (dname (cvar k) C) lw = Ok a /\ shp a = dims C g /\
    forall i, in_grid g i ->
      (0 < marg g P C i -> ent a (coords C i) = Fin (Ldisp g P k C i) /\ 0 <= Ldisp g P k C i) /\
      (marg g P C i = 0 -> ent a (coords C i) = NaN).
Proof.
  intros Hk. destruct (l_moment_ok o g P lw Hc Hg k C Hk HD HG 1) as (a & Ea & Hsa & Hea).
  exists a. do 2 (split; [assumption|]). intros i Hi. destruct (Hea i Hi) as [A1 A2]. split; [|assumption].
  intros Hm. split; [|exact (Ldisp_nonneg o g P lw Hg HP k C Hk HD HG i Hi Hm)]. rewrite A1, Ltrap_disp by assumption. reflexivity.
Qed.
Lemma l_x_claim j : is_x k = true -> get_l_moment o (dname (cvar k) C) j lw = Err ValueError.
Proof.
  intros Hk. unfold get_l_moment. rewrite part0_dname, len_name by assumption. cbn [Nat.eqb py_assert bind].
  pose proof HG as G. clearbody HG. destruct G as (p & Ep & Hps & Hpe). rewrite dims_x in Hps by assumption. cbn [app] in Hps.
  assert (Hlen : Nat.eqb (String.length (dname (cvar k) C)) 1 = negb (nonempty C)).
  { destruct k; try discriminate Hk; destruct C as [[] [] [] []]; try discriminate HD; reflexivity. }
  rewrite Hlen. destruct (nonempty C) eqn:EC; cbn [negb].
  - rewrite part1_dname by assumption. cbn [bind]. rewrite Ep; cbn [bind]. rewrite (shape_ok _ g C Hc). cbn [bind].
    unfold concat0. cbn [full shp cumsum0]. rewrite Hps.
    assert (X : natlist_eqb (dims C g) (ny g :: dims C g) = false).
    { destruct (natlist_eqb (dims C g) (ny g :: dims C g)) eqn:E; [|reflexivity].
      apply natlist_eqb_eq in E. apply (f_equal (@List.length nat)) in E. cbn in E. lia. }
    rewrite X. reflexivity.
  - cbn [bind]. rewrite Ep; cbn [bind]. unfold concat0. cbn [arr1 shp cumsum0]. rewrite Hps. reflexivity.
Qed.
End One.

(** total expectation, on the arrays *)
Definition filled (B C : vset) (i : bin) : list bin :=
  filter (fun j => if Rlt_dec 0 (marg g P (union B C) j) then true else false) (bins_over g B i).

Lemma sumR_filter {A} (q : A -> bool) (h : A -> R) l : (forall a, In a l -> q a = false -> h a = 0) ->
  sumR (map h (filter q l)) = sumR (map h l).
Proof.
  induction l as [|a l IH]; intros Hz; [reflexivity|]. cbn [filter].
  destruct (q a) eqn:E; cbn [map]; [|].
  - unfold sumR in *. cbn [fold_right]. rewrite IH; [reflexivity|]. intros; apply Hz; auto; right; assumption.
  - unfold sumR in *. cbn [fold_right]. rewrite IH by (intros; apply Hz; auto; right; assumption).
    rewrite (Hz a) by (auto; left; reflexivity). ring.
Qed.

Lemma total_expectation k B C : 
  nonempty B = true -> disjoint (cvar k) B = true -> disjoint (cvar k) C = true -> disjoint B C = true ->
  (nonempty C = false -> total g P = 1) ->
  exists m p m0, get_mean o (dname (cvar k) (union B C)) lw = Ok m /\ get_p self (dname B C) false lw = Ok p /\
    get_mean o (dname (cvar k) C) lw = Ok m0 /\
    forall i, in_grid g i -> 0 < marg g P C i ->
      nsum (map (fun j => nmul (ent m (mcoords k (union B C) j)) (ent p (coords B j ++ coords C j))) (filled B C i))
      = ent m0 (mcoords k C i).
Proof.
  intros HB H1 H2 H3 HT.
  assert (H4 : disjoint (cvar k) (union B C) = true) by (rewrite disjoint_union_r, H1, H2; reflexivity).
  pose proof (union_nonempty B C HB) as HBC.
  destruct (mean_ok o g P lw Hc Hg k (union B C) H4
    (base_gives self g f lw _ _ H Hg Hf Hl (cvar_nonempty k) H4 ltac:(congruence)) eq_refl) as (m & Em & _ & Hme).
  destruct (mean_ok o g P lw Hc Hg k C H2
    (base_gives self g f lw _ _ H Hg Hf Hl (cvar_nonempty k) H2 HT) eq_refl) as (m0 & Em0 & _ & Hm0e).
  destruct (base_gives self g f lw B C H Hg Hf Hl HB H3 HT) as (p & Ep & _ & Hpe).
  exists m, p, m0. do 3 (split; [assumption|]). intros i Hi Hm.
  rewrite (proj1 (Hm0e i Hi) Hm). unfold Mean at 1.
  rewrite <- (Ex_tower g P (cvar k) B C) by (auto using only_cmid).
  rewrite (nsum_map_Fin _ (fun j => Mean g P k (union B C) j * (marg g P (union B C) j / marg g P C i))).
  - f_equal. rewrite Ex_E. unfold filled. rewrite sumR_filter; [reflexivity|].
    intros j Hj Hq. apply bins_over_in in Hj as [Hj _]; [|assumption].
    destruct (Rlt_dec 0 (marg g P (union B C) j)); [discriminate|].
    pose proof (marg_nonneg g P (union B C) j Hj HP). replace (marg g P (union B C) j) with 0 by lra. unfold Rdiv. ring.
  - intros j Hj. apply filter_In in Hj as [Hj Hq]. destruct (Rlt_dec 0 (marg g P (union B C) j)) as [Hp|]; [|discriminate].
    apply bins_over_in in Hj as [Hj Ha]; [|assumption].
    rewrite (proj1 (Hme j Hj) Hp).
    assert (MA : marg g P C j = marg g P C i).
    { apply marg_agree. eapply agree_sub; [|exact Ha]. rewrite disjoint_comm; assumption. }
    fold P in Hpe. rewrite (proj1 (Hpe j Hj)) by (rewrite MA; assumption). rewrite MA. apply nmul_Fin.
Qed.

Section Two.
Context (a b : coord) (C : vset) (Hab : before a b = true).
Context (HD : disjoint (union (cvar a) (cvar b)) C = true).
Context (HT : nonempty C = false -> total g P = 1).
Let AB := union (cvar a) (cvar b).
Lemma cov_claim :
  exists m, get_covariance o (dname AB C) lw = Ok m /\ shp m = mdims (xkey a b) C g /\
    forall i, in_grid g i ->
      (0 < marg g P C i -> ent m (mcoords (xkey a b) C i) =
         Fin (Ex g P AB C (fun j => cmid g a j * cmid g b j) i - Mean g P a C i * Mean g P b C i)) /\
      (marg g P C i = 0 -> ent m (mcoords (xkey a b) C i) = NaN).
Proof.
  pose proof (HDa a b C HD) as Ha. pose proof (HDb a b C HD) as Hb.
  destruct (covariance_ok o g P lw Hc Hg a b C Hab HD) as (m & Em & Hms & Hme); try reflexivity;
    try (apply base_gives; auto using cvar_nonempty, union_nonempty).
  exists m. do 2 (split; [assumption|]). intros i Hi. destruct (Hme i Hi) as [M1 M2]. split; [|exact M2].
  intros Hm. rewrite M1 by assumption. f_equal. apply Covar_eq; assumption.
Qed.
Lemma corr_claim :
  exists m, get_correlation o (dname AB C) lw = Ok m /\ shp m = mdims (xkey a b) C g /\
    forall i, in_grid g i ->
      (0 < marg g P C i -> 0 < Variance g P a C i -> 0 < Variance g P b C i ->
         exists r, ent m (mcoords (xkey a b) C i) = Fin r /\ -1 <= r <= 1 /\
           r = Covar g P a b C i / sqrt (Variance g P a C i * Variance g P b C i)) /\
      (0 < marg g P C i -> Variance g P a C i * Variance g P b C i = 0 -> ent m (mcoords (xkey a b) C i) = NaN) /\
      (marg g P C i = 0 -> ent m (mcoords (xkey a b) C i) = NaN).
Proof.
  pose proof (HDa a b C HD) as Ha. pose proof (HDb a b C HD) as Hb.
  destruct (correlation_ok o g P lw Hc Hg HP a b C Hab HD) as (m & Em & Hms & Hme); try reflexivity;
    try (apply base_gives; auto using cvar_nonempty, union_nonempty).
  exists m. do 2 (split; [assumption|]). intros i Hi. destruct (Hme i Hi) as (M1 & M2 & M3).
  split; [|split; assumption]. intros Hm Va Vb. eexists; split; [apply M1; assumption|]. split; [|reflexivity].
  apply correlation_range; assumption.
Qed.
End Two.
End Claims.

(** ** wrong numbers of dependent variables *)
Lemma cov_arity_marg o w lw : has_char "_" w = false -> String.length w <> 2%nat ->
  get_covariance o w lw = Err ValueError /\ get_correlation o w lw = Err ValueError.
Proof.
  intros Hw Hl. unfold get_covariance, get_correlation, dep_parts. rewrite Hw. cbn [bind fst snd].
  destruct w as [|c1 [|c2 [|c3 w]]]; cbn in *; try (split; reflexivity). congruence.
Qed.
Lemma cov_arity_cond o d m lw : has_char "_" d = false -> has_char "_" m = false -> String.length d <> 2%nat ->
  get_covariance o (d ++ "_" ++ m) lw = Err ValueError /\ get_correlation o (d ++ "_" ++ m) lw = Err ValueError.
Proof.
  intros Hd Hm Hl. unfold get_covariance, get_correlation, dep_parts.
  change ("_" ++ m)%string with (String "_" m).
  rewrite split_app by assumption.
  assert (X : has_char "_" (d ++ String "_" m) = true).
  { rewrite has_char_app. apply orb_true_iff; right. reflexivity. }
  rewrite X. cbn [bind fst snd]. destruct d as [|c1 [|c2 [|c3 d]]]; cbn in *; try (split; reflexivity). congruence.
Qed.

(** ** shifting the variable: bins e + c instead of e *)
Definition shift (k : coord) (c : R) (g : grid) : grid :=
  Grid (nt g) (nv g) (nx g) (ny g) (nz g)
       (match k with Ct => fun n => tE g n + c | _ => tE g end)
       (match k with Cv => fun n => vE g n + c | _ => vE g end)
       (xE g) (yE g)
       (match k with Cz => fun n => zE g n + c | _ => zE g end) (Lw g).
Lemma wid_shift e c n : wid (fun n => e n + c) n = wid e n.
Proof. unfold wid. ring. Qed.
Lemma total_eq_fun g g' P P' : nt g = nt g' -> nv g = nv g' -> nx g = nx g' -> ny g = ny g' -> nz g = nz g' ->
  (forall t v x y z, P t v x y z = P' t v x y z) -> total g P = total g' P'.
Proof. intros E1 E2 E3 E4 E5 HP. unfold total. rewrite E1, E2, E3, E4, E5. repeat (apply Sum_ext; intros). apply HP. Qed.
Lemma mass_shift k c g f t v x y z : mass (shift k c g) f t v x y z = mass g f t v x y z.
Proof. unfold mass, wid. destruct k; cbn; ring. Qed.
Lemma prob_shift k c g f lw t v x y z : prob (shift k c g) f lw t v x y z = prob g f lw t v x y z.
Proof.
  destruct lw; cbn [prob]; [|apply mass_shift]. unfold light.
  assert (T0 : total (shift k c g) (lit (shift k c g) (mass (shift k c g) f)) = total g (lit g (mass g f))).
  { apply total_eq_fun; try reflexivity. intros. unfold lit. rewrite mass_shift. reflexivity. }
  rewrite T0. unfold Rdiv. f_equal. unfold lit. rewrite mass_shift. reflexivity.
Qed.
Lemma marg_shift k c g P P' S i : (forall t v x y z, P' t v x y z = P t v x y z) ->
  marg (shift k c g) P' S i = marg g P S i.
Proof.
  intros E. unfold marg. cbn. destruct S as [[] [] [] []]; cbn; 
  repeat (apply Sum_ext; intros); apply E.
Qed.
Lemma cdf_shift k c g P P' C i n : (forall t v x y z, P' t v x y z = P t v x y z) ->
  cdf (shift k c g) P' k C i n = cdf g P k C i n.
Proof. intros E. unfold cdf. apply Sum_ext. intros. rewrite !(marg_shift k c g P P') by exact E. reflexivity. Qed.
Lemma Ldisp_shift k c g f lw C i : is_x k = false ->
  Ldisp (shift k c g) (prob (shift k c g) f lw) k C i = Ldisp g (prob g f lw) k C i.
Proof.
  intros Hk. unfold Ldisp. replace (cn (shift k c g) k) with (cn g k) by (destruct k; reflexivity).
  apply Sum_ext. intros n Hn. rewrite !(cdf_shift k c g (prob g f lw)) by (intros; apply prob_shift).
  f_equal. unfold wid. destruct k; try discriminate Hk; cbn; ring.
Qed.

Lemma l_disp_shift_claim self self' g f lw k c C :
  comp_on self g f -> comp_on self' (shift k c g) f -> good_grid g -> nonneg g f -> lw_ok g f lw ->
  is_x k = false -> disjoint (cvar k) C = true -> (nonempty C = false -> total g (prob g f lw) = 1) ->
  exists a b, get_l_dispersion (base_obj self) (dname (cvar k) C) lw = Ok a /\
    get_l_dispersion (base_obj self') (dname (cvar k) C) lw = Ok b /\ shp a = shp b /\
    forall i, in_grid g i -> ent a (coords C i) = ent b (coords C i).
Proof.
  intros H H' Hg Hf Hl Hk HD HT.
  assert (Hg' : good_grid (shift k c g)).
  { destruct Hg. constructor; auto; intros j Hj; destruct k; cbn in *;
    repeat match goal with X : increasing _ _ |- _ => specialize (X j) end; intuition lra. }
  assert (Hf' : nonneg (shift k c g) f) by exact Hf.
  assert (Hl' : lw_ok (shift k c g) f lw).
  { intros E. specialize (Hl E). erewrite total_eq_fun; [exact Hl|reflexivity..|]. intros. unfold lit. rewrite mass_shift. reflexivity. }
  assert (HT' : nonempty C = false -> total (shift k c g) (prob (shift k c g) f lw) = 1).
  { intros E. rewrite <- (HT E). apply total_eq_fun; try reflexivity. intros; apply prob_shift. }
  destruct (l_disp_claim self g f lw H Hg Hf Hl k C HD HT Hk) as (a & Ea & Hsa & Hea).
  destruct (l_disp_claim self' (shift k c g) f lw H' Hg' Hf' Hl' k C HD HT' Hk) as (b & Eb & Hsb & Heb).
  exists a, b. do 2 (split; [assumption|]). split; [rewrite Hsa, Hsb; destruct C as [[] [] [] []]; reflexivity|].
  intros i Hi. destruct (Hea i Hi) as [A1 A2]. destruct (Heb i Hi) as [B1 B2].
  rewrite (marg_shift k c g (prob g f lw)) in B1, B2 by (intros; apply prob_shift).
  destruct (marg_nonneg g (prob g f lw) C i Hi (prob_nonneg g f lw Hg Hf Hl)) as [Hm|Hm].
  - destruct (A1 Hm) as [-> _]. destruct (B1 Hm) as [-> _]. rewrite Ldisp_shift by assumption. reflexivity.
  - rewrite A2, B2 by (symmetry; assumption). reflexivity.
Qed.
