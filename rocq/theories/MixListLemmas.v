(** * MixListLemmas: mixtures whose list of components has changed length. *)
From Coq Require Import Reals Lra Lia List Bool Arith ZArith String Ascii.
From Verif Require Import Num NumLemmas Arr ArrLemmas MomArr PyStr Cube Base Spec SpecLemmas Repr CubeLemmas BaseLemmas
  CondLemmas Moments DistLemmas Mixture MixSpec MixGen MixLemmas MixCond Datacube MixList.
Import ListNotations.
Local Open Scope R_scope.

Lemma rows_len w d s : forall l r, rows w d s l = Ok r -> List.length r = List.length l.
Proof.
  induction l as [|mw l IH]; intros r E; cbn [rows] in E; [injection E as <-; reflexivity|].
  destruct (weighted_log_p w d mw) as [a|]; [|discriminate E]. cbn [bind] in E.
  destruct (broadcast_to a s) as [b|]; [|discriminate E]. cbn [bind] in E.
  destruct (rows w d s l) as [r'|]; [|discriminate E]. cbn [bind] in E. injection E as <-. cbn. f_equal. apply IH. reflexivity.
Qed.

Lemma rows_shp w d s : forall l r b, rows w d s l = Ok r -> In b r -> shp b = s.
Proof.
  induction l as [|mw l IH]; intros r b E Hb; cbn [rows] in E; [injection E as <-; destruct Hb|].
  destruct (weighted_log_p w d mw) as [a|]; [|discriminate E]. cbn [bind] in E.
  destruct (broadcast_to a s) as [b0|] eqn:Eb; [|discriminate E]. cbn [bind] in E.
  destruct (rows w d s l) as [r'|]; [|discriminate E]. cbn [bind] in E. injection E as <-.
  destruct Hb as [<-|Hb]; [|eapply IH; [reflexivity|exact Hb]].
  unfold broadcast_to in Eb. destruct (bshape (shp a) s); [|discriminate Eb].
  destruct (natlist_eqb _ _); [|discriminate Eb]. injection Eb as <-. reflexivity.
Qed.

(** ** a list that is long enough *)
Section Longer.
Context (c : cube) (l : list member) (ws : list num).
Let n := List.length ws.
Let self := LMix c l n ws.
Context (Hn : (n <= List.length l)%nat).
Let m := Mixture c (firstn n l) ws.

Lemma long_mass w d : l_mass_wtd self w d = mix_mass_wtd m w d.
Proof.
  unfold l_mass_wtd, mix_mass_wtd, self, m. cbn [lm_list lm_weights lm_n mx_members mx_weights].
  unfold n. rewrite <- combine_firstn_r.
  assert (Hl : List.length (combine l ws) = n) by (rewrite combine_length; unfold n in *; lia).
  destruct (combine l ws) as [|mw z]; [reflexivity|].
  destruct (weighted_log_p w d mw) as [a|]; [|reflexivity]. cbn [bind].
  destruct (rows w d (shp a) (mw :: z)) as [r|] eqn:E; [|reflexivity]. cbn [bind].
  apply rows_len in E. rewrite Hl in E. unfold n in E. rewrite E, Nat.sub_diag. cbn [repeat]. rewrite app_nil_r. reflexivity.
Qed.
Lemma long_light w d : l_light_wtd self w d = mix_light_wtd m w d.
Proof. unfold l_light_wtd, mix_light_wtd. cbv zeta. rewrite long_mass. reflexivity. Qed.
Lemma long_marginal w b d lw : l_marginal self w b d lw = mix_marginal m w b d lw.
Proof. unfold l_marginal, mix_marginal. rewrite long_light, long_mass. reflexivity. Qed.
Lemma long_conditional w d lw : l_conditional self w d lw = mix_conditional m w d lw.
Proof.
  unfold l_conditional, mix_conditional. destruct (py_assert _); [|reflexivity]. cbn [bind].
  destruct (split "_" w) as [|s1 [|s2 [|]]]; try reflexivity. cbv zeta.
  rewrite !long_marginal. reflexivity.
Qed.
Lemma long_log_p w b d lw : l_get_log_p self w b d lw = mix_get_log_p m w b d lw.
Proof. unfold l_get_log_p, mix_get_log_p. rewrite long_conditional, long_marginal. reflexivity. Qed.
Lemma long_p w b d lw : l_get_p self w b d lw = mix_get_p m w b d lw.
Proof. unfold l_get_p, mix_get_p. rewrite long_log_p. reflexivity. Qed.

Lemma same_reweightings : List.length l = n -> l_reweightings self = mix_reweightings m.
Proof.
  intros E. unfold l_reweightings, mix_reweightings. rewrite long_p. unfold l_per_member, per_member, self, m.
  cbn [lm_list lm_cube mx_members mx_cube]. rewrite firstn_all2 by lia. reflexivity.
Qed.
Lemma same_mean w lw : List.length l = n -> l_mean self w lw = mix_mean m w lw.
Proof.
  intros E. unfold l_mean, mix_mean. rewrite same_reweightings by assumption.
  assert (EP : forall f, l_per_member self f = per_member m f).
  { intros f. unfold l_per_member, per_member, self, m. cbn [lm_list mx_members]. rewrite firstn_all2 by lia. reflexivity. }
  assert (EL : lm_n self = List.length (mx_members m)).
  { unfold self, m. cbn [lm_n mx_members]. rewrite firstn_all2 by lia. lia. }
  rewrite EL, !EP. destruct (per_member m _) as [mu|]; [|reflexivity]. cbn [bind].
  destruct (if lw then _ else _) as [rw|]; [|reflexivity]. cbn [bind].
  destruct (negb (has_char "_" w)); [reflexivity|]. cbv zeta.
  destruct (part1 w) as [co|]; [|reflexivity]. cbn [bind].
  rewrite EP, long_p. reflexivity.
Qed.
Lemma same_central w j lw : List.length l = n -> l_central_moment self w j lw = mix_central_moment m w j lw.
Proof.
  intros E. unfold l_central_moment, mix_central_moment. rewrite same_mean, same_reweightings by assumption.
  assert (EP : forall f, l_per_member self f = per_member m f).
  { intros f. unfold l_per_member, per_member, self, m. cbn [lm_list mx_members]. rewrite firstn_all2 by lia. reflexivity. }
  destruct (mix_mean m w lw) as [mu|]; [|reflexivity]. cbn [bind]. rewrite EP.
  destruct (per_member m _) as [mi|]; [|reflexivity]. cbn [bind].
  destruct (negb (has_char "_" w)); [reflexivity|]. cbv zeta.
  destruct (part1 w) as [co|]; [|reflexivity]. cbn [bind]. rewrite long_p. reflexivity.
Qed.
End Longer.

(** ** a list that is too short *)
Section Shorter.
Context (c : cube) (cur : list member) (ws : list num) (g : grid) (l : bool -> parts).
Let n := List.length ws.
Let m := List.length cur.
Let self := LMix c cur n ws.
Let tr := Mixture c cur (firstn m ws).
Context (H : mix_gen tr g l) (Hg : good_grid g) (Hmn : (m < n)%nat).
Let Hc : cube_on c g := mg_cube _ _ _ H.

Lemma len_l b : List.length (l b) = m.
Proof. symmetry. apply (mg_len _ _ _ H b). Qed.
Lemma m_pos : (0 < m)%nat.
Proof. rewrite <- (len_l false). apply (n_pos tr g l H). Qed.

(** the row of a component that is not there any more is log 1 *)
Definition srow (S : vset) (density : bool) (k : nat) (i : bin) : R :=
  if (k <? m)%nat then marg g (share g (l (has_v S)) false k) S i / dens g density S i else 1.

Lemma short_mass S density : nonempty S = true ->
  exists q, l_mass_wtd self (name S) density = Ok q /\
    arr_is q (n :: dims S g) (fun idx => lg (srow S density (hd 0%nat idx) (rd S (tl idx)))).
Proof.
  intros HS. destruct (mass_wtd_ok tr g l H Hg S density HS) as (a & Ea & Hsa & Hea).
  rewrite len_l in Hsa, Hea.
  unfold mix_mass_wtd in Ea. unfold l_mass_wtd, self. unfold tr in Ea.
  cbn [lm_list lm_weights lm_n mx_members mx_weights] in *. unfold m in Ea. rewrite <- combine_firstn_l in Ea.
  destruct (combine cur ws) as [|mw z] eqn:Ez; [discriminate Ea|].
  destruct (weighted_log_p (name S) density mw) as [p0|]; [|discriminate Ea]. cbn [bind] in *.
  destruct (rows (name S) density (shp p0) (mw :: z)) as [r|] eqn:Er; [|discriminate Ea]. cbn [bind] in *.
  pose proof (fun b => rows_shp _ _ _ _ _ b Er) as Hrs.
  apply rows_len in Er. rewrite <- Ez, combine_length in Er. fold m n in Er. rewrite Nat.min_l in Er by lia.
  pose proof m_pos as Hm.
  assert (HR : shp p0 = dims S g /\ forall k b, nth_error r k = Some b -> forall idx, ent a (k :: idx) = ent b idx).
  { unfold stack in Ea. destruct r as [|r0 r]; [cbn in Er; lia|].
    destruct (forallb _ r) eqn:Ef; [|discriminate Ea]. injection Ea as <-. cbn [shp ent] in *.
    injection Hsa as _ Hs0. split; [rewrite <- (Hrs r0); [exact Hs0|left; reflexivity]|].
    intros k b Hb idx. rewrite Hb. reflexivity. }
  destruct HR as (Hp0 & Her).
  destruct (stack_is (r ++ repeat (full (shp p0) (Fin 0)) (n - List.length r)) NaN (dims S g)) as (q & Eq & Hsq & Heq).
  { intros E. apply app_eq_nil in E as [E _]. rewrite E in Er. cbn in Er; lia. }
  { intros b Hb. apply in_app_or in Hb as [Hb|Hb]; [rewrite <- Hp0; apply Hrs, Hb|]. apply repeat_spec in Hb as ->. exact Hp0. }
  exists q. split; [exact Eq|]. split.
  { rewrite Hsq, app_length, repeat_length, Er. f_equal. lia. }
  intros idx Hidx. apply inb_cons in Hidx as (k & idx' & -> & Hk & Hi). cbn [hd tl]. unfold srow.
  destruct (Nat.ltb_spec k m) as [Hkm|Hkm].
  - destruct (nth_error r k) as [b|] eqn:Eb; [|apply nth_error_None in Eb; lia].
    rewrite (Heq k b idx') by (rewrite nth_error_app1 by lia; exact Eb).
    rewrite <- (Her k b Eb). apply (Hea (k :: idx')). constructor; assumption.
  - rewrite (Heq k (full (shp p0) (Fin 0)) idx').
    + unfold full; cbn [ent]. rewrite lg_pos, ln_1 by lra; reflexivity.
    + rewrite nth_error_app2 by lia. rewrite Er. rewrite (nth_error_nth' _ (full (shp p0) (Fin 0))) by (rewrite repeat_length; lia).
      f_equal. apply nth_repeat.
Qed.

Lemma srow_nn S density k i : in_grid g i -> 0 <= srow S density k i.
Proof.
  intros Hi. unfold srow. destruct (k <? m)%nat; [|lra]. apply div_pos_le; [|apply dens_pos; assumption].
  apply (share_nn tr g l H Hg); [discriminate|assumption].
Qed.
(** what the rows add up to *)
Definition excess : R := INR (n - m).
Lemma excess_pos : 0 < excess.
Proof. unfold excess. apply lt_0_INR. lia. Qed.
Definition ssum (S : vset) (density : bool) (i : bin) : R :=
  marg g (prob g (mixf (l (has_v S))) false) S i / dens g density S i + excess.
Lemma Sum_split_ge a (F G : nat -> R) b : (a <= b)%nat ->
  Sum b (fun k => if (k <? a)%nat then F k else G k) = Sum a F + Sum (b - a) (fun k => G (a + k)%nat).
Proof.
  intros Hab. replace b with (a + (b - a))%nat at 1 by lia. rewrite Sum_split. f_equal.
  - apply Sum_ext; intros k Hk. destruct (Nat.ltb_spec k a); [reflexivity|lia].
  - apply Sum_ext; intros k Hk. destruct (Nat.ltb_spec (a + k) a); [lia|reflexivity].
Qed.
Lemma srow_sum S density i : in_grid g i -> Sum n (fun k => srow S density k i) = ssum S density i.
Proof.
  intros Hi. unfold srow, ssum, excess. rewrite Sum_split_ge by lia. f_equal.
  - rewrite (marg_share' tr g l H (has_v S) false S i ltac:(discriminate) Hi), len_l. unfold Rdiv. rewrite Sum_scal_r. reflexivity.
  - rewrite Sum_const. ring.
Qed.
Lemma ssum_pos S density i : in_grid g i -> 0 < ssum S density i.
Proof.
  intros Hi. unfold ssum. pose proof excess_pos. apply Rplus_le_lt_0_compat; [|assumption].
  apply div_pos_le; [|apply dens_pos; assumption]. rewrite (marg_share' tr g l H (has_v S) false S i ltac:(discriminate) Hi).
  apply Sum_nonneg; intros. apply (share_nn tr g l H Hg); [discriminate|assumption].
Qed.

Lemma short_marginal S collapse density : nonempty S = true ->
  exists q, l_marginal self (name S) collapse density false = Ok q /\
    if collapse then arr_is q (dims S g) (fun idx => lg (ssum S density (rd S idx)))
    else arr_is q (n :: dims S g) (fun idx => lg (srow S density (hd 0%nat idx) (rd S (tl idx)))).
Proof.
  intros HS. unfold l_marginal. destruct (short_mass S density HS) as (a & E & Ha). rewrite E. cbn [bind].
  destruct collapse; [|exists a; split; [reflexivity|exact Ha]].
  destruct (lse0_is a n _ _ Ha ltac:(lia)) as (b & Eb & Hb). exists b; split; [exact Eb|].
  eapply arr_is_ext; [exact Hb|]. intros idx Hi. cbn [hd tl]. pose proof (rd_in_grid S g idx Hg Hi) as Hin.
  rewrite lse_seq by (intros; apply srow_nn; assumption). rewrite srow_sum by assumption. reflexivity.
Qed.

Lemma short_conditional A C density :
  nonempty A = true -> nonempty C = true -> disjoint A C = true ->
  exists a, l_conditional self (cname A C) density false = Ok a /\
    arr_is a (n :: dims A g ++ dims C g) (fun idx => let i := rd2 A C (tl idx) in
      lg (srow (union A C) false (hd 0%nat idx) i / ssum C false i / dens g density A i)).
Proof.
  intros HA HC HD.
  destruct (short_marginal (union A C) false false (nonempty_union A C HA)) as (aj & Ej & Haj).
  destruct (short_marginal C true false HC) as (am & Em & Ham).
  cbv beta iota in Haj, Ham.
  destruct (vol_cond_ok _ g Hc Hg A C HA HC HD) as (va & Ev & Hva).
  unfold l_conditional.
  assert (HJ : forall k i, in_grid g i -> 0 <= srow (union A C) false k i) by (intros; apply srow_nn; assumption).
  assert (HM : forall i, in_grid g i -> 0 < ssum C false i) by (intros; apply ssum_pos; assumption).
  assert (HA2 : forall i j, agree C i j -> ssum C false i = ssum C false j)
    by (intros i j Hij; unfold ssum, dens; rewrite (marg_agree g _ C i j Hij); reflexivity).
  set (J := srow (union A C) false) in *. set (M := ssum C false) in *. clearbody J M.
  change (lm_cube self) with c. set (sf := self) in *. clearbody sf. 
  assert (Hin := fun idx => rd2_in_grid A C g idx Hg).
  destruct A as [[] [] [] []]; try discriminate HA; clear HA;
  destruct C as [[] [] [] []]; try discriminate HD; try discriminate HC; clear HC HD.
  all: cbn [name cname has_t has_v has_x has_z append union orb] in Ev, Ej, Em |- *.
  all: str_compute; cbn [py_assert bind]; rewrite Ej, Em; cbn [bind]; clear Ej Em.
  all: cbn [append]; str_compute.
  all: unfold dens in *.
  all: cbn [dims unit_dims all_vars has_t has_v has_x has_z opt app pt nt nv nx ny nz union orb] in *.
  all: s_mov; s_bop.
  all: destruct density;
   [ rewrite Ev; cbn [bind]; s_map; s_bop | ];
   (eexists; split; [reflexivity|]).
  all: eapply arr_is_ext; [eassumption|]; intros idx Hidx;
    apply inb_cons in Hidx as (k & idx' & -> & Hk & Hidx);
    specialize (Hin idx' Hidx); specialize (HJ k _ Hin); specialize (HM _ Hin).
  all: pose proof Hin as Hin'; unfold in_grid in Hin'; destruct Hin' as (_ & _ & Hx & Hy & _).
  all: inb_inv; cbn [nth hd tl bidx]; cbn -[vol nsub rd2 union] in *; picks; cbn -[vol nsub union rd2] in *.
  all: match goal with
    | |- nsub (nsub _ (lg (_ ?b1))) (nlog (Fin (vol _ _ ?b0))) = lg (_ / _ / vol _ ?S ?b) =>
        replace (vol g S b0) with (vol g S b)
          by (rewrite <- (vol_pt _ g Hc Hg S b Hin); reflexivity);
        replace (M b1) with (M b) by (apply HA2; unfold agree; cbn; repeat split; intros; try discriminate; reflexivity);
        change (nsub (nsub (lg (J k b)) (lg (M b))) (nlog (Fin (vol g S b))) = lg (J k b / M b / vol g S b));
        rewrite nsub_lg, nlog_Fin, nsub_lg by (try assumption; try (apply vol_pos; assumption); apply div_pos_le; assumption);
        reflexivity
    | |- nsub _ (lg (_ ?b1)) = lg (_ / _ ?b / 1) =>
        replace (M b1) with (M b) by (apply HA2; unfold agree; cbn; repeat split; intros; try discriminate; reflexivity);
        change (nsub (lg (J k b)) (lg (M b)) = lg (J k b / M b / 1));
        rewrite nsub_lg by assumption; f_equal; field; apply Rgt_not_eq; assumption
    end.
Qed.
End Shorter.
