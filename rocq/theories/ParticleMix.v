(** * ParticleMix: particles in several sets. *)
From Coq Require Import Reals Lra Lia String Ascii List Bool Arith ZArith FunctionalExtensionality.
From Verif Require Import Num NumLemmas Arr ArrLemmas Cube Base Spec SpecLemmas Repr Moments MomSpec MomLemmas MomClaims CubeLemmas CubeGeom VecLemmas SspLemmas BaseLemmas CondLemmas DistLemmas LMom
  Particle ParticleSpec ParticleClaims Mixture MixSpec MixGen MixLemmas MixCond MixMom MixClaims MixExample
  Fft Datacube DatacubeSpec DatacubeLemmas DatacubeClaims.
Import ListNotations.
Local Open Scope R_scope.

(** the component made of the particles [pw] with their masses *)
Definition particles (c : cube) (pw : list (particle * R)) : res (report * component) :=
  from_particle c (map fst pw) (Some (map Fin (map snd pw))).

(** the share of the weight on the grid of each set *)
Definition set_shares (g : grid) (sets : list (list (particle * R))) : list R :=
  map (fun pw => weight (in_bounds g) pw / weight (in_bounds g) (concat sets)) sets.

(** [made] from the sets one by one, [whole] from all particles, and [self] the
    mixture of the former by mass *)
Record split_sets (c : cube) (g : grid) (sets : list (list (particle * R)))
    (made : list (report * component)) (whole : report * component) (self : mixture) : Prop := {
  ss_cube : cube_on c g;
  ss_grid : good_grid g;
  ss_some : sets <> [];
  ss_weights : Forall (fun pw => (forall q, In q pw -> 0 <= snd q) /\ 0 < weight (in_bounds g) pw) sets;
  ss_made : map_res (particles c) sets = Ok made;
  ss_whole : particles c (concat sets) = Ok whole;
  ss_mix : mixture_init c (map (fun k => comp_member (snd k)) made) (map Fin (set_shares g sets)) = Ok self
}.

Lemma weight_app P a b : weight P (a ++ b) = weight P a + weight P b.
Proof. unfold weight. rewrite map_app, sumR_app. reflexivity. Qed.
Lemma weight_concat P sets : weight P (concat sets) = sumR (map (weight P) sets).
Proof.
  induction sets as [|a l IH]; [reflexivity|]. cbn [concat map]. rewrite weight_app, IH. reflexivity.
Qed.
Lemma sumR_pos_map {A} (h : A -> R) l : l <> [] -> (forall a, In a l -> 0 < h a) -> 0 < sumR (map h l).
Proof.
  intros Hl H. destruct l as [|a l]; [contradiction|]. cbn [map]. unfold sumR; cbn [fold_right]. fold (sumR (map h l)).
  assert (0 <= sumR (map h l)).
  { clear Hl. assert (forall b, In b l -> 0 < h b) by (intros; apply H; right; assumption). clear H.
    induction l as [|b l IH]; [unfold sumR; cbn; lra|]. cbn [map]. unfold sumR; cbn [fold_right]. fold (sumR (map h l)).
    assert (0 < h b) by (apply H0; left; reflexivity). assert (0 <= sumR (map h l)) by (apply IH; intros; apply H0; right; assumption). lra. }
  assert (0 < h a) by (apply H; left; reflexivity). lra.
Qed.

Section Sets.
Context (c : cube) (g : grid) (sets : list (list (particle * R))).
Context (Hc : cube_on c g) (Hg : good_grid g) (Hs : sets <> []).
Context (Hw : Forall (fun pw => (forall q, In q pw -> 0 <= snd q) /\ 0 < weight (in_bounds g) pw) sets).
Definition Mtot : R := weight (in_bounds g) (concat sets).
Definition sparts : parts := map (fun pw => (particle_density g pw, weight (in_bounds g) pw / Mtot)) sets.

Lemma Mtot_pos : 0 < Mtot.
Proof.
  unfold Mtot. rewrite weight_concat. apply sumR_pos_map; [exact Hs|]. intros pw Hin.
  rewrite Forall_forall in Hw. apply Hw; exact Hin.
Qed.
Lemma concat_nonneg q : In q (concat sets) -> 0 <= snd q.
Proof.
  intros H. apply in_concat in H. destruct H as (pw & H1 & H2). rewrite Forall_forall in Hw. apply (Hw pw H1); exact H2.
Qed.
Lemma mixf_sparts : mixf sparts = particle_density g (concat sets).
Proof.
  apply functional_extensionality; intros t. apply functional_extensionality; intros v.
  apply functional_extensionality; intros x. apply functional_extensionality; intros y.
  apply functional_extensionality; intros z. unfold mixf, sparts. rewrite map_map. cbn [fst snd].
  unfold particle_density. fold Mtot. rewrite weight_concat.
  pose proof Mtot_pos as HM. generalize dependent Mtot. intros M HM.
  set (V := wid (tE g) t * wid (vE g) v * (wid (xE g) x * wid (yE g) y) * wid (zE g) z). clear Hs Hc.
  induction sets as [|a l IH]; [unfold sumR; cbn; unfold Rdiv; ring|].
  inversion Hw as [|? ? [_ Ha] Hl]; subst. cbn [map]. unfold sumR; cbn [fold_right]. fold sumR. 
  change (fold_right Rplus 0 (map (fun pw => weight (in_bounds g) pw / M * (weight (inside g (Bin t v x y z)) pw / weight (in_bounds g) pw / V)) l))
    with (sumR (map (fun pw => weight (in_bounds g) pw / M * (weight (inside g (Bin t v x y z)) pw / weight (in_bounds g) pw / V)) l)).
  rewrite (IH Hl). unfold sumR. unfold Rdiv.
  replace (weight (in_bounds g) a * / M * (weight (inside g (Bin t v x y z)) a * / weight (in_bounds g) a * / V))
    with (weight (in_bounds g) a * / weight (in_bounds g) a * (weight (inside g (Bin t v x y z)) a * / M * / V)) by ring.
  rewrite Rinv_r by lra. ring.
Qed.
Lemma sparts_sum : sumR (map snd sparts) = 1.
Proof.
  unfold sparts. rewrite map_map. cbn [snd]. transitivity (sumR (map (weight (in_bounds g)) sets) / Mtot).
  - clear. generalize Mtot; intros M. induction sets as [|a l IH]; [unfold sumR; cbn; unfold Rdiv; ring|].
    cbn [map]. unfold sumR in *; cbn [fold_right]. rewrite IH. unfold Rdiv. ring.
  - rewrite <- weight_concat. fold Mtot. pose proof Mtot_pos. field. lra.
Qed.
Lemma part_total pw : (forall q, In q pw -> 0 <= snd q) -> 0 < weight (in_bounds g) pw ->
  total g (mass g (particle_density g pw)) = 1.
Proof.
  intros Hp Hwt. destruct (fraction_claim c g Hc Hg pw Hp Hwt) as (n & comp & p & _ & _ & Sp & Hv & Hsum).
  assert (Fin (total g (mass g (particle_density g pw))) = Fin 1) as E; [|injection E; auto].
  rewrite <- Hsum, Sp.
  rewrite (nsum_map_Fin _ (fun idx => mass g (particle_density g pw) (bt (rd all_vars idx)) (bv (rd all_vars idx))
    (bx (rd all_vars idx)) (by_ (rd all_vars idx)) (bz (rd all_vars idx)))).
  - f_equal. unfold total. do 4 (rewrite sum_all_idx_cons; apply Sum_ext; intros).
    rewrite sum_all_idx_cons; apply Sum_ext; intros. rewrite sum_all_idx_nil. reflexivity.
  - intros idx Hi. apply in_all_idx in Hi. inb_inv.
    etransitivity; [apply (Hv (Bin i i0 i1 i2 i3)); unfold in_grid; cbn; auto|]. f_equal.
    unfold mass, particle_density; cbn [rd all_vars has_t has_v has_x has_z bt bv bx by_ bz].
    pose proof (wid_pos _ _ i (gg_tE _ Hg) ltac:(assumption)). pose proof (wid_pos _ _ i0 (gg_vE _ Hg) ltac:(assumption)).
    pose proof (wid_pos _ _ i1 (gg_xE _ Hg) ltac:(assumption)). pose proof (wid_pos _ _ i2 (gg_yE _ Hg) ltac:(assumption)).
    pose proof (wid_pos _ _ i3 (gg_zE _ Hg) ltac:(assumption)). unfold vol; cbn. field. repeat split; lra.
Qed.

Lemma particles_ok pw : 0 < weight (in_bounds g) pw ->
  exists comp, particles c pw = Ok (note_of g (map fst pw), comp) /\ comp_cube comp = c /\ comp_on comp g (particle_density g pw).
Proof.
  intros H. destruct (density_claim c g Hc Hg pw H) as (comp & E & Hon). exists comp. split; [exact E|]. split; [|exact Hon].
  destruct (fp_eq c g Hc Hg) as (dt & dv & dx & dy & dz & _ & _ & _ & _ & _ & F).
  specialize (F (finw pw)). rewrite finw_fst, finw_snd, E in F. injection F as ->. reflexivity.
Qed.
Lemma made_ok : exists made, map_res (particles c) sets = Ok made /\
  Forall2 (fun pw k => fst k = note_of g (map fst pw) /\ comp_cube (snd k) = c /\ comp_on (snd k) g (particle_density g pw)) sets made.
Proof.
  clear Hs. induction sets as [|a l IH]; [exists []; split; [reflexivity|constructor]|].
  inversion Hw as [|? ? [_ Ha] Hl]; subst. destruct (IH Hl) as (made & Em & Hm).
  destruct (particles_ok a Ha) as (comp & Ec & Hcc & Hon). exists ((note_of g (map fst a), comp) :: made). split.
  - cbn [map_res]. rewrite Ec. cbn [bind]. rewrite Em. reflexivity.
  - constructor; [cbn [fst snd]; auto|exact Hm].
Qed.
Lemma shares_eq : map (fun q => Fin (snd q)) sparts = map Fin (set_shares g sets).
Proof. unfold sparts, set_shares. rewrite !map_map. reflexivity. Qed.
Lemma share_pos pw : In pw sets -> 0 < weight (in_bounds g) pw / Mtot.
Proof.
  intros H. pose proof Mtot_pos. rewrite Forall_forall in Hw. destruct (Hw pw H) as [_ Hp].
  unfold Rdiv. apply Rmult_lt_0_compat; [exact Hp|]. apply Rinv_0_lt_compat; assumption.
Qed.
Lemma mix_ok made : map_res (particles c) sets = Ok made ->
  Forall2 (fun pw k => fst k = note_of g (map fst pw) /\ comp_cube (snd k) = c /\ comp_on (snd k) g (particle_density g pw)) sets made ->
  mixture_init c (map (fun k => comp_member (snd k)) made) (map Fin (set_shares g sets)) =
    Ok (Mixture c (map (fun k => comp_member (snd k)) made) (map Fin (set_shares g sets))) /\
  mix_on (Mixture c (map (fun k => comp_member (snd k)) made) (map Fin (set_shares g sets))) g (map snd made) sparts.
Proof.
  intros Em H2. assert (Hlen : List.length sets = List.length made) by (clear -H2; induction H2; cbn; congruence). split.
  - apply init_ok_claim.
    + rewrite !map_length. unfold set_shares. rewrite map_length. auto.
    + exists (set_shares g sets). split; [reflexivity|]. split.
      * intros r Hr. unfold set_shares in Hr. apply in_map_iff in Hr. destruct Hr as (pw & <- & Hin). apply share_pos; exact Hin.
      * replace (sumR (set_shares g sets)) with 1.
        { replace (1 - 1) with 0 by ring. rewrite Rabs_R0. lra. }
        rewrite <- sparts_sum. unfold sparts, set_shares. rewrite map_map. reflexivity.
  - constructor; cbn [mx_cube mx_members mx_weights].
    + exact Hc.
    + rewrite map_map. reflexivity.
    + symmetry; exact shares_eq.
    + unfold sparts. rewrite !map_length. auto.
    + unfold sparts. destruct sets; [contradiction|discriminate].
    + intros k comp q Hk Hq. unfold sparts in Hq. rewrite nth_error_map in Hk, Hq.
      destruct (nth_error made k) as [nk|] eqn:E1; [|discriminate]. destruct (nth_error sets k) as [pw|] eqn:E2; [|discriminate].
      injection Hk as <-. injection Hq as <-. cbn [fst snd].
      assert (Hin : In pw sets) by (eapply nth_error_In; exact E2).
      split; [|split; [|apply share_pos; exact Hin]].
      * clear -H2 E1 E2. revert k E1 E2. induction H2 as [|a b l l' Hab H2 IH]; intros [|k] E1 E2; try discriminate.
        -- injection E1 as <-. injection E2 as <-. apply Hab.
        -- eapply IH; eassumption.
      * rewrite Forall_forall in Hw. destruct (Hw pw Hin). apply particle_density_nonneg; assumption.
Qed.
Lemma built : exists made whole self, split_sets c g sets made whole self.
Proof.
  destruct made_ok as (made & Em & H2). destruct (particles_ok (concat sets) Mtot_pos) as (comp & E & _).
  destruct (mix_ok made Em H2) as [Ei _]. eexists made, _, _. constructor; eauto.
Qed.
End Sets.

(** what the record gives *)
Lemma split_inv c g sets made whole self : split_sets c g sets made whole self ->
  mix_on self g (map snd made) (sparts g sets) /\ comp_on (snd whole) g (mixf (sparts g sets)) /\
  comp_cube (snd whole) = c /\ mx_cube self = c /\
  Forall2 (fun pw k => fst k = note_of g (map fst pw) /\ comp_cube (snd k) = c /\ comp_on (snd k) g (particle_density g pw)) sets made /\
  fst whole = note_of g (map fst (concat sets)).
Proof.
  intros [Hc Hg Hs Hw Em Ew Ei]. destruct (made_ok c g sets Hc Hg Hw) as (made' & Em' & H2).
  rewrite Em in Em'. injection Em' as <-. destruct (mix_ok c g sets Hc Hg Hs Hw made Em H2) as [Ei' Hmix].
  rewrite Ei in Ei'. injection Ei' as ->.
  destruct (particles_ok c g Hc Hg (concat sets) (Mtot_pos g sets Hs Hw)) as (comp & E & Hcc & Hon).
  rewrite Ew in E. injection E as ->. cbn [fst snd]. rewrite mixf_sparts by assumption. auto 7.
Qed.

Lemma marg_sets_claim c g sets made whole self : split_sets c g sets made whole self ->
  forall S density lw, nonempty S = true -> lw_ok g (particle_density g (concat sets)) lw ->
  exists a b, mix_get_p self (name S) true density lw = Ok a /\ get_p (snd whole) (name S) density lw = Ok b /\
    shp a = dims S g /\ shp b = dims S g /\
    forall i, in_grid g i -> ent a (coords S i) = ent b (coords S i) /\ ent a (coords S i) <> NaN.
Proof.
  intros H S density lw HS Hlw. destruct (split_inv _ _ _ _ _ _ H) as (Hm & Hon & _).
  apply (marg_as_plain self g _ _ Hm (ss_grid _ _ _ _ _ _ H)); auto.
  rewrite mixf_sparts; [exact Hlw|apply (ss_some _ _ _ _ _ _ H)|apply (ss_weights _ _ _ _ _ _ H)].
Qed.
Lemma cond_sets_claim c g sets made whole self : split_sets c g sets made whole self ->
  forall A C density lw, nonempty A = true -> nonempty C = true -> disjoint A C = true ->
  lw_ok g (particle_density g (concat sets)) lw ->
  exists a b, mix_get_p self (cname A C) true density lw = Ok a /\ get_p (snd whole) (cname A C) density lw = Ok b /\
    shp a = (dims A g ++ dims C g)%list /\ shp b = (dims A g ++ dims C g)%list /\
    forall i, in_grid g i -> ent a (coords A i ++ coords C i) = ent b (coords A i ++ coords C i).
Proof.
  intros H A C density lw HA HC HD Hlw. destruct (split_inv _ _ _ _ _ _ H) as (Hm & Hon & _).
  pose proof (mixf_sparts g sets (ss_some _ _ _ _ _ _ H) (ss_weights _ _ _ _ _ _ H)) as E.
  destruct (cond_as_plain self g _ _ Hm (ss_grid _ _ _ _ _ _ H) (snd whole) A C density lw) as (a & b & Ea & Eb & Sa & Sb & Hab); auto.
  { rewrite E. exact Hlw. }
  exists a, b. do 4 (split; [assumption|]). intros i Hi. apply Hab; exact Hi.
Qed.

Section Moments.
Context (c : cube) (g : grid) (sets : list (list (particle * R))).
Context (made : list (report * component)) (whole : report * component) (self : mixture).
Context (H : split_sets c g sets made whole self) (lw : bool).
Context (Hl : forall pw, In pw sets -> lw_ok g (particle_density g pw) lw).
Let Hg := ss_grid _ _ _ _ _ _ H.
Let Hm := proj1 (split_inv _ _ _ _ _ _ H).

Lemma sparts_nth q : (q < List.length (sparts g sets))%nat -> exists pw, In pw sets /\ pf (sparts g sets) q = particle_density g pw.
Proof.
  intros Hq. unfold sparts in Hq. rewrite map_length in Hq.
  destruct (nth_error sets q) as [pw|] eqn:E; [|apply nth_error_None in E; lia].
  exists pw. split; [eapply nth_error_In; exact E|]. unfold pf, sparts.
  erewrite nth_error_nth; [|rewrite nth_error_map, E; reflexivity]. reflexivity.
Qed.
Lemma sparts_in pw : In pw sets -> exists q, (q < List.length (sparts g sets))%nat /\ pf (sparts g sets) q = particle_density g pw.
Proof.
  intros Hin. destruct (In_nth_error _ _ Hin) as [q E]. exists q.
  assert (Hq : (q < List.length sets)%nat) by (apply nth_error_Some; congruence). unfold sparts. rewrite map_length. split; [exact Hq|].
  unfold pf. erewrite nth_error_nth; [|rewrite nth_error_map, E; reflexivity]. reflexivity.
Qed.
Lemma sparts_lw q : (q < List.length (sparts g sets))%nat -> lw_ok g (pf (sparts g sets) q) lw.
Proof. intros Hq. destruct (sparts_nth q Hq) as (pw & Hin & ->). apply Hl; exact Hin. Qed.
Lemma sparts_total q : (q < List.length (sparts g sets))%nat -> total g (mass g (pf (sparts g sets) q)) = 1.
Proof.
  intros Hq. destruct (sparts_nth q Hq) as (pw & Hin & ->).
  pose proof (ss_weights _ _ _ _ _ _ H) as Hw. rewrite Forall_forall in Hw. destruct (Hw pw Hin).
  apply (part_total c); try assumption. exact (ss_cube _ _ _ _ _ _ H).
Qed.
Lemma whole_facts : comp_on (snd whole) g (mixf (sparts g sets)) /\ nonneg g (mixf (sparts g sets)) /\
  lw_ok g (mixf (sparts g sets)) lw /\ total g (prob g (mixf (sparts g sets)) lw) = 1.
Proof.
  pose proof (proj1 (proj2 (split_inv _ _ _ _ _ _ H))) as Hon. split; [exact Hon|].
  pose proof (mix_lw_ok self g _ _ Hm Hg lw sparts_lw) as HL.
  pose proof (Mtot_pos g sets (ss_some _ _ _ _ _ _ H) (ss_weights _ _ _ _ _ _ H)) as HM.
  pose proof (concat_nonneg g sets (ss_weights _ _ _ _ _ _ H)) as HN.
  rewrite (mixf_sparts g sets (ss_some _ _ _ _ _ _ H) (ss_weights _ _ _ _ _ _ H)) in *.
  split; [apply particle_density_nonneg; assumption|]. split; [exact HL|].
  unfold prob. destruct lw.
  - apply total_light. specialize (HL eq_refl). lra.
  - apply (part_total c); try assumption. exact (ss_cube _ _ _ _ _ _ H).
Qed.

Lemma moments_sets_claim k C j : disjoint (cvar k) C = true ->
  exists m m' q q', mix_mean self (dname (cvar k) C) lw = Ok m /\ get_mean (base_obj (snd whole)) (dname (cvar k) C) lw = Ok m' /\
    mix_central_moment self (dname (cvar k) C) j lw = Ok q /\
    get_central_moment (base_obj (snd whole)) (dname (cvar k) C) j lw = Ok q' /\
    shp m = mdims k C g /\ shp m' = mdims k C g /\ shp q = mdims k C g /\ shp q' = mdims k C g /\
    forall i, in_grid g i -> (forall pw, In pw sets -> 0 < marg g (prob g (particle_density g pw) lw) C i) ->
      ent m (mcoords k C i) = ent m' (mcoords k C i) /\ ent q (mcoords k C i) = ent q' (mcoords k C i) /\
      ent m (mcoords k C i) <> NaN /\ ent q (mcoords k C i) <> NaN.
Proof.
  intros HD. destruct whole_facts as (Hon & Hn & HL & HT).
  pose proof (sparts_sum g sets (ss_some _ _ _ _ _ _ H) (ss_weights _ _ _ _ _ _ H)) as Hsum.
  destruct (mix_mean_claim self g _ _ lw k C Hm Hg sparts_lw HD (fun _ _ => conj Hsum sparts_total)) as (m & Em & Sm & Hme).
  destruct (MixExample.central_claim self g _ _ lw k C j Hm Hg sparts_lw HD (fun _ _ => conj Hsum sparts_total)) as (q & Eq & Sq & Hqe).
  destruct (mean_claim (snd whole) g _ lw Hon Hg Hn HL k C HD (fun _ => HT)) as (m' & Em' & Sm' & Hme').
  destruct (MomClaims.central_claim (snd whole) g _ lw Hon Hg Hn HL k C HD (fun _ => HT) j) as (q' & Eq' & Sq' & Hqe').
  exists m, m', q, q'. do 8 (split; [assumption|]). intros i Hi Hpos.
  assert (Hq : forall q, (q < List.length (sparts g sets))%nat -> 0 < marg g (prob g (pf (sparts g sets) q) lw) C i).
  { intros r Hr. destruct (sparts_nth r Hr) as (pw & Hin & ->). apply Hpos; exact Hin. }
  assert (Hp : 0 < marg g (prob g (mixf (sparts g sets)) lw) C i).
  { apply (prob_pos self g _ (mix_on_gen self g _ _ Hm Hg) Hg true lw C i sparts_lw Hi). exists 0%nat.
    assert (H0 : (0 < List.length (sparts g sets))%nat).
    { unfold sparts. rewrite map_length. pose proof (ss_some _ _ _ _ _ _ H). destruct sets; [contradiction|cbn; lia]. }
    split; [exact H0|apply Hq; exact H0]. }
  destruct (Hme i Hi) as [A _]. destruct (Hqe i Hi) as [B _]. destruct (Hme' i Hi) as [A' _]. destruct (Hqe' i Hi) as [B' _].
  rewrite (A Hq), (B Hq), (proj1 (A' Hp)), (B' Hp). repeat split; discriminate.
Qed.
Lemma empty_set_claim k C j : disjoint (cvar k) C = true ->
  exists m m' q q', mix_mean self (dname (cvar k) C) lw = Ok m /\ get_mean (base_obj (snd whole)) (dname (cvar k) C) lw = Ok m' /\
    mix_central_moment self (dname (cvar k) C) j lw = Ok q /\
    get_central_moment (base_obj (snd whole)) (dname (cvar k) C) j lw = Ok q' /\
    forall i, in_grid g i -> (exists pw, In pw sets /\ marg g (prob g (particle_density g pw) lw) C i = 0) ->
      (exists pw, In pw sets /\ 0 < marg g (prob g (particle_density g pw) lw) C i) ->
      ent m (mcoords k C i) = NaN /\ ent q (mcoords k C i) = NaN /\
      (exists r, ent m' (mcoords k C i) = Fin r) /\ (exists r, ent q' (mcoords k C i) = Fin r).
Proof.
  intros HD. destruct whole_facts as (Hon & Hn & HL & HT).
  pose proof (sparts_sum g sets (ss_some _ _ _ _ _ _ H) (ss_weights _ _ _ _ _ _ H)) as Hsum.
  destruct (mix_mean_claim self g _ _ lw k C Hm Hg sparts_lw HD (fun _ _ => conj Hsum sparts_total)) as (m & Em & Sm & Hme).
  destruct (MixExample.central_claim self g _ _ lw k C j Hm Hg sparts_lw HD (fun _ _ => conj Hsum sparts_total)) as (q & Eq & Sq & Hqe).
  destruct (mean_claim (snd whole) g _ lw Hon Hg Hn HL k C HD (fun _ => HT)) as (m' & Em' & Sm' & Hme').
  destruct (MomClaims.central_claim (snd whole) g _ lw Hon Hg Hn HL k C HD (fun _ => HT) j) as (q' & Eq' & Sq' & Hqe').
  exists m, m', q, q'. do 4 (split; [assumption|]). intros i Hi (pw0 & Hin0 & Hz) (pw1 & Hin1 & Hp1).
  assert (Hq : exists q, (q < List.length (sparts g sets))%nat /\ marg g (prob g (pf (sparts g sets) q) lw) C i = 0).
  { destruct (sparts_in pw0 Hin0) as (r & Hr & Er). exists r. rewrite Er. auto. }
  assert (Hp : 0 < marg g (prob g (mixf (sparts g sets)) lw) C i).
  { apply (prob_pos self g _ (mix_on_gen self g _ _ Hm Hg) Hg true lw C i sparts_lw Hi).
    destruct (sparts_in pw1 Hin1) as (r & Hr & Er). exists r. rewrite Er. auto. }
  destruct (Hme i Hi) as [_ A]. destruct (Hqe i Hi) as [_ B]. destruct (Hme' i Hi) as [A' _]. destruct (Hqe' i Hi) as [B' _].
  rewrite (A Hq), (B Hq), (proj1 (A' Hp)), (B' Hp). eauto 6.
Qed.
End Moments.

(** the numbers of particles reported add up *)
Lemma notes_claim c g sets made whole self : split_sets c g sets made whole self ->
  n_lost (fst whole) = list_sum (map (fun k => n_lost (fst k)) made) /\
  n_total (fst whole) = list_sum (map (fun k => n_total (fst k)) made).
Proof.
  intros H. destruct (split_inv _ _ _ _ _ _ H) as (_ & _ & _ & _ & H2 & E). rewrite E. clear -H2.
  induction H2 as [|pw k l l' [Hk _] H2 IH]; [split; reflexivity|]. cbn [concat map list_sum fold_right].
  unfold note_of in *; cbn [n_lost n_total] in *. rewrite Hk; cbn [n_lost n_total]. rewrite map_app, app_length.
  unfold count in *. rewrite filter_app, app_length. destruct IH as [-> ->]. unfold list_sum. split; reflexivity.
Qed.

(** the datacubes *)
Lemma datacube_sets_claim W c g sets made whole self n dv S v0 batch wbatch : split_sets c g sets made whole self ->
  templates (c_ssps c) g n dv S -> velocity_ok (nv g) (vE g) dv v0 -> (6 <= nv g)%nat -> is_batch batch -> is_batch wbatch ->
  exists ys y y', map_res (fun k => evaluate_ybar W (snd k) batch) made = Ok ys /\
    mixture_ybar (map Some ys) (map Fin (set_shares g sets)) = Ok y /\
    evaluate_ybar W (snd whole) wbatch = Ok y' /\ shp y = [n; nx g; ny g] /\ shp y' = [n; nx g; ny g] /\
    forall w i j, (w < n)%nat -> (i < nx g)%nat -> (j < ny g)%nat ->
      ent y [w; i; j] = ent y' [w; i; j] /\ exists r, ent y [w; i; j] = Fin r.
Proof.
  intros H HT HV Hn Hb Hwb. destruct (split_inv _ _ _ _ _ _ H) as (Hm & Hon & Hcc & _ & H2 & _).
  set (K := combine (combine (map snd made) (set_shares g sets)) (map (particle_density g) sets)).
  assert (Hlen : List.length sets = List.length made) by (clear -H2; induction H2; cbn; congruence).
  assert (L1 : List.length (map snd made) = List.length (set_shares g sets)) by (unfold set_shares; rewrite !map_length; auto).
  assert (L2 : List.length (combine (map snd made) (set_shares g sets)) = List.length (map (particle_density g) sets)).
  { rewrite combine_length, L1, Nat.min_id. unfold set_shares. rewrite !map_length. reflexivity. }
  assert (E1 : map fst K = combine (map snd made) (set_shares g sets)).
  { unfold K. clear -L2. revert L2. generalize (combine (map snd made) (set_shares g sets)) (map (particle_density g) sets).
    induction l as [|a l IH]; intros [|b m]; cbn; try discriminate; [reflexivity|]. intros E. rewrite IH by lia. reflexivity. }
  assert (E2 : map (fun m => fst (fst m)) K = map snd made /\ map (fun m => snd (fst m)) K = set_shares g sets).
  { rewrite <- (map_map fst fst), <- (map_map fst snd), E1. revert L1. generalize (map snd made) (set_shares g sets).
    induction l as [|a l IH]; intros [|b m]; cbn; try discriminate; [auto|]. intros E. destruct (IH m) as [-> ->]; [lia|auto]. }
  assert (E3 : combined (map (fun m => (snd (fst m), snd m)) K) = mixf (sparts g sets)).
  { unfold combined, mixf. apply functional_extensionality; intros t. apply functional_extensionality; intros v.
    apply functional_extensionality; intros x. apply functional_extensionality; intros y. apply functional_extensionality; intros z.
    f_equal. rewrite map_map. cbn [fst snd]. unfold K, sparts, set_shares. rewrite map_map. cbn [fst snd]. fold (Mtot g sets).
    generalize (Mtot g sets); intros M. clear -Hlen. revert made Hlen. induction sets as [|a l IH]; intros [|b made] Hlen; try discriminate; [reflexivity|].
    cbn [map combine fst snd]. f_equal. apply IH. cbn in Hlen; lia. }
  destruct E2 as [E2 E2'].
  destruct (mixture_density_claim W K g n dv S v0 (snd whole) batch wbatch) as (ys & y & y' & Ey & Em & Ew & Sy & Sy' & He); try assumption.
  - intros E. rewrite E in E2'. pose proof (ss_some _ _ _ _ _ _ H). unfold set_shares in E2'. destruct sets; [contradiction|discriminate].
  - unfold K. clear -H H2 HT HV Hn. pose proof (ss_grid _ _ _ _ _ _ H) as Hg. pose proof (ss_weights _ _ _ _ _ _ H) as Hw. unfold set_shares.
    generalize (weight (in_bounds g) (concat sets)); intros M. clear H. revert Hw. induction H2 as [|pw k l l' (_ & Hck & Honk) H2 IH]; intros Hw; [constructor|].
    cbn [map combine]. inversion Hw as [|? ? [Hnn Hp] Hw']; subst. constructor; [|apply IH; assumption]. cbn [fst snd]. constructor; auto.
    apply particle_density_nonneg; assumption.
  - rewrite E3. constructor; auto.
    + exact (ss_grid _ _ _ _ _ _ H).
    + rewrite (mixf_sparts g sets (ss_some _ _ _ _ _ _ H) (ss_weights _ _ _ _ _ _ H)). apply particle_density_nonneg.
      * exact (ss_grid _ _ _ _ _ _ H).
      * exact (concat_nonneg g sets (ss_weights _ _ _ _ _ _ H)).
      * exact (Mtot_pos g sets (ss_some _ _ _ _ _ _ H) (ss_weights _ _ _ _ _ _ H)).
    + rewrite Hcc. exact HT.
  - exists ys, y, y'. split.
    { rewrite <- Ey. clear -E2. assert (G : forall A (h : A -> component) (l : list A), map_res (fun a => evaluate_ybar W (h a) batch) l = map_res (fun k => evaluate_ybar W k batch) (map h l)).
      { induction l as [|a l IH]; [reflexivity|]. cbn [map_res map]. destruct (evaluate_ybar W (h a) batch); [|reflexivity]. cbn [bind]. rewrite IH. reflexivity. }
      rewrite (G _ snd made), (G _ (fun m => fst (fst m)) K), E2. reflexivity. }
    split. { rewrite <- E2', map_map. exact Em. }
    do 3 (split; [assumption|]). intros w i j H1 H3 H4. destruct (He w i j H1 H3 H4) as [A B]. split; [exact A|]. eexists; exact B.
Qed.

Lemma built_claim c g sets : cube_on c g -> good_grid g -> sets <> [] ->
  Forall (fun pw => (forall q, In q pw -> 0 <= snd q) /\ 0 < weight (in_bounds g) pw) sets ->
  exists made whole self,
    map_res (fun pw => from_particle c (map fst pw) (Some (map Fin (map snd pw)))) sets = Ok made /\
    from_particle c (map fst (concat sets)) (Some (map Fin (map snd (concat sets)))) = Ok whole /\
    mixture_init c (map (fun k => comp_member (snd k)) made)
      (map (fun pw => Fin (weight (in_bounds g) pw / weight (in_bounds g) (concat sets))) sets) = Ok self /\
    split_sets c g sets made whole self.
Proof.
  intros Hc Hg Hs Hw. destruct (built c g sets Hc Hg Hs Hw) as (made & whole & self & H). exists made, whole, self.
  split; [exact (ss_made _ _ _ _ _ _ H)|]. split; [exact (ss_whole _ _ _ _ _ _ H)|]. split; [|exact H].
  pose proof (ss_mix _ _ _ _ _ _ H) as E. unfold set_shares in E. rewrite map_map in E. exact E.
Qed.
