(** * MixListClaims: changed lists of base components. *)
From Coq Require Import Reals Lra Lia List Bool Arith ZArith String Ascii.
From Verif Require Import Num NumLemmas Arr ArrLemmas MomArr PyStr Cube Base Spec SpecLemmas Repr CubeLemmas BaseLemmas
  CondLemmas Moments DistLemmas MomSpec MomLemmas MomLemmas2 MomLemmas3 MomLemmas5 MomClaims Mixture MixSpec MixGen MixLemmas MixCond MixMom Datacube
  MixList MixListSpec MixListLemmas.
Import ListNotations.
Local Open Scope R_scope.

(** ** from construction on *)
Lemma init_fields c l ws s : lmix_init c l ws = Ok s ->
  s = LMix c l (List.length ws) ws /\ List.length l = List.length ws /\
  forall l', List.length l' = List.length ws -> mixture_init c l' ws = Ok (Mixture c l' ws).
Proof.
  unfold lmix_init. destruct (Nat.eqb_spec (List.length l) (List.length ws)) as [E|]; [|discriminate]. cbn [py_assert bind].
  destruct (forallb _ ws) eqn:E2; [|discriminate]. cbn [py_assert bind].
  destruct (isclose1 (nsum ws)) eqn:E3; [|discriminate]. cbn [py_assert bind]. intros [= <-].
  rewrite E. split; [reflexivity|]. split; [reflexivity|]. intros l' Hl. unfold mixture_init.
  rewrite Hl, Nat.eqb_refl, E2, E3. reflexivity.
Qed.

Lemma longer_claim c l ws s l' : lmix_init c l ws = Ok s -> (List.length l <= List.length l')%nat ->
  exists m, mixture_init c (firstn (List.length l) l') ws = Ok m /\
    forall w collapse density lw,
      l_get_log_p (edit_list s l') w collapse density lw = mix_get_log_p m w collapse density lw /\
      l_get_p (edit_list s l') w collapse density lw = mix_get_p m w collapse density lw.
Proof.
  intros Hi Hl. destruct (init_fields c l ws s Hi) as (-> & E & Hm). rewrite E in *.
  eexists. split; [apply Hm; rewrite firstn_length; lia|]. intros. unfold edit_list. cbn [lm_cube lm_n lm_weights].
  split; [apply long_log_p|apply long_p]; exact Hl.
Qed.
Lemma same_claim c l ws s l' : lmix_init c l ws = Ok s -> List.length l' = List.length l ->
  exists m, mixture_init c l' ws = Ok m /\
    forall w lw,
      (forall collapse density, l_get_log_p (edit_list s l') w collapse density lw = mix_get_log_p m w collapse density lw /\
        l_get_p (edit_list s l') w collapse density lw = mix_get_p m w collapse density lw) /\
      l_mean (edit_list s l') w lw = mix_mean m w lw /\
      forall j, l_central_moment (edit_list s l') w j lw = mix_central_moment m w j lw.
Proof.
  intros Hi Hl. destruct (init_fields c l ws s Hi) as (-> & E & Hm). rewrite E in *.
  exists (Mixture c l' ws). split; [apply Hm; exact Hl|]. intros. unfold edit_list. cbn [lm_cube lm_n lm_weights].
  assert (El : firstn (List.length ws) l' = l') by (apply firstn_all2; lia).
  assert (Hle : (List.length ws <= List.length l')%nat) by lia.
  pose proof (long_log_p c l' ws Hle) as H1. pose proof (long_p c l' ws Hle) as H2.
  pose proof (same_mean c l' ws Hle) as H3. pose proof (same_central c l' ws Hle) as H4. rewrite El in *. auto 10.
Qed.

Lemma ybar_longer ys ws : ws <> [] -> l_ybar ys ws = l_ybar (firstn (List.length ws) ys) ws.
Proof.
  intros Hw. unfold l_ybar, mixture_ybar. rewrite <- combine_firstn_r.
  destruct ws as [|w ws]; [congruence|]. destruct ys as [|y ys]; reflexivity.
Qed.
Lemma ybar_shorter ys ws : l_ybar ys ws = l_ybar ys (firstn (List.length ys) ws).
Proof. unfold l_ybar, mixture_ybar. rewrite <- combine_firstn_l. destruct ys; reflexivity. Qed.

Lemma empty_claim s w collapse density : lm_list s = [] -> has_char "_" w = false ->
  l_get_log_p s w collapse density false = Err UnboundLocalError /\ l_get_p s w collapse density false = Err UnboundLocalError.
Proof.
  intros E Hw. unfold l_get_p, l_get_log_p. rewrite Hw. unfold l_marginal, l_mass_wtd. rewrite E. split; reflexivity.
Qed.
Lemma empty_cond s A C density collapse : lm_list s = [] -> nonempty A = true -> nonempty C = true -> disjoint A C = true ->
  l_get_log_p s (cname A C) collapse density false = Err UnboundLocalError /\
  l_get_p s (cname A C) collapse density false = Err UnboundLocalError.
Proof.
  intros E HA HC HD. unfold l_get_p, l_get_log_p. rewrite cname_sep. unfold l_conditional. rewrite cname_sep. cbn [py_assert bind].
  assert (EM : forall w, l_marginal s w false false false = Err UnboundLocalError)
    by (intros w; unfold l_marginal, l_mass_wtd; rewrite E; reflexivity).
  destruct A as [[] [] [] []]; try discriminate HA;
  destruct C as [[] [] [] []]; try discriminate HD; try discriminate HC; cbn [name cname has_t has_v has_x has_z append];
  str_compute; rewrite EM; split; reflexivity.
Qed.

(** ** the list is too short: distributions *)
Lemma parts_nth fs ws q : (q < List.length fs)%nat -> (q < List.length ws)%nat ->
  nth q (combine fs ws) ((fun _ _ _ _ _ => 0), 0) = (df fs q, wt ws q).
Proof.
  unfold df, wt. revert ws q. induction fs as [|f fs IH]; intros [|w ws] [|q] H1 H2; cbn in *; try lia; [reflexivity|].
  apply IH; lia.
Qed.

Lemma firstn_parts (fs : list joint) (ws : list R) :
  firstn (List.length fs) (map Fin ws) = map (fun q => Fin (snd q)) (combine fs ws).
Proof. revert ws. induction fs as [|f fs IH]; intros [|w ws]; cbn; try reflexivity. f_equal. apply IH. Qed.

Lemma edited_eq s g ws cs fs : edited s g ws cs fs ->
  s = LMix (lm_cube s) (map comp_member cs) (List.length (map Fin ws)) (map Fin ws).
Proof.
  intros H. pose proof (ed_list _ _ _ _ _ H) as E1. pose proof (ed_weights _ _ _ _ _ H) as E2. pose proof (ed_n _ _ _ _ _ H) as E3.
  destruct s as [a b c d]. cbn in *. subst. rewrite map_length. reflexivity.
Qed.

Section Shorter.
Context (s : lmix) (g : grid) (ws : list R) (cs : list component) (fs : list joint).
Context (H : edited s g ws cs fs) (Hg : good_grid g) (Hne : cs <> []) (Hlt : (List.length cs < List.length ws)%nat).
Let n := List.length ws.
Let m := List.length cs.
Let l := combine fs ws.
Let tr := Mixture (lm_cube s) (map comp_member cs) (firstn (List.length (map comp_member cs)) (map Fin ws)).

Lemma len_parts : List.length l = m.
Proof. unfold l. rewrite combine_length, <- (ed_len _ _ _ _ _ H). fold m n. unfold m, n in *. lia. Qed.
Lemma tr_on : mix_on tr g cs l.
Proof.
  constructor.
  - apply (ed_cube _ _ _ _ _ H).
  - reflexivity.
  - unfold tr, l. cbn [mx_weights]. rewrite map_length.
    rewrite (ed_len _ _ _ _ _ H). apply firstn_parts.
  - symmetry. apply len_parts.
  - intros E. pose proof len_parts as K. rewrite E in K. cbn in K. destruct cs; [congruence|discriminate K].
  - intros k c q E1 E2. destruct q as [f w].
    assert (Hk : (k < List.length l)%nat) by (apply nth_error_Some; congruence).
    pose proof len_parts as K. assert (Hf : (k < List.length fs)%nat) by (rewrite <- (ed_len _ _ _ _ _ H); unfold m in *; lia).
    assert (Hw : (k < List.length ws)%nat) by (unfold m in *; lia).
    rewrite (nth_error_nth' l ((fun _ _ _ _ _ => 0), 0) Hk) in E2. unfold l in E2.
    rewrite parts_nth in E2 by assumption. injection E2 as <- <-. cbn [fst snd].
    destruct (ed_comp _ _ _ _ _ H k c (df fs k) E1) as [H1 H2].
    { unfold df. apply nth_error_nth'. assumption. }
    split; [assumption|]. split; [assumption|]. apply (ed_pos _ _ _ _ _ H). unfold wt. apply nth_In. assumption.
Qed.
Let HG : mix_gen tr g (fun _ => l) := mix_on_gen _ _ _ _ tr_on Hg.

Lemma self_eq : s = LMix (lm_cube s) (map comp_member cs) (List.length (map Fin ws)) (map Fin ws).
Proof. eapply edited_eq; exact H. Qed.
Lemma Hlt' : (List.length (map comp_member cs) < List.length (map Fin ws))%nat.
Proof. rewrite !map_length. exact Hlt. Qed.

(** weight times mass of what is left, and one for each component that is not *)
Lemma bnd q : (q < m)%nat -> (q < List.length fs)%nat /\ (q < List.length ws)%nat.
Proof. intros Hq. rewrite <- (ed_len _ _ _ _ _ H). unfold m in Hq. lia. Qed.
Definition left_sum (S : vset) (i : bin) : R := Sum m (fun q => wt ws q * marg g (mass g (df fs q)) S i).
Lemma left_marg S i : in_grid g i -> marg g (prob g (mixf l) false) S i = left_sum S i.
Proof.
  intros Hi. rewrite (marg_share g l false S i ltac:(discriminate) Hi), len_parts. unfold left_sum. apply Sum_ext; intros q Hq.
  unfold share. rewrite marg_scal. unfold pw, pf, l.
  rewrite parts_nth by (apply bnd; exact Hq). reflexivity.
Qed.
Let over1 : R := INR (n - m).
Lemma srow_claim S density k i : (k < n)%nat -> srow (map comp_member cs) g (fun _ => l) S density k i =
  if (k <? m)%nat then wt ws k * marg g (mass g (df fs k)) S i / dens g density S i else 1.
Proof.
  intros Hk. unfold srow. rewrite map_length. fold m. destruct (Nat.ltb_spec k m) as [Hkm|Hkm]; [|reflexivity].
  unfold share. rewrite marg_scal. unfold pw, pf, l.
  rewrite parts_nth by (apply bnd; exact Hkm). reflexivity.
Qed.
Lemma ssum_claim S density i : in_grid g i ->
  ssum (map comp_member cs) (map Fin ws) g (fun _ => l) S density i = left_sum S i / dens g density S i + over1.
Proof.
  intros Hi. unfold ssum, excess. rewrite !map_length, left_marg by assumption. reflexivity.
Qed.
Lemma left_nn S i : in_grid g i -> 0 <= left_sum S i.
Proof.
  intros Hi. unfold left_sum. apply Sum_nonneg; intros q Hq.
  assert (Hqf : (q < List.length fs)%nat) by (rewrite <- (ed_len _ _ _ _ _ H); exact Hq).
  destruct (nth_error cs q) as [c|] eqn:Ec; [|apply nth_error_None in Ec; unfold m in *; lia].
  destruct (ed_comp _ _ _ _ _ H q c (df fs q) Ec) as [_ Hn]; [unfold df; apply nth_error_nth'; assumption|].
  apply Rmult_le_pos.
  - left. apply (ed_pos _ _ _ _ _ H). unfold wt. apply nth_In. unfold m in *; lia.
  - apply marg_nonneg; [assumption|]. apply mass_nonneg; assumption.
Qed.
Lemma over1_pos : 1 <= over1.
Proof. unfold over1. change 1 with (INR 1). apply le_INR. unfold m, n. lia. Qed.

Lemma short_p_marg S density : nonempty S = true ->
  (exists a, l_get_p s (name S) true density false = Ok a /\ shp a = dims S g /\
    forall i, in_grid g i -> ent a (coords S i) = Fin (left_sum S i / dens g density S i + over1)) /\
  (exists b, l_get_p s (name S) false density false = Ok b /\ shp b = (n :: dims S g) /\
    forall k i, (k < n)%nat -> in_grid g i -> ent b (k :: coords S i) =
      Fin (if (k <? m)%nat then wt ws k * marg g (mass g (df fs k)) S i / dens g density S i else 1)).
Proof.
  intros HS. rewrite self_eq. unfold l_get_p, l_get_log_p. rewrite name_no_sep. split.
  - destruct (short_marginal _ _ _ g (fun _ => l) HG Hg Hlt' S true density HS) as (a & E & Hs & He). rewrite E. cbn [bind].
    eexists; split; [reflexivity|]. split; [exact Hs|]. intros i Hi. cbn [ent amap].
    rewrite He by (apply coords_inb; assumption). rewrite rd_coords0.
    assert (Hp : in_grid g (proj S i)) by (rewrite <- rd_coords0; apply rd_in_grid; [assumption|apply coords_inb; assumption]).
    rewrite ssum_claim by exact Hp. rewrite <- (left_marg S _ Hp), (marg_agree g _ S _ i (agree_proj S i)), left_marg by assumption.
    replace (dens g density S (proj S i)) with (dens g density S i)
      by (unfold dens; destruct density; [symmetry; apply vol_agree, agree_proj|reflexivity]).
    rewrite nexp_lg; [reflexivity|]. pose proof over1_pos. pose proof (div_pos_le _ _ (left_nn S i Hi) (dens_pos g Hg density S i Hi)). lra.
  - destruct (short_marginal _ _ _ g (fun _ => l) HG Hg Hlt' S false density HS) as (a & E & Hs & He). rewrite E. cbn [bind].
    rewrite map_length in Hs, He. fold n in Hs, He.
    eexists; split; [reflexivity|]. split; [exact Hs|]. intros k i Hk Hi. cbn [ent amap].
    rewrite He by (constructor; [assumption|apply coords_inb; assumption]). cbn [hd tl]. rewrite rd_coords0.
    assert (Hp : in_grid g (proj S i)) by (rewrite <- rd_coords0; apply rd_in_grid; [assumption|apply coords_inb; assumption]).
    rewrite nexp_lg by (eapply srow_nn; eassumption). f_equal.
    rewrite srow_claim by assumption. destruct (k <? m)%nat; [|reflexivity].
    rewrite (marg_agree g _ S _ i (agree_proj S i)). f_equal.
    unfold dens; destruct density; [apply vol_agree, agree_proj|reflexivity].
Qed.

Lemma short_p_cond A C density : nonempty A = true -> nonempty C = true -> disjoint A C = true ->
  exists a, l_get_p s (cname A C) true density false = Ok a /\ shp a = (dims A g ++ dims C g)%list /\
    forall i, in_grid g i -> ent a (coords A i ++ coords C i) =
      Fin ((left_sum (union A C) i + over1) / (left_sum C i + over1) / dens g density A i).
Proof.
  intros HA HC HD. rewrite self_eq. unfold l_get_p, l_get_log_p. rewrite cname_sep.
  destruct (short_conditional _ _ _ g (fun _ => l) HG Hg Hlt' A C density HA HC HD) as (a & E & Ha). rewrite E. cbn [bind].
  destruct (lse0_is a _ _ _ Ha ltac:(rewrite map_length; lia)) as (b & Eb & Hsb & Heb). rewrite Eb. cbn [bind].
  rewrite map_length in Heb. fold n in Heb.
  eexists; split; [reflexivity|]. split; [exact Hsb|]. intros i Hi. cbn [ent amap].
  assert (Hib : inb (coords A i ++ coords C i) (dims A g ++ dims C g)) by (apply inb_app; apply coords_inb; assumption).
  rewrite Heb by exact Hib. cbn [hd tl]. cbv zeta.
  pose proof (rd2_in_grid A C g _ Hg Hib) as Hin.
  pose proof (rd2_coords A C i HD) as Er. set (r := rd2 A C (coords A i ++ coords C i)) in *.
  assert (HU : forall P, marg g P (union A C) r = marg g P (union A C) i) by (intros P; rewrite Er; apply marg_agree, agree_proj).
  assert (HCm : forall P, marg g P C r = marg g P C i).
  { intros P. rewrite Er. apply marg_agree. eapply agree_subset; try apply agree_proj.
    destruct A as [[] [] [] []], C as [[] [] [] []]; reflexivity. }
  assert (HV : dens g density A r = dens g density A i).
  { unfold dens. destruct density; [|reflexivity]. rewrite Er. apply vol_agree. eapply agree_subset; try apply agree_proj.
    destruct A as [[] [] [] []], C as [[] [] [] []]; reflexivity. }
  pose proof (ssum_pos _ _ _ g (fun _ => l) HG Hg Hlt' C false r Hin) as HM.
  pose proof (dens_pos g Hg density A r Hin) as Hd.
  rewrite lse_seq.
  2:{ intros. apply div_pos_le; [|assumption]. apply div_pos_le; [|assumption]. eapply srow_nn; eassumption. }
  unfold Rdiv. rewrite !Sum_scal_r.
  assert (ES : Sum n (fun k => srow (map comp_member cs) g (fun _ => l) (union A C) false k r) = left_sum (union A C) i + over1).
  { replace n with (List.length (map Fin ws)) by apply map_length.
    rewrite (srow_sum _ _ _ g (fun _ => l) HG Hlt' (union A C) false r Hin), ssum_claim by assumption.
    rewrite <- (left_marg _ r Hin), HU, left_marg by assumption. unfold dens. field. }
  assert (EM : ssum (map comp_member cs) (map Fin ws) g (fun _ => l) C false r = left_sum C i + over1).
  { rewrite ssum_claim by assumption. rewrite <- (left_marg _ r Hin), HCm, left_marg by assumption. unfold dens. field. }
  rewrite ES, EM, HV. rewrite nexp_lg; [reflexivity|].
  pose proof over1_pos. pose proof (left_nn (union A C) i Hi). pose proof (left_nn C i Hi). rewrite HV in Hd.
  apply div_pos_le; [|assumption]. apply div_pos_le; lra.
Qed.
End Shorter.

(** ** moments of a mixture whose list has another length *)
Lemma members_stack (F : member -> res (arr num)) (sh : list nat) (ms : list member) : ms <> [] ->
  (forall c, In c ms -> exists a, F c = Ok a /\ shp a = sh) ->
  exists q, (r <- map_res F ms ;; stack r NaN) = Ok q /\ shp q = (List.length ms :: sh) /\
    forall k c a, nth_error ms k = Some c -> F c = Ok a -> forall idx, ent q (k :: idx) = ent a idx.
Proof.
  intros Hn HF. destruct (map_res_ok F sh ms HF) as (r & Er & Hl & Hs & Hk). rewrite Er. cbn [bind].
  destruct (stack_is r NaN sh) as (q & Eq & Hq & Hqe).
  { intros ->. destruct ms; [congruence|discriminate Hl]. }
  { exact Hs. }
  exists q. split; [exact Eq|]. split; [rewrite Hq; congruence|].
  intros k c a E1 E2 idx. apply Hqe. eapply Hk; eassumption.
Qed.
Lemma bshape_last_ne s1 s2 a b : a <> b -> (2 <= a)%nat -> (2 <= b)%nat -> bshape (s1 ++ [a]) (s2 ++ [b]) = None.
Proof.
  intros Hab Ha Hb. unfold bshape. rewrite !rev_unit. cbn [bshape_rev]. unfold bdim.
  destruct (Nat.eqb_spec a b); [congruence|]. destruct (Nat.eqb_spec a 1); [lia|]. destruct (Nat.eqb_spec b 1); [lia|]. reflexivity.
Qed.
Lemma bop_last_ne (x y : arr num) s1 s2 a b : a <> b -> (2 <= a)%nat -> (2 <= b)%nat ->
  shp x = (s1 ++ [a])%list -> shp y = (s2 ++ [b])%list -> bop nmul x y = Err ValueError.
Proof. intros. unfold bop. rewrite H2, H3, bshape_last_ne by assumption. reflexivity. Qed.
Lemma T_shp (x : arr num) a sh : shp x = (a :: sh)%list -> shp (T x) = (rev sh ++ [a])%list.
Proof. intros E. unfold T. cbn [shp]. rewrite E. reflexivity. Qed.

Section Arrays.
Context (g : grid) (n : nat) (mu_i w rw : arr num) (Mu : list nat -> num).
Ltac fin :=
  (eexists; split; [reflexivity|]);
    eapply arr_is_ext; try eassumption; intros idx Hidx; inb_inv; cbn; picks; cbn;
    rewrite map_all_idx1; f_equal; apply map_ext_in; intros kk Hkk; apply in_seq in Hkk; cbn; picks; cbn; reflexivity.
Lemma one_weight_arr W R x :
  arr_is mu_i (n :: xdims g x no_vars) Mu -> arr_is w [1%nat] (fun _ => W) -> arr_is rw [1%nat] (fun _ => R) ->
  exists m, (a <- bop nmul w rw ;; b <- bop nmul a (T mu_i) ;; s <- asum [-1]%Z b ;; Ok (T s)) = Ok m /\
  arr_is m (xdims g x no_vars) (fun idx => nsum (map (fun k => nmul (nmul W R) (Mu (k :: idx))) (seq 0 n))).
Proof.
  intros Hmu Hw Hr. unfold xdims in *.
  destruct x; cbn [dims has_t has_v has_x has_z opt app no_vars] in *; s_bop; s_T; s_bop; s_sum; s_T; fin.
Qed.
Lemma one_member_arr (W : nat -> num) R x :
  arr_is mu_i (1%nat :: xdims g x no_vars) Mu -> arr_is w [n] (fun idx => W (hd 0%nat idx)) -> arr_is rw [n] (fun _ => R) ->
  exists m, (a <- bop nmul w rw ;; b <- bop nmul a (T mu_i) ;; s <- asum [-1]%Z b ;; Ok (T s)) = Ok m /\
  arr_is m (xdims g x no_vars) (fun idx => nsum (map (fun k => nmul (nmul (W k) R) (Mu (0%nat :: idx))) (seq 0 n))).
Proof.
  intros Hmu Hw Hr. unfold xdims in *.
  destruct x; cbn [dims has_t has_v has_x has_z opt app no_vars] in *; s_bop; s_T; s_bop; s_sum; s_T; fin.
Qed.
End Arrays.

Section Fails.
Context (s : lmix) (g : grid) (ws : list R) (cs : list component) (fs : list joint).
Context (H : edited s g ws cs fs) (Hg : good_grid g) (Hne : cs <> []) (Hw0 : ws <> []).
Let n := List.length ws.
Let m := List.length cs.

Lemma nth_comp q c : nth_error cs q = Some c -> (q < m)%nat /\ comp_on c g (df fs q) /\ nonneg g (df fs q).
Proof.
  intros E. assert (Hq : (q < m)%nat) by (apply nth_error_Some; congruence). split; [exact Hq|].
  apply (ed_comp _ _ _ _ _ H q c (df fs q) E). unfold df. apply nth_error_nth'. rewrite <- (ed_len _ _ _ _ _ H). exact Hq.
Qed.
Lemma in_members mb : In mb (lm_list s) -> exists q c, mb = comp_member c /\ nth_error cs q = Some c.
Proof.
  rewrite (ed_list _ _ _ _ _ H). intros Hi. apply in_map_iff in Hi as (c & <- & Hc). apply In_nth_error in Hc as (q & Hq). eauto.
Qed.
Lemma list_ne : lm_list s <> [].
Proof. rewrite (ed_list _ _ _ _ _ H). destruct cs; [congruence|discriminate]. Qed.
Lemma list_len : List.length (lm_list s) = m.
Proof. rewrite (ed_list _ _ _ _ _ H). apply map_length. Qed.
Lemma w_shp : shp (lm_w s) = [n].
Proof. unfold lm_w. rewrite (ed_weights _ _ _ _ _ H). cbn. rewrite map_length. reflexivity. Qed.
Lemma w_ent q : (q < n)%nat -> ent (lm_w s) [q] = Fin (wt ws q).
Proof.
  intros Hq. unfold lm_w. rewrite (ed_weights _ _ _ _ _ H). cbn. unfold wt.
  rewrite (nth_indep _ NaN (Fin 0)) by (rewrite map_length; exact Hq). apply map_nth.
Qed.

(** the probabilities that the reweightings use have the expected shape *)
Lemma p_shape S density : nonempty S = true -> exists a, l_get_p s (name S) true density false = Ok a /\ shp a = dims S g.
Proof.
  intros HS. destruct (le_lt_dec n m) as [Hl|Hl].
  - pose proof (edited_eq _ _ _ _ _ H) as Es.
    set (mix := Mixture (lm_cube s) (firstn (List.length (map Fin ws)) (map comp_member cs)) (map Fin ws)).
    assert (Hm : mix_on mix g (firstn n cs) (combine fs ws)).
    { assert (Hfl : (n <= List.length fs)%nat) by (rewrite <- (ed_len _ _ _ _ _ H); exact Hl).
      constructor.
      - apply (ed_cube _ _ _ _ _ H).
      - unfold mix. cbn [mx_members]. rewrite map_length. fold n. apply firstn_map.
      - unfold mix. cbn [mx_weights]. clear -Hfl. unfold n in Hfl. clear n. revert ws Hfl.
        induction fs as [|f fs' IH]; intros [|w ws'] Hl; cbn in *; try lia; try reflexivity. f_equal. apply IH. lia.
      - rewrite firstn_length, combine_length. fold n. unfold m in Hl. lia.
      - intros E. assert (K : List.length (combine fs ws) = 0%nat) by (rewrite E; reflexivity). rewrite combine_length in K.
        fold n in K. destruct ws; [congruence|cbn in n; unfold n in *; cbn in *; lia].
      - intros k c [f w] E1 E2.
        assert (Hk : (k < n)%nat).
        { assert (k < List.length (combine fs ws))%nat by (apply nth_error_Some; congruence). rewrite combine_length in H0. fold n in H0. lia. }
        assert (Ec : nth_error cs k = Some c).
        { rewrite <- E1. rewrite <- (firstn_skipn n cs) at 1. rewrite nth_error_app1; [reflexivity|]. rewrite firstn_length. unfold m in Hl. lia. }
        rewrite (nth_error_nth' (combine fs ws) ((fun _ _ _ _ _ => 0), 0)) in E2 by (rewrite combine_length; fold n; lia).
        rewrite parts_nth in E2 by (first [exact Hk | eapply Nat.lt_le_trans; [exact Hk | exact Hfl]]). injection E2 as <- <-. cbn [fst snd].
        destruct (nth_comp k c Ec) as (_ & H1 & H2). do 2 (split; [assumption|]).
        apply (ed_pos _ _ _ _ _ H). unfold wt. apply nth_In. exact Hk. }
    destruct (mix_p_marg mix g _ (mix_on_gen _ _ _ _ Hm Hg) Hg S true density false HS ltac:(discriminate)) as (a & E & Hs & _).
    exists a. split; [|exact Hs]. rewrite Es. unfold mix in E. rewrite <- E. apply long_p. rewrite !map_length. exact Hl.
  - destruct (short_p_marg s g ws cs fs H Hg Hne Hl S density HS) as [(a & E & Hs & _) _]. exists a; split; assumption.
Qed.

Lemma reweightings_shape : exists r, l_reweightings s = Ok r /\ shp r = [m].
Proof.
  unfold l_reweightings. set (tz := VSet true false false true).
  destruct (p_shape tz false eq_refl) as (p & Ep & Hps). change (name tz) with "tz"%string in Ep. rewrite Ep. cbn [bind].
  destruct (members_stack (fun mb => mb_get_p mb "tz" false false) (dims tz g) (lm_list s) list_ne) as (q & Eq & Hqs & _).
  { intros mb Hi. destruct (in_members mb Hi) as (k & c & -> & Ec). destruct (nth_comp k c Ec) as (_ & H1 & H2).
    destruct (get_p_marg c g _ H1 Hg H2 tz false false eq_refl ltac:(discriminate)) as (a & Ea & Has & _). exists a; split; assumption. }
  unfold l_per_member. rewrite Eq. cbn [bind]. rewrite list_len in Hqs.
  assert (Hlw : arr_is (light_weights (c_ssps (lm_cube s))) [nt g; nz g] (ent (light_weights (c_ssps (lm_cube s)))))
    by (apply self_is; apply (so_lw_shp _ _ (co_ssps _ _ (ed_cube _ _ _ _ _ H)))).
  pose proof (self_is _ _ Hps) as Hp. pose proof (self_is _ _ Hqs) as Hq.
  cbn [dims tz has_t has_v has_x has_z opt app] in Hp, Hq.
  s_bop. s_sum. s_bop.
  match goal with |- context [asum_all ?b] => pose proof (self_is (asum_all b) [] eq_refl) as Ht end.
  s_bop. eexists; split; [reflexivity|]. match goal with Hr : arr_is ?r _ _ |- shp ?r = _ => exact (proj1 Hr) end.
Qed.

Section One.
Context (lw : bool) (k : coord) (C : vset) (HD : disjoint (cvar k) C = true).
Context (Hlw : forall q, (q < m)%nat -> lw_ok g (df fs q) lw).
Context (Hno : nonempty C = false -> forall q, (q < m)%nat -> total g (prob g (df fs q) lw) = 1).

Lemma means_ok : exists mu, l_per_member s (fun mb => mb_mean mb (dname (cvar k) C) lw) = Ok mu /\ shp mu = (m :: mdims k C g) /\
  forall q c, nth_error cs q = Some c -> forall i, in_grid g i -> 0 < marg g (prob g (df fs q) lw) C i ->
    ent mu (q :: mcoords k C i) = Fin (Mean g (prob g (df fs q) lw) k C i).
Proof.
  unfold l_per_member.
  destruct (members_stack (fun mb => mb_mean mb (dname (cvar k) C) lw) (mdims k C g) (lm_list s) list_ne) as (mu & Eq & Hs & He).
  { intros mb Hi. destruct (in_members mb Hi) as (q & c & -> & Ec). destruct (nth_comp q c Ec) as (Hq & H1 & H2).
    destruct (mean_claim c g _ lw H1 Hg H2 (Hlw q Hq) k C HD) as (a & Ea & Has & _); [intros HC; apply Hno; assumption|].
    exists a; split; assumption. }
  exists mu. split; [exact Eq|]. rewrite list_len in Hs. split; [exact Hs|]. intros q c Ec i Hi Hp.
  destruct (nth_comp q c Ec) as (Hq & H1 & H2).
  destruct (mean_claim c g _ lw H1 Hg H2 (Hlw q Hq) k C HD) as (a & Ea & Has & Hae); [intros HC; apply Hno; assumption|].
  rewrite (He q (comp_member c) a) by (try exact Ea; rewrite (ed_list _ _ _ _ _ H), nth_error_map, Ec; reflexivity).
  apply (Hae i Hi). exact Hp.
Qed.

Lemma fails_claim j : (2 <= n)%nat -> (2 <= m)%nat -> n <> m ->
  l_mean s (dname (cvar k) C) lw = Err ValueError /\ l_central_moment s (dname (cvar k) C) j lw = Err ValueError.
Proof.
  intros Hn2 Hm2 Hnm.
  assert (E : l_mean s (dname (cvar k) C) lw = Err ValueError); [|split; [exact E|unfold l_central_moment; rewrite E; reflexivity]].
  unfold l_mean. destruct means_ok as (mu & Emu & Hmu & _). rewrite Emu. cbn [bind].
  assert (Hrw : exists r, (if lw then l_reweightings s else Ok (full [lm_n s] (Fin 1))) = Ok r /\ shp r = [if lw then m else n]).
  { destruct lw; [apply reweightings_shape|]. eexists; split; [reflexivity|]. cbn. rewrite (ed_n _ _ _ _ _ H). reflexivity. }
  destruct Hrw as (rw & Erw & Hrw). rewrite Erw. cbn [bind]. rewrite dname_sep by assumption.
  pose proof w_shp as Hw.
  destruct (nonempty C) eqn:EC; cbn [negb].
  - rewrite part1_dname by assumption. cbn [bind].
    destruct (members_stack (fun mb => mb_get_p mb (name C) true lw) (dims C g) (lm_list s) list_ne) as (wp & Ewp & Hwps & _).
    { intros mb Hi. destruct (in_members mb Hi) as (q & c & -> & Ec). destruct (nth_comp q c Ec) as (Hq & H1 & H2).
      destruct (get_p_marg c g _ H1 Hg H2 C true lw EC (Hlw q Hq)) as (a & Ea & Has & _). exists a; split; assumption. }
    unfold l_per_member. rewrite Ewp. cbn [bind]. rewrite list_len in Hwps.
    rewrite (bop_last_ne (T wp) (lm_w s) (rev (dims C g)) [] m n); [reflexivity|congruence|assumption|assumption|apply T_shp; exact Hwps|exact Hw].
  - destruct lw.
    + rewrite (bop_last_ne (lm_w s) rw [] [] n m); [reflexivity|assumption|assumption|assumption|exact Hw|exact Hrw].
    + destruct (bop nmul (lm_w s) rw) as [a|] eqn:Ea.
      * cbn [bind]. rewrite (bop_last_ne a (T mu) [] (rev (mdims k C g)) n m); [reflexivity|assumption|assumption|assumption| |apply T_shp; exact Hmu].
        unfold bop in Ea. rewrite Hw, Hrw, bshape_same in Ea. injection Ea as <-. reflexivity.
      * unfold bop in Ea. rewrite Hw, Hrw, bshape_same in Ea. discriminate Ea.
Qed.
End One.

(** one weight, or one component: broadcast *)
Section Single.
Context (k : coord) (Hno : forall q, (q < m)%nat -> total g (prob g (df fs q) false) = 1).
Let C0 := no_vars.
Lemma no_d : disjoint (cvar k) C0 = true.
Proof. destruct k; reflexivity. Qed.
Lemma mu_pos q i : (q < m)%nat -> 0 < marg g (prob g (df fs q) false) C0 i.
Proof. intros Hq. unfold C0. rewrite marg_none, Hno by exact Hq. lra. Qed.

Lemma mcoords_xdims : mdims k no_vars g = xdims g (is_x k) no_vars.
Proof. destruct k; reflexivity. Qed.

Lemma one_weight_claim : n = 1%nat ->
  exists r, l_mean s (name (cvar k)) false = Ok r /\ shp r = mdims k no_vars g /\
    forall i, in_grid g i -> ent r (mcoords k no_vars i) =
      Fin (wt ws 0 * Sum m (fun q => Mean g (prob g (df fs q) false) k no_vars i)).
Proof.
  intros Hn1. unfold l_mean.
  destruct (means_ok false k C0 no_d ltac:(intros; discriminate) (fun _ => Hno)) as (mu & Emu & Hmu & Hme).
  assert (Ed : dname (cvar k) C0 = name (cvar k)) by (destruct k; reflexivity).
  rewrite Ed in Emu. rewrite Emu. cbn [bind]. rewrite name_no_sep. cbn [negb].
  assert (Hw : arr_is (lm_w s) [1%nat] (fun _ => Fin (wt ws 0))).
  { split; [rewrite w_shp, Hn1; reflexivity|]. intros idx Hi; inb_inv. ones. apply w_ent. lia. }
  assert (Hrw : arr_is (full [lm_n s] (Fin 1)) [1%nat] (fun _ => Fin 1)).
  { rewrite (ed_n _ _ _ _ _ H). fold n. rewrite Hn1. apply full_is. }
  unfold C0 in *. rewrite mcoords_xdims in Hmu.
  destruct (one_weight_arr g m mu _ _ (ent mu) (Fin (wt ws 0)) (Fin 1) (is_x k) (self_is _ _ Hmu) Hw Hrw) as (r & Er & Hrs & Hre).
  exists r. split; [exact Er|]. rewrite mcoords_xdims. split; [exact Hrs|]. intros i Hi.
  rewrite Hre by (rewrite <- mcoords_xdims; apply mcoords_inb; assumption).
  rewrite (nsum_map_Fin _ (fun q => wt ws 0 * Mean g (prob g (df fs q) false) k no_vars i)).
  - f_equal. rewrite sumR_map_seq. apply Sum_scal.
  - intros q Hq. apply in_seq in Hq. destruct (nth_error cs q) as [c|] eqn:Ec; [|apply nth_error_None in Ec; unfold m in *; lia].
    rewrite (Hme q c Ec i Hi) by (apply mu_pos; lia). rewrite !nmul_Fin. f_equal. ring.
Qed.
Lemma one_member_claim : m = 1%nat ->
  exists r, l_mean s (name (cvar k)) false = Ok r /\ shp r = mdims k no_vars g /\
    forall i, in_grid g i -> ent r (mcoords k no_vars i) =
      Fin (sumR ws * Mean g (prob g (df fs 0) false) k no_vars i).
Proof.
  intros Hm1. unfold l_mean.
  destruct (means_ok false k C0 no_d ltac:(intros; discriminate) (fun _ => Hno)) as (mu & Emu & Hmu & Hme).
  assert (Ed : dname (cvar k) C0 = name (cvar k)) by (destruct k; reflexivity).
  rewrite Ed in Emu. rewrite Emu. cbn [bind]. rewrite name_no_sep. cbn [negb].
  assert (Hw : arr_is (lm_w s) [n] (fun idx => Fin (wt ws (hd 0%nat idx)))).
  { split; [apply w_shp|]. intros idx Hi; inb_inv. apply w_ent. assumption. }
  assert (Hrw : arr_is (full [lm_n s] (Fin 1)) [n] (fun _ => Fin 1)).
  { rewrite (ed_n _ _ _ _ _ H). fold n. apply full_is. }
  unfold C0 in *. rewrite mcoords_xdims, Hm1 in Hmu.
  destruct (one_member_arr g n mu _ _ (ent mu) (fun q => Fin (wt ws q)) (Fin 1) (is_x k) (self_is _ _ Hmu) Hw Hrw) as (r & Er & Hrs & Hre).
  exists r. split; [exact Er|]. rewrite mcoords_xdims. split; [exact Hrs|]. intros i Hi.
  rewrite Hre by (rewrite <- mcoords_xdims; apply mcoords_inb; assumption).
  destruct (nth_error cs 0) as [c|] eqn:Ec; [|apply nth_error_None in Ec; unfold m in *; lia].
  rewrite (Hme 0%nat c Ec i Hi) by (apply mu_pos; lia).
  rewrite (nsum_map_Fin _ (fun q => wt ws q * Mean g (prob g (df fs 0) false) k no_vars i)).
  - f_equal. rewrite sumR_map_seq, Sum_scal_r. f_equal. unfold wt, n. rewrite <- (sumR_Sum (fun x => x)), map_id. reflexivity.
  - intros q Hq. rewrite !nmul_Fin. f_equal. ring.
Qed.
End Single.
End Fails.
