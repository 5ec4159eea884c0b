(** * MixClaims: claims C55 and C57-C59 on mixtures. *)
From Coq Require Import Reals Lra Lia List Bool Arith ZArith String Ascii Permutation.
From Verif Require Import Num NumLemmas Arr ArrLemmas PyStr StrLemmas Cube Base Spec SpecLemmas Repr CubeLemmas
  BaseLemmas CondLemmas DistLemmas Build StringClaims Moments MomSpec Mixture MixSpec MixGen MixLemmas MixCond MixMom.
Import ListNotations.
Local Open Scope R_scope.
Local Open Scope string_scope.

(** ** C55 *)
(** a list of positive weights with sum one within the tolerance of np.isclose *)
Definition weights_ok (ws : list num) : Prop :=
  exists rs, ws = map Fin rs /\ (forall r, In r rs -> 0 < r) /\ Rabs (sumR rs - 1) <= 1 / 100000000 + 1 / 100000.

Lemma nsum_finite_or ws : forallb (fun w => nlt (Fin 0) w) ws = true ->
  (exists rs, ws = map Fin rs) \/ (nsum ws = PInf).
Proof.
  induction ws as [|w ws IH]; cbn [forallb]; intros H; [left; exists []; reflexivity|].
  apply andb_true_iff in H as [H1 H2]. destruct (IH H2) as [(rs & E)|E].
  - destruct w as [r| | |]; cbn in H1; try discriminate H1.
    + left; exists (r :: rs). cbn; rewrite E; reflexivity.
    + right. change (nadd PInf (nsum ws) = PInf). rewrite E, nsum_Fin. reflexivity.
  - right. change (nadd w (nsum ws) = PInf). rewrite E. destruct w; cbn in H1; try discriminate H1; reflexivity.
Qed.

Lemma init_ok_claim c ms ws : List.length ms = List.length ws -> weights_ok ws ->
  mixture_init c ms ws = Ok (Mixture c ms ws).
Proof.
  intros Hl (rs & -> & Hp & Hs). unfold mixture_init, py_assert.
  rewrite (proj2 (Nat.eqb_eq _ _) Hl). cbn [bind].
  assert (E : forallb (fun w => nlt (Fin 0) w) (map Fin rs) = true).
  { apply forallb_forall. intros w Hw. apply in_map_iff in Hw as (r & <- & Hr). cbn. apply Rltb_true, Hp, Hr. }
  rewrite E. cbn [bind].
  rewrite nsum_Fin. unfold isclose1. rewrite (proj2 (Rleb_true _ _) Hs). reflexivity.
Qed.

Lemma init_err_claim c ms ws : ~ (List.length ms = List.length ws /\ weights_ok ws) ->
  mixture_init c ms ws = Err AssertionError.
Proof.
  intros H. unfold mixture_init, py_assert.
  destruct (Nat.eqb (List.length ms) (List.length ws)) eqn:El; [|reflexivity]. cbn [bind].
  destruct (forallb _ ws) eqn:Ef; [|reflexivity]. cbn [bind].
  destruct (isclose1 (nsum ws)) eqn:Ei; [|reflexivity]. exfalso. apply H.
  apply Nat.eqb_eq in El. split; [exact El|].
  destruct (nsum_finite_or ws Ef) as [(rs & E)|E].
  - exists rs. split; [exact E|]. subst ws. rewrite nsum_Fin in Ei. unfold isclose1 in Ei.
    apply Rleb_true in Ei. split; [|exact Ei]. intros r Hr.
    rewrite forallb_forall in Ef. specialize (Ef (Fin r) (in_map Fin _ _ Hr)). apply Rltb_true, Ef.
  - rewrite E in Ei. discriminate Ei.
Qed.

(** ** C58 *)
Section Nested.
Context (g : grid) (Hg : good_grid g).
Context (c : cube) (Hc : cube_on c g).
Context (pre : list component) (inner : mixture) (post : list member) (ws : list num) (self : mixture).
Context (Hpre : forall k, In k pre -> exists f, comp_on k g f /\ nonneg g f).
Context (Hself : mixture_init c (map comp_member pre ++ mixture_member inner :: post) ws = Ok self).

Lemma nested_parts : mx_cube self = c /\ mx_members self = (map comp_member pre ++ mixture_member inner :: post)%list /\
  exists wpre w wpost, mx_weights self = (wpre ++ w :: wpost)%list /\ List.length wpre = List.length pre.
Proof.
  unfold mixture_init, py_assert in Hself.
  destruct (Nat.eqb (List.length (map comp_member pre ++ mixture_member inner :: post)) (List.length ws)) eqn:El;
    [|discriminate Hself]. cbn [bind] in Hself.
  destruct (forallb _ ws); [|discriminate Hself]. cbn [bind] in Hself.
  destruct (isclose1 _); [|discriminate Hself]. cbn [bind] in Hself. injection Hself as <-.
  split; [reflexivity|]. split; [reflexivity|]. cbn [mx_weights].
  apply Nat.eqb_eq in El. rewrite app_length, map_length in El. cbn in El.
  exists (firstn (List.length pre) ws). pose proof (firstn_skipn (List.length pre) ws) as E.
  destruct (skipn (List.length pre) ws) as [|w wpost] eqn:Es.
  - apply (f_equal (@List.length num)) in Es. rewrite skipn_length in Es. cbn in Es. lia.
  - exists w, wpost. split; [symmetry; exact E|]. rewrite firstn_length. lia.
Qed.

Lemma row_fail w density mw : weighted_log_p w density (mixture_member inner, mw) = Err AttributeError.
Proof.
  unfold weighted_log_p, getattr_log_p, mixture_member. cbn [fst mb_table].
  unfold mixture_table. cbn [map lookup].
  repeat (match goal with |- context [String.eqb ?a ?b] => destruct (String.eqb a b) end; [reflexivity|]).
  reflexivity.
Qed.

Lemma row_known k S density mw : In k pre -> nonempty S = true ->
  exists a, weighted_log_p (name S) density (comp_member k, mw) = Ok a /\ shp a = dims S g.
Proof.
  intros Hk HS. destruct (Hpre k Hk) as (f & Hf & Hn).
  destruct (marginal_ok k g f Hf Hg Hn S density false HS ltac:(discriminate)) as (a & E & Ha).
  unfold weighted_log_p. unfold get_log_marginal in E. cbn [fst snd mb_table comp_member].
  destruct (getattr_log_p (base_table k) (name S)) as [m|]; [|discriminate]. cbn [bind] in *. rewrite E. cbn [bind].
  eexists; split; [reflexivity|]. cbn. apply (proj1 Ha).
Qed.
Lemma row_unknown k w density mw : (forall S, nonempty S = true -> w <> name S) ->
  weighted_log_p w density (comp_member k, mw) = Err AttributeError.
Proof.
  intros HS. unfold weighted_log_p, getattr_log_p. cbn [fst mb_table comp_member].
  destruct (base_table k w) eqn:E; [|reflexivity].
  apply base_keys in E as (S & H1 & H2). exfalso; eapply HS; eauto.
Qed.

Lemma rows_fail S density : nonempty S = true -> forall cs wpre w rest, (forall k, In k cs -> In k pre) ->
  List.length wpre = List.length cs ->
  rows (name S) density (dims S g) (combine (map comp_member cs) wpre ++ (mixture_member inner, w) :: rest) = Err AttributeError.
Proof.
  intros HS. induction cs as [|k cs IH]; intros [|q wpre] w rest Hin Hl; try discriminate Hl.
  - cbn [map combine app rows]. rewrite row_fail. reflexivity.
  - cbn [map combine app rows].
    destruct (row_known k S density q (Hin k (or_introl eq_refl)) HS) as (a & E & Ea). rewrite E. cbn [bind].
    destruct (broadcast_to_is a (dims S g) (ent a) (dims S g)) as (b & Eb & _).
    + split; [exact Ea|reflexivity].
    + apply bshape_same.
    + rewrite Eb. cbn [bind]. rewrite IH; [reflexivity| |]; [intros k' Hk'; apply Hin; right; exact Hk'|].
      cbn in Hl; lia.
Qed.

Lemma known_or w : (exists S, nonempty S = true /\ w = name S) \/ (forall S, nonempty S = true -> w <> name S).
Proof.
  destruct (in_dec string_dec w (map name (filter nonempty
    (flat_map (fun a => flat_map (fun b => flat_map (fun d => [VSet a b d true; VSet a b d false]) [true; false])
       [true; false]) [true; false])))) as [H|H].
  - left. apply in_map_iff in H as (S & <- & H). apply filter_In in H as [_ H]. exists S; auto.
  - right. intros S HS E. apply H. apply in_map_iff. exists S. split; [symmetry; exact E|].
    apply filter_In. split; [|exact HS]. destruct S as [[] [] [] []]; cbn; auto 20.
Qed.

Lemma nested_mass w density : mix_mass_wtd self w density = Err AttributeError.
Proof.
  destruct nested_parts as (_ & Em & wpre & w0 & wpost & Ew & Hl). unfold mix_mass_wtd. rewrite Em, Ew.
  assert (Ecom : combine (map comp_member pre ++ mixture_member inner :: post) (wpre ++ w0 :: wpost) =
    (combine (map comp_member pre) wpre ++ (mixture_member inner, w0) :: combine post wpost)%list).
  { clear -Hl. revert wpre Hl. induction pre as [|k r IH]; intros [|q s] Hl; try discriminate Hl; [reflexivity|].
    cbn. f_equal. apply IH. cbn in Hl; lia. }
  rewrite Ecom.
  destruct (known_or w) as [(S & HS & ->)|HS].
  - pose proof (rows_fail S density HS pre wpre w0 (combine post wpost) (fun _ h => h) Hl) as Hr.
    destruct (combine (map comp_member pre) wpre ++ (mixture_member inner, w0) :: combine post wpost)%list as [|mw rest] eqn:E.
    { destruct (combine (map comp_member pre) wpre); discriminate E. }
    assert (Hmw : (exists k, In k pre /\ fst mw = comp_member k) \/ fst mw = mixture_member inner).
    { clear -E Hl. destruct pre as [|k r], wpre as [|q s]; try discriminate Hl; cbn in E; injection E as <- <-;
      [right; reflexivity|left; exists k; split; [left|]; reflexivity]. }
    destruct mw as [m q]. cbn [fst] in Hmw. destruct Hmw as [(k & Hk & ->)| ->].
    + destruct (row_known k S density q Hk HS) as (a & Ea & Hs). rewrite Ea. cbn [bind]. rewrite Hs, Hr. reflexivity.
    + rewrite row_fail. reflexivity.
  - destruct pre as [|k r], wpre as [|q s]; try discriminate Hl; cbn [map combine app].
    + rewrite row_fail. reflexivity.
    + rewrite (row_unknown k) by exact HS. reflexivity.
Qed.

Lemma nested_light w density : mix_light_wtd self w density = Err AttributeError.
Proof.
  destruct nested_parts as (Ec & _). unfold mix_light_wtd. rewrite Ec.
  assert (Hlw : arr_is (light_weights (c_ssps c)) [nt g; nz g]
   (fun idx => Fin (Lw g (hd 0%nat idx) (hd 0%nat (tl idx))))).
  { pose proof (co_ssps _ _ Hc) as Hs. split; [apply (so_lw_shp _ _ Hs)|].
    intros idx Hi; inb_inv. cbn. apply (so_lw _ _ Hs); assumption. }
  cbv zeta. rewrite nested_mass. destruct (has_char "v" w); s_get; reflexivity.
Qed.

Lemma nested_marginal w collapse density lw : mix_marginal self w collapse density lw = Err AttributeError.
Proof. unfold mix_marginal. destruct lw; [rewrite nested_light|rewrite nested_mass]; reflexivity. Qed.

Lemma nested_claim w collapse density lw : (List.length (split "_" w) <= 2)%nat ->
  mix_get_p self w collapse density lw = Err AttributeError.
Proof.
  intros Hw. unfold mix_get_p, mix_get_log_p. destruct (has_char "_" w) eqn:E.
  - unfold mix_conditional, py_assert. rewrite E. cbn [bind].
    assert (H2 : exists d m, split "_" w = [d; m]).
    { unfold split in *. clear -E Hw. unfold has_char in E. revert E Hw. generalize (chars w) as l.
      generalize (@nil ascii) as cur. intros cur l. revert cur.
      induction l as [|a l IH]; intros cur E Hw; [discriminate E|]. cbn [existsb split_aux] in *.
      rewrite (Ascii.eqb_sym a "_") in *. destruct (Ascii.eqb "_" a) eqn:Ea; cbn [orb] in E |- *.
      - pose proof (split_aux_length "_" [] l) as H1. cbn in Hw.
        destruct (split_aux "_" [] l) as [|m [|m' r]] eqn:Es; cbn in *; try lia. eauto.
      - apply IH; assumption. }
    destruct H2 as (d & m & ->). rewrite nested_marginal. reflexivity.
  - rewrite nested_marginal. reflexivity.
Qed.
End Nested.

(** ** C59 *)
(** the variables whose letter occurs in a string *)
Definition letters (w : string) : vset :=
  VSet (has_char "t" w) (has_char "v" w) (has_char "x" w) (has_char "z" w).

Lemma light_letters self w : mix_light_wtd self w false = mix_light_wtd self (name (letters w)) false.
Proof.
  rewrite !light_split, has_v_name. unfold light_sums. rewrite has_t_name, has_x_name, has_z_name. reflexivity.
Qed.

Section Letters.
Context (self : mixture) (g : grid) (comps : list component) (l : parts).
Context (H : mix_on self g comps l) (Hg : good_grid g).
Let HG := mix_on_gen self g comps l H Hg.

Lemma light_any_claim w : has_char "_" w = false -> lw_ok g (mixf l) true ->
  exists a, mix_get_p self w true false true = Ok a /\ shp a = dims (letters w) g /\
    forall i, in_grid g i -> ent a (coords (letters w) i) = Fin (marg g (prob g (mixf l) true) (letters w) i).
Proof.
  intros Hw Hl. unfold mix_get_p, mix_get_log_p. rewrite Hw. unfold mix_marginal. rewrite light_letters.
  set (S := letters w). rewrite light_split, has_v_name.
  destruct (light_table self g (fun _ => l) HG Hg S Hl) as (a & Ea & Ha). cbv zeta in Ea |- *. rewrite Ea. cbn [bind]. clear Ea.
  destruct (light_sums_ok self g (fun _ => l) HG Hg S a (share g l true)) as (b & Eb & Hb).
  { intros k. exact (share_nonneg self g (fun _ => l) HG Hg true true k Hl). }
  { exact Ha. }
  rewrite Eb. cbn [bind].
  destruct (stacked_collapse self g (fun _ => l) HG Hg b S true false Hl) as (r & Er & Hr).
  { unfold stacked, stk in *. eapply arr_is_ext; [exact Hb|]. intros; cbn. f_equal. field. }
  rewrite Er. cbn [bind]. eexists; split; [reflexivity|]. cbn [amap shp ent]. split; [apply (proj1 Hr)|].
  intros i Hi. destruct Hr as [_ He]. rewrite He by (apply coords_inb; assumption).
  rewrite rd_coords0. cbn [dens]. rewrite (marg_agree g _ S _ i (agree_proj S i)).
  rewrite nexp_lg; [f_equal; unfold dens; field|].
  apply div_pos_le; [|unfold dens; lra]. apply marg_nonneg; [assumption|].
  apply prob_nonneg; [assumption|exact (mixf_nonneg self g (fun _ => l) HG true)|assumption].
Qed.

Lemma light_same_claim w w' collapse : has_char "_" w = false -> has_char "_" w' = false -> letters w = letters w' ->
  mix_get_p self w collapse false true = mix_get_p self w' collapse false true.
Proof.
  intros H1 H2 E. unfold mix_get_p, mix_get_log_p. rewrite H1, H2. unfold mix_marginal.
  rewrite (light_letters self w), (light_letters self w'), E. reflexivity.
Qed.

Lemma mass_raises_claim w collapse density : has_char "_" w = false ->
  (forall S, nonempty S = true -> w <> name S) -> mix_get_p self w collapse density false = Err AttributeError.
Proof.
  intros Hw HS. unfold mix_get_p, mix_get_log_p. rewrite Hw. unfold mix_marginal, mix_mass_wtd.
  rewrite (mo_members _ _ _ _ H), (mo_weights _ _ _ _ H). clear HG. pose proof (mo_len _ _ _ _ H) as Hn. pose proof (mo_ne _ _ _ _ H) as He.
  destruct l as [|q r]; [congruence|]. destruct comps as [|k r']; [discriminate Hn|].
  cbn [map combine]. rewrite (row_unknown k) by exact HS. reflexivity.
Qed.
End Letters.
