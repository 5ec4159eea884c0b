(** * Properties: mixtures whose list of components has changed (C97). *)
From Coq Require Import Reals Lra Lia List Bool Arith ZArith String Ascii.
From Verif Require Import Num NumLemmas Arr PyStr Cube Base Spec SpecLemmas Repr Build Moments MomSpec MomRefuted Mixture MixSpec Datacube
  MixList MixListSpec MixListLemmas MixListClaims MixListExample.
Import ListNotations.
Local Open Scope R_scope.

(** C97: a list changed in place without changing its length gives what the
    mixture of the new members gives. *)
Theorem C97_same_length : forall c l ws s l', lmix_init c l ws = Ok s -> List.length l' = List.length l ->
  exists m, mixture_init c l' ws = Ok m /\
    forall w lw,
      (forall collapse density, l_get_log_p (edit_list s l') w collapse density lw = mix_get_log_p m w collapse density lw /\
        l_get_p (edit_list s l') w collapse density lw = mix_get_p m w collapse density lw) /\
      l_mean (edit_list s l') w lw = mix_mean m w lw /\
      forall j, l_central_moment (edit_list s l') w j lw = mix_central_moment m w j lw.
Proof. exact same_claim. Qed.
Print Assumptions C97_same_length.

Example C97_same_length_case :
  exists m, mixture_init (cube_of exg) [comp_member lcB; comp_member lcA] [Fin (1 / 4); Fin (3 / 4)] = Ok m /\
    l_mean (edit_list lmade [comp_member lcB; comp_member lcA]) "t" false = mix_mean m "t" false.
Proof.
  destruct (C97_same_length (cube_of exg) [comp_member lcA; comp_member lcB] [Fin (1 / 4); Fin (3 / 4)] lmade [comp_member lcB; comp_member lcA] lmade_init (len2 _ _ _ _)) as (m & E & Hm).
  exists m. split; [exact E|]. destruct (Hm "t"%string false) as (_ & H2 & _). exact H2.
Qed.

(** C97: of a list that has become longer, the distributions only use as many
    members as there are weights. *)
Theorem C97_longer : forall c l ws s l', lmix_init c l ws = Ok s -> (List.length l <= List.length l')%nat ->
  exists m, mixture_init c (firstn (List.length l) l') ws = Ok m /\
    forall w collapse density lw,
      l_get_log_p (edit_list s l') w collapse density lw = mix_get_log_p m w collapse density lw /\
      l_get_p (edit_list s l') w collapse density lw = mix_get_p m w collapse density lw.
Proof. exact longer_claim. Qed.
Print Assumptions C97_longer.

Example C97_longer_case :
  exists m, mixture_init (cube_of exg) [comp_member lcA; comp_member lcB] [Fin (1 / 4); Fin (3 / 4)] = Ok m /\
    l_get_p llong "tz_x" true true true = mix_get_p m "tz_x" true true true.
Proof.
  destruct (C97_longer (cube_of exg) [comp_member lcA; comp_member lcB] [Fin (1 / 4); Fin (3 / 4)] lmade [comp_member lcA; comp_member lcB; comp_member lcA] lmade_init ltac:(cbn [List.length]; lia)) as (m & E & Hm).
  exists m. split; [exact E|]. apply Hm.
Qed.

(** C97: so does the datacube, and with a list that has become shorter it
    leaves the missing components out. *)
Theorem C97_datacube : forall (ybars : list (option (arr num))) ws, ws <> [] ->
  l_ybar ybars ws = l_ybar (firstn (List.length ws) ybars) ws /\
  l_ybar ybars ws = l_ybar ybars (firstn (List.length ybars) ws).
Proof. intros ybars ws Hw. split; [exact (ybar_longer ybars ws Hw)|exact (ybar_shorter ybars ws)]. Qed.
Print Assumptions C97_datacube.

Example C97_datacube_case :
  exists y, l_ybar [Some (arr1 [Fin 8] NaN)] [Fin (1 / 4); Fin (3 / 4)] = Ok y /\ ent y [0%nat] = Fin 2.
Proof. eexists. split; [reflexivity|]. transitivity (nadd (Fin 0) (nmul (Fin (1 / 4)) (Fin 8))); [reflexivity|]. rewrite nmul_Fin. unfold nadd. apply f_equal. field. Qed.

(** C97: mass-weighted marginals of a list that has become shorter.  Each
    missing component adds one to every bin, to a probability as to a density. *)
Theorem C97_shorter : forall s g ws cs fs, edited s g ws cs fs -> good_grid g -> cs <> [] ->
  (List.length cs < List.length ws)%nat -> forall (S : vset) (density : bool), nonempty S = true ->
  let width (i : bin) := if density then vol g S i else 1 in
  (exists a, l_get_p s (name S) true density false = Ok a /\ shp a = dims S g /\
    forall i, in_grid g i -> ent a (coords S i) =
      Fin (Sum (List.length cs) (fun q => wt ws q * marg g (mass g (df fs q)) S i) / width i
           + INR (List.length ws - List.length cs))) /\
  (exists b, l_get_p s (name S) false density false = Ok b /\ shp b = (List.length ws :: dims S g) /\
    forall k i, (k < List.length ws)%nat -> in_grid g i -> ent b (k :: coords S i) =
      Fin (if (k <? List.length cs)%nat then wt ws k * marg g (mass g (df fs k)) S i / width i else 1)).
Proof. exact short_p_marg. Qed.
Print Assumptions C97_shorter.

(** where they should be 1/3 and 2/3 *)
Example C97_shorter_case :
  exists a, l_get_p lshort "t" true false false = Ok a /\
    ent a [0%nat] = Fin (1 / 12 + 1) /\ ent a [1%nat] = Fin (1 / 6 + 1).
Proof.
  destruct (C97_shorter lshort exg _ _ _ lshort_ed exg_good ltac:(discriminate) ltac:(cbn [List.length]; lia) (VSet true false false false) false eq_refl)
    as [(a & E & _ & He) _]. exists a. split; [exact E|].
  split; [etransitivity; [exact (He (Bin 0 0 0 0 0) li0)|]|etransitivity; [exact (He (Bin 1 0 0 0 0) li1)|]];
  f_equal; cbn [List.length Sum]; l_num.
Qed.

(** C97: conditional distributions of a list that has become shorter. *)
Theorem C97_shorter_conditional : forall s g ws cs fs, edited s g ws cs fs -> good_grid g -> cs <> [] ->
  (List.length cs < List.length ws)%nat -> forall A C (density : bool),
  nonempty A = true -> nonempty C = true -> disjoint A C = true ->
  let left (S : vset) (i : bin) := Sum (List.length cs) (fun q => wt ws q * marg g (mass g (df fs q)) S i) in
  let missing := INR (List.length ws - List.length cs) in
  exists a, l_get_p s (cname A C) true density false = Ok a /\ shp a = (dims A g ++ dims C g)%list /\
    forall i, in_grid g i -> ent a (coords A i ++ coords C i) =
      Fin ((left (union A C) i + missing) / (left C i + missing) / (if density then vol g A i else 1)).
Proof. exact short_p_cond. Qed.
Print Assumptions C97_shorter_conditional.

Example C97_shorter_conditional_case :
  exists a, l_get_p lshort "t_z" true false false = Ok a /\
    ent a [0%nat; 0%nat] = Fin ((1 / 36 + 1) / (1 / 12 + 1)) /\ ent a [1%nat; 0%nat] = Fin ((1 / 18 + 1) / (1 / 12 + 1)).
Proof.
  destruct (C97_shorter_conditional lshort exg _ _ _ lshort_ed exg_good ltac:(discriminate) ltac:(cbn [List.length]; lia)
    (VSet true false false false) (VSet false false false true) false eq_refl eq_refl eq_refl)
    as (a & E & _ & He). exists a. split; [exact E|].
  split; [etransitivity; [exact (He (Bin 0 0 0 0 0) li0)|]|etransitivity; [exact (He (Bin 1 0 0 0 0) li1)|]];
  f_equal; cbn [List.length Sum]; l_num.
Qed.

(** C97: with two or more weights and two or more components, but not as many,
    means and central moments raise. *)
Theorem C97_moments_fail : forall s g ws cs fs, edited s g ws cs fs -> good_grid g -> cs <> [] -> ws <> [] ->
  forall lw k C, disjoint (cvar k) C = true ->
  (forall q, (q < List.length cs)%nat -> lw_ok g (df fs q) lw) ->
  (nonempty C = false -> forall q, (q < List.length cs)%nat -> total g (prob g (df fs q) lw) = 1) ->
  forall j, (2 <= List.length ws)%nat -> (2 <= List.length cs)%nat -> List.length ws <> List.length cs ->
  l_mean s (dname (cvar k) C) lw = Err ValueError /\ l_central_moment s (dname (cvar k) C) j lw = Err ValueError.
Proof. exact fails_claim. Qed.
Print Assumptions C97_moments_fail.

Example C97_moments_fail_case :
  l_mean llong "v_tx" true = Err ValueError /\ l_central_moment llong "v_tx" 2 true = Err ValueError /\
  l_mean llong "t" false = Err ValueError.
Proof.
  assert (K : forall lw q, (q < 3)%nat -> lw_ok exg (df [lfA; lfB; lfA] q) lw).
  { intros lw [|[|[|q]]] Hq; try lia; intros _; l_num. }
  destruct (C97_moments_fail llong exg _ _ _ llong_ed exg_good ltac:(discriminate) ltac:(discriminate) true Cv (VSet true false true false)
    eq_refl (K true) ltac:(discriminate) 2%nat ltac:(cbn [List.length]; lia) ltac:(cbn [List.length]; lia) ltac:(cbn [List.length]; lia)) as [E1 E2].
  destruct (C97_moments_fail llong exg _ _ _ llong_ed exg_good ltac:(discriminate) ltac:(discriminate) false Ct no_vars
    eq_refl (K false)) with (j := 2%nat) as [E3 _]; try (cbn [List.length]; lia).
  - intros _ [|[|[|q]]] Hq; [exact lA_one|exact lB_one|exact lA_one|cbn [List.length] in Hq; lia].
  - split; [exact E1|]. split; [exact E2|exact E3].
Qed.

(** C97: with one weight, the mean is the sum of the means of all components in
    the list times that weight. *)
Theorem C97_one_weight : forall s g ws cs fs, edited s g ws cs fs -> good_grid g -> cs <> [] ->
  forall k, (forall q, (q < List.length cs)%nat -> total g (prob g (df fs q) false) = 1) ->
  List.length ws = 1%nat ->
  exists r, l_mean s (name (cvar k)) false = Ok r /\ shp r = mdims k no_vars g /\
    forall i, in_grid g i -> ent r (mcoords k no_vars i) =
      Fin (wt ws 0 * Sum (List.length cs) (fun q => Mean g (prob g (df fs q) false) k no_vars i)).
Proof. exact one_weight_claim. Qed.
Print Assumptions C97_one_weight.

(** mean ages 1/2 and 3/2 *)
Example C97_one_weight_case : exists r, l_mean lpair "t" false = Ok r /\ ent r [] = Fin 2.
Proof.
  destruct (C97_one_weight lpair exg _ _ _ lpair_ed exg_good ltac:(discriminate) Ct) as (r & E & _ & He).
  - intros [|[|q]] Hq; [exact lA_one|exact lB_one|cbn [List.length] in Hq; lia].
  - reflexivity.
  - exists r. split; [exact E|]. etransitivity; [exact (He (Bin 0 0 0 0 0) li0)|]. f_equal.
    cbn [List.length Sum]. unfold df, wt; cbn [nth]. unfold lfA, lfB. mom_num; field.
Qed.

(** C97: with one component left, the mean is its mean times the sum of the
    weights. *)
Theorem C97_one_member : forall s g ws cs fs, edited s g ws cs fs -> good_grid g -> cs <> [] ->
  forall k, (forall q, (q < List.length cs)%nat -> total g (prob g (df fs q) false) = 1) ->
  List.length cs = 1%nat ->
  exists r, l_mean s (name (cvar k)) false = Ok r /\ shp r = mdims k no_vars g /\
    forall i, in_grid g i -> ent r (mcoords k no_vars i) =
      Fin (sumR ws * Mean g (prob g (df fs 0) false) k no_vars i).
Proof. exact one_member_claim. Qed.
Print Assumptions C97_one_member.

Example C97_one_member_case : exists r, l_mean lshort "t" false = Ok r /\ ent r [] = Fin (3 / 2).
Proof.
  destruct (C97_one_member lshort exg _ _ _ lshort_ed exg_good ltac:(discriminate) Ct) as (r & E & _ & He).
  - intros [|q] Hq; [exact lB_one|cbn [List.length] in Hq; lia].
  - reflexivity.
  - exists r. split; [exact E|]. etransitivity; [exact (He (Bin 0 0 0 0 0) li0)|]. f_equal.
    unfold sumR. cbn [fold_right]. unfold df; cbn [nth]. unfold lfB. mom_num; field.
Qed.

(** C97: an emptied list. *)
Theorem C97_empty : forall s, lm_list s = [] ->
  (forall w collapse density, has_char "_" w = false ->
    l_get_log_p s w collapse density false = Err UnboundLocalError /\
    l_get_p s w collapse density false = Err UnboundLocalError) /\
  (forall A C density collapse, nonempty A = true -> nonempty C = true -> disjoint A C = true ->
    l_get_log_p s (cname A C) collapse density false = Err UnboundLocalError /\
    l_get_p s (cname A C) collapse density false = Err UnboundLocalError) /\
  forall ws, l_ybar [] ws = Err IndexError.
Proof.
  intros s E. split; [intros; apply empty_claim; assumption|]. split; [intros; apply empty_cond; assumption|reflexivity].
Qed.
Print Assumptions C97_empty.

Example C97_empty_case : l_get_p (edit_list lmade []) "t_x" true true false = Err UnboundLocalError.
Proof. apply (proj1 (proj2 (C97_empty (edit_list lmade []) eq_refl)) (VSet true false false false) (VSet false false true false)); reflexivity. Qed.
