(** * Claims C55-C59: mixtures. *)
From Coq Require Import Reals Lra Lia List Bool Arith ZArith String Ascii.
From Verif Require Import Num NumLemmas Arr PyStr StrLemmas Cube Base Spec SpecLemmas Repr Build DistLemmas StringClaims
  Moments MomSpec MomRefuted Mixture MixSpec MixLemmas MixCond MixMom MixClaims MixExample.
Import ListNotations.
Local Open Scope R_scope.
Local Open Scope string_scope.

Definition vsx : vset := VSet false false true false.
Definition vst : vset := VSet true false false false.
Definition vsv : vset := VSet false true false false.
Definition vstx : vset := VSet true false true false.

(** ** C55 *)
(** construction succeeds for as many weights as members, all finite and
    positive with sum one within tolerance, and raises AssertionError otherwise *)
Theorem C55_weights_accepted : forall c ms ws,
  List.length ms = List.length ws ->
  (exists rs, ws = map Fin rs /\ (forall r, In r rs -> 0 < r) /\ Rabs (sumR rs - 1) <= 1 / 100000000 + 1 / 100000) ->
  mixture_init c ms ws = Ok (Mixture c ms ws).
Proof. exact init_ok_claim. Qed.
Print Assumptions C55_weights_accepted.
Theorem C55_weights_rejected : forall c ms ws,
  ~ (List.length ms = List.length ws /\
     exists rs, ws = map Fin rs /\ (forall r, In r rs -> 0 < r) /\ Rabs (sumR rs - 1) <= 1 / 100000000 + 1 / 100000) ->
  mixture_init c ms ws = Err AssertionError.
Proof. exact init_err_claim. Qed.
Print Assumptions C55_weights_rejected.
Example C55_accepted_case : mixture_init (cube_of exg) [comp_member exc; comp_member exc1] [Fin (1 / 4); Fin (3 / 4)] = Ok exm.
Proof.
  apply C55_weights_accepted; [reflexivity|]. exists [1 / 4; 3 / 4]. split; [reflexivity|]. split.
  - intros r [<-|[<-|[]]]; lra.
  - unfold sumR; cbn. rewrite Rabs_pos_eq; lra.
Qed.
Example C55_rejected_case : mixture_init (cube_of exg) [comp_member exc; comp_member exc1] [Fin (1 / 2); Fin (1 / 4)] = Err AssertionError.
Proof.
  apply C55_weights_rejected. intros (_ & rs & E & _ & Hs).
  destruct rs as [|a [|b [|? ?]]]; try discriminate E. injection E as <- <-. unfold sumR in Hs; cbn in Hs.
  unfold Rabs in Hs. destruct (Rcase_abs _) in Hs; lra.
Qed.
Example C55_rejected_nan : forall ms, mixture_init (cube_of exg) ms [NaN] = Err AssertionError.
Proof. intros ms. apply C55_weights_rejected. intros (_ & rs & E & _). destruct rs as [|a [|? ?]]; discriminate E. Qed.

(** ** C56 *)
(** marginals equal those of the plain component with the weighted sum density *)
Theorem C56_marginals : forall self g comps l, mix_on self g comps l -> good_grid g ->
  forall plain S density lw, comp_on plain g (mixf l) -> nonempty S = true -> lw_ok g (mixf l) lw ->
  exists a b, mix_get_p self (name S) true density lw = Ok a /\ get_p plain (name S) density lw = Ok b /\
    shp a = dims S g /\ shp b = dims S g /\
    forall i, in_grid g i -> ent a (coords S i) = ent b (coords S i) /\ ent a (coords S i) <> NaN.
Proof. exact marg_as_plain. Qed.
Print Assumptions C56_marginals.
(** so do conditionals, nan exactly where the mixture has no mass *)
Theorem C56_conditionals : forall self g comps l, mix_on self g comps l -> good_grid g ->
  forall plain A C density lw, comp_on plain g (mixf l) ->
  nonempty A = true -> nonempty C = true -> disjoint A C = true -> lw_ok g (mixf l) lw ->
  exists a b, mix_get_p self (cname A C) true density lw = Ok a /\ get_p plain (cname A C) density lw = Ok b /\
    shp a = (dims A g ++ dims C g)%list /\ shp b = (dims A g ++ dims C g)%list /\
    forall i, in_grid g i -> ent a (coords A i ++ coords C i) = ent b (coords A i ++ coords C i) /\
      (ent a (coords A i ++ coords C i) = NaN <-> marg g (prob g (mixf l) lw) C i = 0).
Proof. exact cond_as_plain. Qed.
Print Assumptions C56_conditionals.
(** collapse_cmps=False gives the share of each member; the shares sum to the
    collapsed result *)
Theorem C56_marginal_shares : forall self g comps l, mix_on self g comps l -> good_grid g ->
  forall S density lw, nonempty S = true -> lw_ok g (mixf l) lw ->
  exists a b, mix_get_p self (name S) true density lw = Ok a /\ mix_get_p self (name S) false density lw = Ok b /\
    shp a = dims S g /\ shp b = (List.length l :: dims S g)%list /\
    forall i, in_grid g i ->
      (forall k, (k < List.length l)%nat -> ent b (k :: coords S i) =
         Fin (marg g (share g l lw k) S i / (if density then vol g S i else 1))) /\
      nsum (map (fun k => ent b (k :: coords S i)) (seq 0 (List.length l))) = ent a (coords S i).
Proof. exact marg_split. Qed.
Print Assumptions C56_marginal_shares.
Theorem C56_conditional_shares : forall self g comps l, mix_on self g comps l -> good_grid g ->
  forall A C density lw, nonempty A = true -> nonempty C = true -> disjoint A C = true -> lw_ok g (mixf l) lw ->
  exists a b, mix_get_p self (cname A C) true density lw = Ok a /\ mix_get_p self (cname A C) false density lw = Ok b /\
    shp a = (dims A g ++ dims C g)%list /\ shp b = (List.length l :: dims A g ++ dims C g)%list /\
    forall i, in_grid g i ->
      (0 < marg g (prob g (mixf l) lw) C i ->
       forall k, (k < List.length l)%nat -> ent b (k :: coords A i ++ coords C i) =
         Fin (marg g (share g l lw k) (union A C) i / marg g (prob g (mixf l) lw) C i / (if density then vol g A i else 1))) /\
      nsum (map (fun k => ent b (k :: coords A i ++ coords C i)) (seq 0 (List.length l))) = ent a (coords A i ++ coords C i).
Proof. exact cond_split. Qed.
Print Assumptions C56_conditional_shares.
Example C56_case : exists a b, mix_get_p exm "t" true false false = Ok a /\
  mix_get_p exm "t" false false false = Ok b /\ ent b [0; 1]%nat = Fin 6 /\ ent b [1; 1]%nat = Fin 36 /\
  ent a [1]%nat = Fin 42.
Proof.
  destruct (C56_marginal_shares exm exg _ expts exm_on exg_good vst false false eq_refl (exm_lw _))
    as (a & b & Ea & Eb & _ & _ & Hab).
  exists a, b. split; [exact Ea|]. split; [exact Eb|].
  destruct (Hab (Bin 1 0 0 0 0)) as [Hb Hs]; [unfold in_grid; cbn; lia|]. cbn [vst coords has_t has_v has_x has_z opt app bt] in *.
  assert (H0 : ent b [0; 1]%nat = Fin 6) by (etransitivity; [apply Hb; cbn; lia|]; f_equal; unfold share; mix_num; ex_num; field).
  assert (H1 : ent b [1; 1]%nat = Fin 36) by (etransitivity; [apply Hb; cbn; lia|]; f_equal; unfold share; mix_num; ex_num; field).
  split; [exact H0|]. split; [exact H1|]. etransitivity; [symmetry; exact Hs|]. cbn [seq map List.length expts]. rewrite H0, H1. unfold nsum; cbn [fold_right nadd]. cbv [nadd]; f_equal; lra.
Qed.
Example C56_plain_case : exists a b, mix_get_p exm "v_x" true true true = Ok a /\
  get_p (comp_of exg (mixf expts)) "v_x" true true = Ok b /\ ent a [1; 0; 0]%nat = ent b [1; 0; 0]%nat.
Proof.
  destruct (C56_conditionals exm exg _ expts exm_on exg_good (comp_of exg (mixf expts)) vsv vsx true true)
    as (a & b & Ea & Eb & _ & _ & Hab); try reflexivity; try apply exm_lw.
  { apply comp_of_on; [apply exg_uniform_x|apply exg_uniform_y]. }
  exists a, b. split; [exact Ea|]. split; [exact Eb|]. apply (Hab (Bin 0 1 0 0 0)). unfold in_grid; cbn; lia.
Qed.

(** ** C57 *)
Theorem C57_mean : forall self g comps l lw k C, mix_on self g comps l -> good_grid g ->
  (forall k, (k < List.length l)%nat -> lw_ok g (pf l k) lw) -> disjoint (cvar k) C = true ->
  (nonempty C = false -> lw = false ->
     sumR (map snd l) = 1 /\ forall k, (k < List.length l)%nat -> total g (mass g (pf l k)) = 1) ->
  exists m, mix_mean self (dname (cvar k) C) lw = Ok m /\ shp m = mdims k C g /\
    forall i, in_grid g i ->
      ((forall q, (q < List.length l)%nat -> 0 < marg g (prob g (pf l q) lw) C i) ->
        ent m (mcoords k C i) = Fin (Mean g (prob g (mixf l) lw) k C i)) /\
      ((exists q, (q < List.length l)%nat /\ marg g (prob g (pf l q) lw) C i = 0) -> ent m (mcoords k C i) = NaN).
Proof. exact mix_mean_claim. Qed.
Print Assumptions C57_mean.
Theorem C57_central_moments : forall self g comps l lw k C j, mix_on self g comps l -> good_grid g ->
  (forall k, (k < List.length l)%nat -> lw_ok g (pf l k) lw) -> disjoint (cvar k) C = true ->
  (nonempty C = false -> lw = false ->
     sumR (map snd l) = 1 /\ forall k, (k < List.length l)%nat -> total g (mass g (pf l k)) = 1) ->
  exists m, mix_central_moment self (dname (cvar k) C) j lw = Ok m /\ shp m = mdims k C g /\
    forall i, in_grid g i ->
      ((forall q, (q < List.length l)%nat -> 0 < marg g (prob g (pf l q) lw) C i) ->
        ent m (mcoords k C i) = Fin (Moment g (prob g (mixf l) lw) k C j (Mean g (prob g (mixf l) lw) k C i) i)) /\
      ((exists q, (q < List.length l)%nat /\ marg g (prob g (pf l q) lw) C i = 0) -> ent m (mcoords k C i) = NaN).
Proof. exact central_claim. Qed.
Print Assumptions C57_central_moments.
Example C57_case : exists m, mix_mean exm "v_t" false = Ok m /\ ent m [0]%nat = Fin (1 / 18).
Proof.
  destruct (C57_mean exm exg _ expts false Cv vst exm_on exg_good (exm_members _) eq_refl ltac:(discriminate)) as (m & E & _ & He).
  exists m. split; [exact E|]. destruct (He (Bin 0 0 0 0 0)) as [He' _]; [unfold in_grid; cbn; lia|].
  etransitivity; [apply He'|].
  - intros [|[|q]] Hq; [| |cbn in Hq; lia]; unfold vst; mix_num; ex_num.
  - f_equal. unfold vst. mix_num. mom_num; field.
Qed.
(** the first member has no mass in a bin where the mixture has: nan *)
Theorem C57_empty_member_refuted : exists self g comps l, mix_on self g comps l /\ good_grid g /\
  (forall k, (k < List.length l)%nat -> lw_ok g (pf l k) false) /\
  exists i, in_grid g i /\ 0 < marg g (prob g (mixf l) false) vstx i /\
  forall plain, comp_on plain g (mixf l) ->
  exists m m', mix_mean self "v_tx" false = Ok m /\ ent m (coords vstx i) = NaN /\
    get_mean (base_obj plain) "v_tx" false = Ok m' /\ ent m' (coords vstx i) = Fin 0.
Proof. exact empty_member_claim. Qed.
Print Assumptions C57_empty_member_refuted.

(** ** C58 *)
(** a mixture among the members: every query with at most one separator raises
    AttributeError *)
Theorem C58_nested_refuted : forall g c pre inner post ws self, good_grid g -> cube_on c g ->
  (forall k, In k pre -> exists f, comp_on k g f /\ nonneg g f) ->
  mixture_init c (map comp_member pre ++ mixture_member inner :: post) ws = Ok self ->
  forall w collapse density lw, (List.length (split "_" w) <= 2)%nat ->
  mix_get_p self w collapse density lw = Err AttributeError.
Proof. exact (fun g c pre inner post ws self Hg Hc Hpre Hself => nested_claim g Hg c Hc pre inner post ws self Hpre Hself). Qed.
Print Assumptions C58_nested_refuted.
(** although the inner mixture itself answers *)
Example C58_case : exists self a, mixture_init (cube_of exg) [comp_member exc1; mixture_member exm] [Fin (1 / 2); Fin (1 / 2)] = Ok self /\
  mix_get_p self "v_x" true false false = Err AttributeError /\ mix_get_p exm "v_x" true false false = Ok a.
Proof.
  assert (E : mixture_init (cube_of exg) [comp_member exc1; mixture_member exm] [Fin (1 / 2); Fin (1 / 2)] =
    Ok (Mixture (cube_of exg) [comp_member exc1; mixture_member exm] [Fin (1 / 2); Fin (1 / 2)])).
  { apply C55_weights_accepted; [reflexivity|]. exists [1 / 2; 1 / 2]. split; [reflexivity|]. split.
    - intros r [<-|[<-|[]]]; lra.
    - unfold sumR; cbn. rewrite Rabs_pos_eq; lra. }
  destruct (C56_conditionals exm exg _ expts exm_on exg_good (comp_of exg (mixf expts)) vsv vsx false false)
    as (a & b & Ea & _); try reflexivity; try apply exm_lw.
  { apply comp_of_on; [apply exg_uniform_x|apply exg_uniform_y]. }
  eexists _, a. split; [exact E|]. split; [|exact Ea].
  eapply (C58_nested_refuted exg (cube_of exg) [exc1] exm []); [exact exg_good|apply cube_of_on; [apply exg_uniform_x|apply exg_uniform_y]| |exact E|cbn; lia].
  intros k [<-|[]]. exists exf1. split; [exact exc1_on|exact exf1_nonneg].
Qed.

(** ** C59 *)
(** whatever the string, the answer is the table of the variables whose letter
    occurs in it, in the order t, v, x, z *)
Theorem C59_light_any_string_refuted : forall self g comps l, mix_on self g comps l -> good_grid g ->
  forall w, has_char "_" w = false -> lw_ok g (mixf l) true ->
  exists a, mix_get_p self w true false true = Ok a /\ shp a = dims (letters w) g /\
    forall i, in_grid g i -> ent a (coords (letters w) i) = Fin (marg g (prob g (mixf l) true) (letters w) i).
Proof. exact light_any_claim. Qed.
Print Assumptions C59_light_any_string_refuted.
(** two strings with the same letters of t, v, x, z get the same answer *)
Theorem C59_light_order_ignored_refuted : forall self w w' collapse,
  has_char "_" w = false -> has_char "_" w' = false -> letters w = letters w' ->
  mix_get_p self w collapse false true = mix_get_p self w' collapse false true.
Proof. exact light_same_claim. Qed.
Print Assumptions C59_light_order_ignored_refuted.
(** mass weighted, every string that is not one of the fifteen names raises *)
Theorem C59_mass_raises : forall self g comps l, mix_on self g comps l ->
  forall w collapse density, has_char "_" w = false -> (forall S, nonempty S = true -> w <> name S) ->
  mix_get_p self w collapse density false = Err AttributeError.
Proof. exact mass_raises_claim. Qed.
Print Assumptions C59_mass_raises.
Example C59_case : mix_get_p exm "zt" true false true = mix_get_p exm "tz" true false true /\
  (exists a, mix_get_p exm "zt" true false true = Ok a /\ shp a = [nt exg; nz exg]) /\
  (exists a, mix_get_p exm "quartz" true false true = Ok a /\ shp a = [nt exg; nz exg]) /\
  mix_get_p exm "zt" true false false = Err AttributeError /\ get_p exc "zt" false true = Err AttributeError.
Proof.
  split; [apply C59_light_order_ignored_refuted; reflexivity|].
  split; [|split; [|split]].
  - destruct (C59_light_any_string_refuted exm exg _ expts exm_on exg_good "zt" eq_refl (exm_lw _)) as (a & E & Hs & _). eauto.
  - destruct (C59_light_any_string_refuted exm exg _ expts exm_on exg_good "quartz" eq_refl (exm_lw _)) as (a & E & Hs & _). eauto.
  - eapply C59_mass_raises; [exact exm_on|reflexivity|]. intros [[] [] [] []] H; try discriminate H; discriminate.
  - apply marginal_strings; [reflexivity|]. intros [[] [] [] []] H; try discriminate H; discriminate.
Qed.
