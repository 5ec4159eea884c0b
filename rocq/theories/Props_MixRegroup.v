(** * Claim C87: order, repeated members and single members of mixtures.

    [regroup] (Regroup.v): the same members with weights, in another order and
    with repeated members taken together. *)
From Coq Require Import Reals Lra Lia List Bool Arith ZArith String Ascii Permutation.
From Verif Require Import Num NumLemmas Arr PyStr Cube Base Parametric Spec SpecLemmas Repr ParSpec ParRepr MomSpec Moments ParSetSpec
  ParMoments GaussSpec ParMomSpec ParMomOther ParMomExample Build ParExample Mixture MixParSpec MixParLemmas MixParClaims MixParExample
  Datacube DatacubeClaims Regroup MixRegroup.
Import ListNotations.
Local Open Scope R_scope.
Local Open Scope string_scope.

(** ** distributions *)
Theorem C87_marginals : forall self self' g l l', mixed_on self g l -> mixed_on self' g l' -> good_grid g -> regroup l l' ->
  forall S (density lw : bool), nonempty S = true -> lit_ok g (kmix g l (has_v S)) lw ->
  exists a b, mix_get_p self (name S) true density lw = Ok a /\ mix_get_p self' (name S) true density lw = Ok b /\
    shp a = dims S g /\ shp b = dims S g /\ forall i, in_grid g i -> ent a (coords S i) = ent b (coords S i) /\ ent a (coords S i) <> NaN.
Proof. exact regroup_marg_claim. Qed.
Print Assumptions C87_marginals.
Theorem C87_conditionals : forall self self' g l l', mixed_on self g l -> mixed_on self' g l' -> good_grid g -> regroup l l' ->
  forall A C (density lw : bool), nonempty A = true -> nonempty C = true -> disjoint A C = true ->
  lit_ok g (kmix g l (has_v (union A C))) lw -> lit_ok g (kmix g l (has_v C)) lw ->
  exists a b, mix_get_p self (cname A C) true density lw = Ok a /\ mix_get_p self' (cname A C) true density lw = Ok b /\
    shp a = (dims A g ++ dims C g)%list /\ shp b = (dims A g ++ dims C g)%list /\
    forall i, in_grid g i -> ent a (coords A i ++ coords C i) = ent b (coords A i ++ coords C i) /\
      (ent a (coords A i ++ coords C i) = NaN <-> marg g (weighted g lw (kmix g l (has_v C))) C i = 0).
Proof. exact regroup_cond_claim. Qed.
Print Assumptions C87_conditionals.

(** ** moments *)
Theorem C87_means : forall self self' g l l', mixed_on self g l -> mixed_on self' g l' -> good_grid g -> regroup l l' ->
  forall lw C, (forall q, (q < List.length l)%nat -> lit_ok g (kmass g (kk l q) (has_v C)) lw) ->
  (lw = true -> has_v C = false) -> (nonempty C = false -> lw = false -> k_normal g l) ->
  forall k, disjoint (cvar k) C = true -> k <> Cv ->
  (forall q m, (q < List.length l)%nat -> kk l q = KPar m -> no_holes g m lw (cvar k) C) ->
  exists a b, mix_mean self (dname (cvar k) C) lw = Ok a /\ mix_mean self' (dname (cvar k) C) lw = Ok b /\
  shp a = mdims k C g /\ shp b = mdims k C g /\ forall i, in_grid g i -> ent a (mcoords k C i) = ent b (mcoords k C i) /\
    (ent a (mcoords k C i) = NaN <-> some_missing g l lw C i).
Proof. exact regroup_mean_claim. Qed.
Print Assumptions C87_means.
Theorem C87_central_moments : forall self self' g l l', mixed_on self g l -> mixed_on self' g l' -> good_grid g -> regroup l l' ->
  forall lw C, (forall q, (q < List.length l)%nat -> lit_ok g (kmass g (kk l q) (has_v C)) lw) ->
  (lw = true -> has_v C = false) -> (nonempty C = false -> lw = false -> k_normal g l) ->
  forall k, disjoint (cvar k) C = true -> k <> Cv ->
  (forall q m, (q < List.length l)%nat -> kk l q = KPar m -> no_holes g m lw (cvar k) C) ->
  forall j, exists a b, mix_central_moment self (dname (cvar k) C) j lw = Ok a /\ mix_central_moment self' (dname (cvar k) C) j lw = Ok b /\
  shp a = mdims k C g /\ shp b = mdims k C g /\ forall i, in_grid g i -> ent a (mcoords k C i) = ent b (mcoords k C i) /\
    (ent a (mcoords k C i) = NaN <-> some_missing g l lw C i).
Proof. exact regroup_central_claim. Qed.
Print Assumptions C87_central_moments.
Theorem C87_velocity_means : forall self self' g l l', mixed_on self g l -> mixed_on self' g l' -> good_grid g -> regroup l l' ->
  forall lw C, (forall q, (q < List.length l)%nat -> lit_ok g (kmass g (kk l q) (has_v C)) lw) ->
  (nonempty C = false -> lw = false -> k_normal g l) -> has_v C = false ->
  exists a b, mix_mean self (dname V_v C) lw = Ok a /\ mix_mean self' (dname V_v C) lw = Ok b /\
  shp a = dims C g /\ shp b = dims C g /\ forall i, in_grid g i -> all_there g l lw C i ->
    ent a (coords C i) = ent b (coords C i) /\ ent a (coords C i) <> NaN.
Proof. exact regroup_v_mean_claim. Qed.
Print Assumptions C87_velocity_means.
(** also given t, x and z, where parametric members look up the centre at the
    first metallicity (C52): there has to be mass there as well *)
Theorem C87_velocity_moments : forall self self' g l l', mixed_on self g l -> mixed_on self' g l' -> good_grid g -> regroup l l' ->
  forall lw C, (forall q, (q < List.length l)%nat -> lit_ok g (kmass g (kk l q) (has_v C)) lw) ->
  (nonempty C = false -> lw = false -> k_normal g l) -> has_v C = false ->
  forall j, exists a b, mix_central_moment self (dname V_v C) j lw = Ok a /\
  mix_central_moment self' (dname V_v C) j lw = Ok b /\
  shp a = dims C g /\ shp b = dims C g /\ forall i, in_grid g i -> all_there g l lw C i ->
    (forall q, (q < List.length l)%nat -> all_there g l lw C (centre_at (kk l q) C i)) ->
    ent a (coords C i) = ent b (coords C i) /\ ent a (coords C i) <> NaN.
Proof. exact regroup_v_central_claim. Qed.
Print Assumptions C87_velocity_moments.

(** ** datacubes *)
Theorem C87_datacube : forall n nx ny (l l' : list (arr num * R)), l <> [] -> regroup l l' ->
  (forall a, In a (map fst l) -> exists D, is_cube a n nx ny D) ->
  exists y y', mixture_ybar (map (fun m => Some (fst m)) l) (map (fun m => Fin (snd m)) l) = Ok y /\
    mixture_ybar (map (fun m => Some (fst m)) l') (map (fun m => Fin (snd m)) l') = Ok y' /\
    shp y = [n; nx; ny] /\ shp y' = [n; nx; ny] /\
    forall w i j, (w < n)%nat -> (i < nx)%nat -> (j < ny)%nat -> ent y [w; i; j] = ent y' [w; i; j] /\ exists r, ent y [w; i; j] = Fin r.
Proof. exact regroup_ybar_claim. Qed.
Print Assumptions C87_datacube.

(** ** one member *)
Theorem C87_single_distributions : forall c g f, comp_on c g f -> good_grid g -> nonneg g f ->
  (forall S (density lw : bool), nonempty S = true -> lw_ok g f lw ->
    exists a b, mix_get_p (Mixture (comp_cube c) [comp_member c] [Fin 1]) (name S) true density lw = Ok a /\
      get_p c (name S) density lw = Ok b /\ shp a = dims S g /\ shp b = dims S g /\
      forall i, in_grid g i -> ent a (coords S i) = ent b (coords S i)) /\
  (forall A C (density lw : bool), nonempty A = true -> nonempty C = true -> disjoint A C = true -> lw_ok g f lw ->
    exists a b, mix_get_p (Mixture (comp_cube c) [comp_member c] [Fin 1]) (cname A C) true density lw = Ok a /\
      get_p c (cname A C) density lw = Ok b /\ shp a = (dims A g ++ dims C g)%list /\ shp b = (dims A g ++ dims C g)%list /\
      forall i, in_grid g i -> ent a (coords A i ++ coords C i) = ent b (coords A i ++ coords C i)).
Proof. exact (fun c g f H Hg Hf => conj (single_marg c g f H Hg Hf) (single_cond c g f H Hg Hf)). Qed.
Print Assumptions C87_single_distributions.
Theorem C87_single_moments : forall c g f, comp_on c g f -> good_grid g -> nonneg g f ->
  forall k C lw, lw_ok g f lw -> disjoint (cvar k) C = true -> (nonempty C = false -> lw = false -> total g (mass g f) = 1) ->
  (exists a b, mix_mean (Mixture (comp_cube c) [comp_member c] [Fin 1]) (dname (cvar k) C) lw = Ok a /\
    get_mean (base_obj c) (dname (cvar k) C) lw = Ok b /\ shp a = mdims k C g /\ shp b = mdims k C g /\
    forall i, in_grid g i -> ent a (mcoords k C i) = ent b (mcoords k C i)) /\
  (forall j, exists a b, mix_central_moment (Mixture (comp_cube c) [comp_member c] [Fin 1]) (dname (cvar k) C) j lw = Ok a /\
    get_central_moment (base_obj c) (dname (cvar k) C) j lw = Ok b /\ shp a = mdims k C g /\ shp b = mdims k C g /\
    forall i, in_grid g i -> ent a (mcoords k C i) = ent b (mcoords k C i)).
Proof.
  exact (fun c g f H Hg Hf k C lw Hl HD HT => conj (single_mean c g f H Hg Hf k C lw Hl HD HT)
    (fun j => single_central c g f H Hg Hf k C lw j Hl HD HT)).
Qed.
Print Assumptions C87_single_moments.
Theorem C87_single_datacube : forall a n nx ny D, is_cube a n nx ny D ->
  exists y, mixture_ybar [Some a] [Fin 1] = Ok y /\ shp y = shp a /\
    forall w i j, (w < n)%nat -> (i < nx)%nat -> (j < ny)%nat -> ent y [w; i; j] = ent a [w; i; j].
Proof. exact single_ybar. Qed.
Print Assumptions C87_single_datacube.

(** ** a case: the mixture of C56 with its parametric member in two pieces, in
    another order *)
Definition exl3 : kinds := [(KPar exmod, 1 / 2); (KBase exf, 1 / 4); (KPar exmod, 1 / 4)].
Definition exm3 : mixture := Mixture (cube_of exg) [par_member exL (Fin 1) exmp; comp_member exc; par_member exL (Fin 1) exmp]
  [Fin (1 / 2); Fin (1 / 4); Fin (1 / 4)].
Lemma exm3_on : mixed_on exm3 exg exl3.
Proof.
  constructor; try reflexivity; [apply cube_of_on; [apply exg_uniform_x|apply exg_uniform_y]|discriminate| |].
  - intros [|[|[|q]]] Hq; [cbn; lra|cbn; lra|cbn; lra|cbn in Hq; lia].
  - intros [|[|[|q]]] mb E; cbn in E; [| | |destruct q; discriminate E]; injection E as <-.
    + exists exL, exmp. split; [reflexivity|]. split; [apply exmp_on|apply exmod_good].
    + exists exc. split; [reflexivity|]. split; [apply exc_on|apply exf_nonneg].
    + exists exL, exmp. split; [reflexivity|]. split; [apply exmp_on|apply exmod_good].
Qed.
Lemma ex_regroup : regroup exl2 exl3.
Proof.
  apply (rg_trans _ [(KPar exmod, 3 / 4); (KBase exf, 1 / 4)]); [apply rg_order; apply perm_swap|].
  apply (rg_trans _ [(KPar exmod, 1 / 2); (KPar exmod, 1 / 4); (KBase exf, 1 / 4)]).
  - apply rg_sym. replace (3 / 4) with (1 / 2 + 1 / 4) by lra. apply rg_merge.
  - apply rg_order. apply perm_skip. apply perm_swap.
Qed.
Example C87_case :
  (exists a b, mix_get_p exm2 "t_x" true true true = Ok a /\ mix_get_p exm3 "t_x" true true true = Ok b /\
    ent a [1; 1; 0]%nat = ent b [1; 1; 0]%nat) /\
  (exists a b, mix_central_moment exm2 "v_t" 3 false = Ok a /\ mix_central_moment exm3 "v_t" 3 false = Ok b /\
    ent a [0]%nat = ent b [0]%nat /\ ent a [0]%nat <> NaN).
Proof.
  assert (HL : forall lw q, (q < List.length exl2)%nat -> lit_ok exg (kmass exg (kk exl2 q) false) lw) by (intros; apply exl2_lit; assumption).
  assert (HM : lit_ok exg (kmix exg exl2 false) true).
  { intros _. unfold kmix. cbn [exl2 List.length].
    pose proof (exl2_lit true 0 ltac:(lia) eq_refl) as P0. pose proof (exl2_lit true 1 ltac:(lia) eq_refl) as P1.
    assert (E : total exg (lit exg (kmix exg exl2 false)) =
      1 / 4 * total exg (lit exg (kmass exg (kk exl2 0) false)) + 3 / 4 * total exg (lit exg (kmass exg (kk exl2 1) false))).
    { rewrite <- !total_scal. unfold total, over, exg, lit, kmix. cbn [nt nv nx ny nz exl2 List.length Sum kw kk nth fst snd]. ring. }
    change (0 < total exg (lit exg (kmix exg exl2 false))). rewrite E. lra. }
  split.
  - destruct (C87_conditionals exm2 exm3 exg exl2 exl3 exm2_on exm3_on exg_good ex_regroup (VSet true false false false) (VSet false false true false)
      true true eq_refl eq_refl eq_refl HM HM) as (a & b & Ea & Eb & _ & _ & He).
    exists a, b. do 2 (split; [assumption|]). destruct (He (Bin 1 0 1 0 0) ltac:(repeat split; cbn; lia)) as [K _]. exact K.
  - destruct (C87_velocity_moments exm2 exm3 exg exl2 exl3 exm2_on exm3_on exg_good ex_regroup false (VSet true false false false) (HL false)
      ltac:(discriminate) eq_refl 3%nat) as (a & b & Ea & Eb & _ & _ & He).
    exists a, b. do 2 (split; [assumption|]). apply (He (Bin 0 0 0 0 0)); [repeat split; cbn; lia| |intros p Hp; cbn in Hp; destruct p as [|[|p]]; [| |lia]; cbn [exl2 kk nth fst centre_at]];
      intros q Hq; cbn in Hq; (destruct q as [|[|q]]; [| |lia]); kev; unfold mass, wid; cbn; lra.
Qed.
Definition excube2 (r : R) : arr num := Arr [2; 1; 1]%nat (fun idx => Fin (r + INR (nth 0 idx 0%nat))).
Lemma excube2_cube r : is_cube (excube2 r) 2 1 1 (fun w _ _ => r + INR w).
Proof. split; [reflexivity|]. intros w i j _ _ _. reflexivity. Qed.
Example C87_datacube_case : exists y y',
  mixture_ybar [Some (excube2 2); Some (excube2 5); Some (excube2 2)] [Fin (1 / 4); Fin (1 / 2); Fin (1 / 4)] = Ok y /\
  mixture_ybar [Some (excube2 5); Some (excube2 2)] [Fin (1 / 2); Fin (1 / 2)] = Ok y' /\ ent y [1; 0; 0]%nat = ent y' [1; 0; 0]%nat.
Proof.
  destruct (C87_datacube 2 1 1 [(excube2 2, 1 / 4); (excube2 5, 1 / 2); (excube2 2, 1 / 4)] [(excube2 5, 1 / 2); (excube2 2, 1 / 2)])
    as (y & y' & E & E' & _ & _ & H).
  - discriminate.
  - apply (rg_trans _ [(excube2 2, 1 / 4); (excube2 2, 1 / 4); (excube2 5, 1 / 2)]); [apply rg_order, perm_skip, perm_swap|].
    apply (rg_trans _ [(excube2 2, 1 / 2); (excube2 5, 1 / 2)]); [|apply rg_order, perm_swap].
    pose proof (rg_merge (excube2 2) (1 / 4) (1 / 4) [(excube2 5, 1 / 2)]) as K. replace (1 / 4 + 1 / 4) with (1 / 2) in K by lra. exact K.
  - intros a [<-|[<-|[<-|[]]]]; eexists; apply excube2_cube.
  - exists y, y'. split; [exact E|]. split; [exact E'|]. apply H; lia.
Qed.
Example C87_single_case : exists a b, mix_mean (Mixture (comp_cube exc) [comp_member exc] [Fin 1]) "v_t" false = Ok a /\
  get_mean (base_obj exc) "v_t" false = Ok b /\ ent a [0]%nat = ent b [0]%nat.
Proof.
  destruct (C87_single_moments exc exg exf exc_on exg_good exf_nonneg Cv (VSet true false false false) false ltac:(discriminate) eq_refl
    ltac:(discriminate)) as [(a & b & Ea & Eb & _ & _ & He) _].
  exists a, b. do 2 (split; [assumption|]). apply (He (Bin 0 0 0 0 0)). repeat split; cbn; lia.
Qed.
