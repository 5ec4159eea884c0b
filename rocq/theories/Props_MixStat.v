(** * Props_MixStat: claim C83 about the statistics that mixtures inherit:
    variance, dispersion, skewness, kurtosis, covariance, correlation, L-moments.

    First mixtures of base components, P being the distribution of the mixture;
    then mixtures with parametric members, for all variables but the velocity. *)
From Coq Require Import Reals Lra Lia List Bool Arith ZArith String Ascii.
From Verif Require Import Num NumLemmas Arr PyStr Cube Base Moments Parametric Spec SpecLemmas Repr ParSpec ParRepr MomSpec LMom ParMoments
  ParMomSpec ParMomOther MomLemmas NormalL NormalLSpec Mixture MixSpec MixParSpec Build MixExample MixStat MixStatSpec MixStatClaims MixStatExample ParExample ParMomExample MixParExample MomRefuted Props_Mixture.
Import ListNotations.
Local Open Scope R_scope.

Theorem C83_variance : forall self g comps l lw C, mix_on self g comps l -> good_grid g ->
  (forall q, (q < List.length l)%nat -> lw_ok g (pf l q) lw) ->
  (nonempty C = false -> lw = false ->
     sumR (map snd l) = 1 /\ forall q, (q < List.length l)%nat -> total g (mass g (pf l q)) = 1) ->
  let P := prob g (mixf l) lw in
  forall k, disjoint (cvar k) C = true -> 
  exists v s, mix_variance self (dname (cvar k) C) lw = Ok v /\ mix_dispersion self (dname (cvar k) C) lw = Ok s /\
    shp v = mdims k C g /\ shp s = mdims k C g /\
    forall i, in_grid g i ->
      ((forall q, (q < List.length l)%nat -> 0 < marg g (prob g (pf l q) lw) C i) ->
         variance_at g P k C i (ent v (mcoords k C i)) (ent s (mcoords k C i))) /\
      ((exists q, (q < List.length l)%nat /\ marg g (prob g (pf l q) lw) C i = 0) ->
         ent v (mcoords k C i) = NaN /\ ent s (mcoords k C i) = NaN).
Proof. exact (fun self g comps l lw C H Hg Hm HT k HD => mixb_variance self g comps l lw C H Hg Hm HT k HD). Qed.
Print Assumptions C83_variance.
Theorem C83_shape : forall self g comps l lw C, mix_on self g comps l -> good_grid g ->
  (forall q, (q < List.length l)%nat -> lw_ok g (pf l q) lw) ->
  (nonempty C = false -> lw = false ->
     sumR (map snd l) = 1 /\ forall q, (q < List.length l)%nat -> total g (mass g (pf l q)) = 1) ->
  let P := prob g (mixf l) lw in
  forall k, disjoint (cvar k) C = true -> forall f2m1,
  exists sk ku ek, mix_skewness self (dname (cvar k) C) lw = Ok sk /\ mix_kurtosis self (dname (cvar k) C) lw = Ok ku /\
    mix_excess_kurtosis f2m1 self (dname (cvar k) C) lw = Ok ek /\
    shp sk = mdims k C g /\ shp ku = mdims k C g /\ shp ek = mdims k C g /\
    forall i, in_grid g i ->
      ((forall q, (q < List.length l)%nat -> 0 < marg g (prob g (pf l q) lw) C i) ->
         shape_at g P k C i (ent sk (mcoords k C i)) (ent ku (mcoords k C i)) (ent ek (mcoords k C i))) /\
      ((exists q, (q < List.length l)%nat /\ marg g (prob g (pf l q) lw) C i = 0) ->
         ent sk (mcoords k C i) = NaN /\ ent ku (mcoords k C i) = NaN /\ ent ek (mcoords k C i) = NaN).
Proof. exact (fun self g comps l lw C H Hg Hm HT k HD => mixb_shape self g comps l lw C H Hg Hm HT k HD). Qed.
Print Assumptions C83_shape.
Theorem C83_covariance : forall self g comps l lw C, mix_on self g comps l -> good_grid g ->
  (forall q, (q < List.length l)%nat -> lw_ok g (pf l q) lw) ->
  (nonempty C = false -> lw = false ->
     sumR (map snd l) = 1 /\ forall q, (q < List.length l)%nat -> total g (mass g (pf l q)) = 1) ->
  let P := prob g (mixf l) lw in
  forall a b, before a b = true -> disjoint (union (cvar a) (cvar b)) C = true -> 
  exists r, mix_covariance self (dname (union (cvar a) (cvar b)) C) lw = Ok r /\ shp r = mdims (xkey a b) C g /\
    forall i, in_grid g i ->
      ((forall q, (q < List.length l)%nat -> 0 < marg g (prob g (pf l q) lw) C i) -> ent r (mcoords (xkey a b) C i) = Fin (Covar g P a b C i)) /\
      ((exists q, (q < List.length l)%nat /\ marg g (prob g (pf l q) lw) C i = 0) -> ent r (mcoords (xkey a b) C i) = NaN).
Proof. exact (fun self g comps l lw C H Hg Hm HT a b Hab HD => mixb_covariance self g comps l lw C H Hg Hm HT a b Hab HD). Qed.
Print Assumptions C83_covariance.
Theorem C83_correlation : forall self g comps l lw C, mix_on self g comps l -> good_grid g ->
  (forall q, (q < List.length l)%nat -> lw_ok g (pf l q) lw) ->
  (nonempty C = false -> lw = false ->
     sumR (map snd l) = 1 /\ forall q, (q < List.length l)%nat -> total g (mass g (pf l q)) = 1) ->
  let P := prob g (mixf l) lw in
  forall a b, before a b = true -> disjoint (union (cvar a) (cvar b)) C = true -> 
  exists r, mix_correlation self (dname (union (cvar a) (cvar b)) C) lw = Ok r /\ shp r = mdims (xkey a b) C g /\
    forall i, in_grid g i ->
      ((forall q, (q < List.length l)%nat -> 0 < marg g (prob g (pf l q) lw) C i) -> correlation_at g P a b C i (ent r (mcoords (xkey a b) C i))) /\
      ((exists q, (q < List.length l)%nat /\ marg g (prob g (pf l q) lw) C i = 0) -> ent r (mcoords (xkey a b) C i) = NaN).
Proof. exact (fun self g comps l lw C H Hg Hm HT a b Hab HD => mixb_correlation self g comps l lw C H Hg Hm HT a b Hab HD). Qed.
Print Assumptions C83_correlation.
(** L-moments, of anything but positions, are those of the mixture wherever it
    has mass, although a member may have none there *)
Theorem C83_l_moments : forall self g comps l lw C, mix_on self g comps l -> good_grid g ->
  (forall q, (q < List.length l)%nat -> lw_ok g (pf l q) lw) ->
  (nonempty C = false -> lw = false ->
     sumR (map snd l) = 1 /\ forall q, (q < List.length l)%nat -> total g (mass g (pf l q)) = 1) ->
  let P := prob g (mixf l) lw in
  forall k, disjoint (cvar k) C = true -> is_x k = false ->
  exists a b c, get_l_mean (mix_obj self) (dname (cvar k) C) lw = Ok a /\
    get_l_dispersion (mix_obj self) (dname (cvar k) C) lw = Ok b /\ get_l_moment (mix_obj self) (dname (cvar k) C) 3 lw = Ok c /\
    shp a = dims C g /\ shp b = dims C g /\ shp c = dims C g /\
    forall i, in_grid g i ->
      (0 < marg g P C i -> l_moments_at g P k C i (ent a (coords C i)) (ent b (coords C i)) (ent c (coords C i))) /\
      (marg g P C i = 0 -> ent a (coords C i) = NaN /\ ent b (coords C i) = NaN /\ ent c (coords C i) = NaN).
Proof. exact (fun self g comps l lw C H Hg Hm HT k HD Hx => mixb_l_moments self g comps l lw C H Hg Hm HT k HD Hx). Qed.
Print Assumptions C83_l_moments.
(** ** Mixtures with parametric members *)
Theorem C83_mixed_variance : forall self g l lw C, mixed_on self g l -> good_grid g ->
  (forall q, (q < List.length l)%nat -> lit_ok g (kmass g (kk l q) (has_v C)) lw) ->
  (lw = true -> has_v C = false) ->
  (nonempty C = false -> lw = false -> k_normal g l) ->
  let P := weighted g lw (kmix g l (has_v C)) in
  forall k, disjoint (cvar k) C = true -> k <> Cv ->
  (forall q m, (q < List.length l)%nat -> kk l q = KPar m -> no_holes g m lw (cvar k) C) -> 
  exists v s, mix_variance self (dname (cvar k) C) lw = Ok v /\ mix_dispersion self (dname (cvar k) C) lw = Ok s /\
    shp v = mdims k C g /\ shp s = mdims k C g /\
    forall i, in_grid g i ->
      (all_there g l lw C i ->
         variance_at g P k C i (ent v (mcoords k C i)) (ent s (mcoords k C i))) /\
      (some_missing g l lw C i ->
         ent v (mcoords k C i) = NaN /\ ent s (mcoords k C i) = NaN).
Proof. exact (fun self g l lw C H Hg Hm Hlv HN k HD Hk Hh => mixp_variance self g l lw C H Hg Hm Hlv HN k HD Hk Hh). Qed.
Print Assumptions C83_mixed_variance.
Theorem C83_mixed_shape : forall self g l lw C, mixed_on self g l -> good_grid g ->
  (forall q, (q < List.length l)%nat -> lit_ok g (kmass g (kk l q) (has_v C)) lw) ->
  (lw = true -> has_v C = false) ->
  (nonempty C = false -> lw = false -> k_normal g l) ->
  let P := weighted g lw (kmix g l (has_v C)) in
  forall k, disjoint (cvar k) C = true -> k <> Cv ->
  (forall q m, (q < List.length l)%nat -> kk l q = KPar m -> no_holes g m lw (cvar k) C) -> forall f2m1,
  exists sk ku ek, mix_skewness self (dname (cvar k) C) lw = Ok sk /\ mix_kurtosis self (dname (cvar k) C) lw = Ok ku /\
    mix_excess_kurtosis f2m1 self (dname (cvar k) C) lw = Ok ek /\
    shp sk = mdims k C g /\ shp ku = mdims k C g /\ shp ek = mdims k C g /\
    forall i, in_grid g i ->
      (all_there g l lw C i ->
         shape_at g P k C i (ent sk (mcoords k C i)) (ent ku (mcoords k C i)) (ent ek (mcoords k C i))) /\
      (some_missing g l lw C i ->
         ent sk (mcoords k C i) = NaN /\ ent ku (mcoords k C i) = NaN /\ ent ek (mcoords k C i) = NaN).
Proof. exact (fun self g l lw C H Hg Hm Hlv HN k HD Hk Hh => mixp_shape self g l lw C H Hg Hm Hlv HN k HD Hk Hh). Qed.
Print Assumptions C83_mixed_shape.
Theorem C83_mixed_covariance : forall self g l lw C, mixed_on self g l -> good_grid g ->
  (forall q, (q < List.length l)%nat -> lit_ok g (kmass g (kk l q) (has_v C)) lw) ->
  (lw = true -> has_v C = false) ->
  (nonempty C = false -> lw = false -> k_normal g l) ->
  let P := weighted g lw (kmix g l (has_v C)) in
  forall a b, before a b = true -> disjoint (union (cvar a) (cvar b)) C = true -> a <> Cv -> b <> Cv ->
  (forall q m, (q < List.length l)%nat -> kk l q = KPar m -> no_holes g m lw (cvar a) C) ->
  (forall q m, (q < List.length l)%nat -> kk l q = KPar m -> no_holes g m lw (cvar b) C) -> 
  exists r, mix_covariance self (dname (union (cvar a) (cvar b)) C) lw = Ok r /\ shp r = mdims (xkey a b) C g /\
    forall i, in_grid g i ->
      (all_there g l lw C i -> ent r (mcoords (xkey a b) C i) = Fin (Covar g P a b C i)) /\
      (some_missing g l lw C i -> ent r (mcoords (xkey a b) C i) = NaN).
Proof. exact (fun self g l lw C H Hg Hm Hlv HN a b Hab HD Ka Kb Ha Hb => mixp_covariance self g l lw C H Hg Hm Hlv HN a b Hab HD Ka Kb Ha Hb). Qed.
Print Assumptions C83_mixed_covariance.
Theorem C83_mixed_correlation : forall self g l lw C, mixed_on self g l -> good_grid g ->
  (forall q, (q < List.length l)%nat -> lit_ok g (kmass g (kk l q) (has_v C)) lw) ->
  (lw = true -> has_v C = false) ->
  (nonempty C = false -> lw = false -> k_normal g l) ->
  let P := weighted g lw (kmix g l (has_v C)) in
  forall a b, before a b = true -> disjoint (union (cvar a) (cvar b)) C = true -> a <> Cv -> b <> Cv ->
  (forall q m, (q < List.length l)%nat -> kk l q = KPar m -> no_holes g m lw (cvar a) C) ->
  (forall q m, (q < List.length l)%nat -> kk l q = KPar m -> no_holes g m lw (cvar b) C) -> 
  exists r, mix_correlation self (dname (union (cvar a) (cvar b)) C) lw = Ok r /\ shp r = mdims (xkey a b) C g /\
    forall i, in_grid g i ->
      (all_there g l lw C i -> correlation_at g P a b C i (ent r (mcoords (xkey a b) C i))) /\
      (some_missing g l lw C i -> ent r (mcoords (xkey a b) C i) = NaN).
Proof. exact (fun self g l lw C H Hg Hm Hlv HN a b Hab HD Ka Kb Ha Hb => mixp_correlation self g l lw C H Hg Hm Hlv HN a b Hab HD Ka Kb Ha Hb). Qed.
Print Assumptions C83_mixed_correlation.
(** L-moments, of anything but positions, are those of the mixture wherever it
    has mass, although a member may have none there *)
Theorem C83_mixed_l_moments : forall self g l lw C, mixed_on self g l -> good_grid g ->
  (forall q, (q < List.length l)%nat -> lit_ok g (kmass g (kk l q) (has_v C)) lw) ->
  (nonempty C = false -> lw = false -> k_normal g l) ->
  let P := weighted g lw (kmix g l (has_v C)) in
  forall k, disjoint (cvar k) C = true -> k <> Cv -> is_x k = false ->
  exists a b c, get_l_mean (mix_obj self) (dname (cvar k) C) lw = Ok a /\
    get_l_dispersion (mix_obj self) (dname (cvar k) C) lw = Ok b /\ get_l_moment (mix_obj self) (dname (cvar k) C) 3 lw = Ok c /\
    shp a = dims C g /\ shp b = dims C g /\ shp c = dims C g /\
    forall i, in_grid g i ->
      (0 < marg g P C i -> l_moments_at g P k C i (ent a (coords C i)) (ent b (coords C i)) (ent c (coords C i))) /\
      (marg g P C i = 0 -> ent a (coords C i) = NaN /\ ent b (coords C i) = NaN /\ ent c (coords C i) = NaN).
Proof. exact (fun self g l lw C H Hg Hm HN k HD Hk Hx => mixp_l_moments self g l lw C H Hg Hm HN k HD Hk Hx). Qed.
Print Assumptions C83_mixed_l_moments.
(** The derived statistics are nan where one member has no mass although the
    mixture has; get_l_mean is not. *)
Theorem C83_empty_member_refuted : exists self g comps l, mix_on self g comps l /\ good_grid g /\
  (forall k, (k < List.length l)%nat -> lw_ok g (pf l k) false) /\
  exists i a s, in_grid g i /\ 0 < marg g (prob g (mixf l) false) (VSet true false true false) i /\
    mix_dispersion self "v_tx" false = Ok s /\ ent s (coords (VSet true false true false) i) = NaN /\
    get_l_mean (mix_obj self) "v_tx" false = Ok a /\ ent a (coords (VSet true false true false) i) = Fin 0 /\
    Mean g (prob g (mixf l) false) Cv (VSet true false true false) i = 0.
Proof. exact empty_stat_claim. Qed.
Print Assumptions C83_empty_member_refuted.
(** a mixture of two components: velocities at the first age; a base and a
    parametric member: ages at the first position *)
Example C83_case :
  (exists v, mix_variance exm "v_t" false = Ok v /\ ent v [0]%nat = Fin (20 / 81)) /\
  (exists a, get_l_mean (mix_obj exm) "v_t" false = Ok a /\ ent a [0]%nat = Fin (1 / 18)) /\
  (exists r, mix_covariance exm "tv_x" false = Ok r /\ ent r [0; 0]%nat = Fin (- (12 / 625))) /\
  (exists v s, mix_variance exm2 "t_x" false = Ok v /\ mix_dispersion exm2 "t_x" false = Ok s /\
     ent v [0; 0]%nat = Fin (16425 / 29929) /\ ent s [0; 0]%nat = Fin (sqrt (16425 / 29929))).
Proof.
  assert (Hi : in_grid exg (Bin 0 0 0 0 0)) by (repeat split; cbn; lia). split; [|split; [|split]].
  - destruct (C83_variance exm exg _ expts false vst exm_on exg_good (exm_members _) ltac:(discriminate) Cv eq_refl) as (v & s & Ev & _ & _ & _ & Hv).
    exists v. split; [exact Ev|]. destruct (Hv _ Hi) as [K _].
    destruct K as (V & EV & _ & -> & _).
    { intros [|[|q]] Hq; [| |cbn in Hq; lia]; unfold vst; mix_num; ex_num. }
    etransitivity; [exact EV|]. f_equal. unfold vst. mix_num. mom_num; field.
  - destruct (C83_l_moments exm exg _ expts false vst exm_on exg_good (exm_members _) ltac:(discriminate) Cv eq_refl eq_refl) as (a & b & c & Ea & _ & _ & _ & _ & _ & Ha).
    exists a. split; [exact Ea|]. destruct (Ha _ Hi) as [K _]. destruct K as (M1 & M2 & M3 & _ & _ & _ & A & -> & _).
    { unfold vst; mix_num; ex_num. }
    etransitivity; [exact A|]. f_equal. unfold vst. mix_num. mom_num; field.
  - destruct (C83_covariance exm exg _ expts false vsx exm_on exg_good (exm_members _) ltac:(discriminate) Ct Cv eq_refl eq_refl) as (r & Er & _ & Hr).
    exists r. split; [exact Er|]. destruct (Hr _ Hi) as [K _]. etransitivity; [apply K|].
    { intros [|[|q]] Hq; [| |cbn in Hq; lia]; unfold vsx; mix_num; ex_num. }
    f_equal. unfold vsx, Covar. mix_num. mom_num; field.
  - destruct (C83_mixed_variance exm2 exg exl2 false (VSet false false true false) exm2_on exg_good ltac:(intros; discriminate) ltac:(discriminate) ltac:(discriminate) Ct eq_refl
      ltac:(discriminate)) as (v & s & Ev & Es & _ & _ & Hv).
    { intros q m Hq Em _ [K|[K|[]]]; discriminate K. }
    exists v, s. split; [exact Ev|]. split; [exact Es|]. destruct (Hv _ Hi) as [K _]. destruct K as (V & EV & ES & EE & _).
    { intros q Hq. cbn in Hq. destruct q as [|[|q]]; [| |lia]; kev; unfold mass, wid; cbn; lra. }
    assert (EV0 : V = 16425 / 29929) by (rewrite EE; unfold Mean, Ex; kev; unfold cmid, mass, wid, mid; cbn; field).
    clear EE. subst V. split; [exact EV|exact ES].
Qed.
