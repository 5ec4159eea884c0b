(** * ParMomCorr: correlation of age and velocity of a parametric component. *)
From Coq Require Import Reals Lra Lia List Bool Arith ZArith String Ascii.
From Verif Require Import MilesLemmas Num NumLemmas Arr ArrLemmas PyStr StrLemmas Cube Base Spec SpecLemmas Repr CubeLemmas CondLemmas DiskLemmas
  DistLemmas StringClaims Moments MomArr MomSpec MomLemmas MomLemmas2 MomLemmas3 MomLemmas4 MomLemmas5 MomLemmas6 LMom MomClaims Parametric ParSpec ParRepr ParLemmas ParDist ParClaims ParMoments
  GaussSpec GaussLemmas ParMomSpec ParMomMath ParMomArr ParMomLemmas ParMomMeans ParMomClaims ParMomOther.
Import ListNotations.
Local Open Scope R_scope.

Section Corr.
Context (L : stats_lib) (self : par) (g : grid) (m : par_model) (lw : bool).
Context (H : par_on L self g m) (Hg : good_grid g) (Hm : good_par g m).
Context (Hl : par_lw_ok g m lw false) (Hl' : par_lw_ok g m lw true).
Context (C : vset) (HD : disjoint V_tv C = true).
Let P := par_joint g m lw false.
Context (HT : nonempty C = false -> total g P = 1).
Let o := par_obj L (Fin 1) self.
Let Hc : cube_on (o_cube o) g := po_cube _ _ _ _ H.

Lemma CV : has_v C = false. Proof. destruct C as [[] [] [] []]; try discriminate HD; reflexivity. Qed.
Lemma prob_empty i : nonempty C = false -> par_prob g m lw C i = 1.
Proof.
  intros E. rewrite <- (HT E). replace C with no_vars by (destruct C as [[] [] [] []]; try discriminate E; reflexivity).
  rewrite <- (joint_marg g m lw Hg no_vars i). apply marg_none.
Qed.
Lemma tv_corr_claim : exists r, get_correlation o (dname V_tv C) lw = Ok r /\ shp r = dims C g /\
  forall i, in_grid g i -> 0 < par_prob g m lw C i -> 0 < Variance g P Ct C i * v_variance g m lw C i ->
    ent r (coords C i) = Fin (tv_covariance g m lw C i / sqrt (Variance g P Ct C i * v_variance g m lw C i)).
Proof.
  pose proof CV as EV.
  assert (Dt : disjoint (cvar Ct) C = true) by (destruct C as [[] [] [] []]; try discriminate HD; reflexivity).
  assert (Hh : no_holes g m lw (cvar Ct) C).
  { intros _ HI. exfalso. destruct C as [[] [] [] []]; try discriminate HD; cbn in HI; repeat (destruct HI as [HI|HI]; [discriminate HI|]); exact HI. }
  assert (HlC : par_lw_ok g m lw (has_v C)) by (rewrite EV; exact Hl).
  assert (HTC : nonempty C = false -> total g (par_joint g m lw (has_v C)) = 1) by (rewrite EV; exact HT).
  unfold get_correlation, get_covariance.
  assert (EP : dep_parts (dname V_tv C) = Ok ("tv"%string, if nonempty C then Some (name C) else None))
    by (destruct C as [[] [] [] []]; try discriminate HD; reflexivity).
  rewrite EP. cbn [bind fst snd chars].
  assert (E1 : one_dist "t"%char (if nonempty C then Some (name C) else None) = dname (cvar Ct) C) by (destruct C as [[] [] [] []]; reflexivity).
  assert (E2 : one_dist "v"%char (if nonempty C then Some (name C) else None) = dname V_v C) by (destruct C as [[] [] [] []]; reflexivity).
  rewrite E1, E2. change (negb (has_char "x" "tv")) with true. cbn iota.
  destruct (par_other_mean L self g m (Fin 1) lw H Hg Hm Ct C ltac:(discriminate) Dt HlC HTC Hh) as (mt & Emt & Smt & Hmt).
  fold o in Emt. rewrite Emt. cbn [bind].
  destruct (values_ok _ g Ct Hc eq_refl) as (vt & Evt & Svt & Hvt).
  destruct (values_ok _ g Cv Hc eq_refl) as (vv & Evv & Svv & Hvv).
  unfold var_values. change (negb (Ascii.eqb "t" "x")) with true. change (negb (Ascii.eqb "v" "x")) with true. cbn iota.
  change (str1 "t") with (name (cvar Ct)). change (str1 "v") with (name (cvar Cv)). rewrite Evt. cbn [bind].
  destruct (get_mean_at L self g m lw H Hg Hm Hl (Fin 1) C EV) as (mv & Emv & Smv & Hmv). fold o in Emv. rewrite Emv. cbn [bind].
  rewrite Evv. cbn [bind fst snd].
  assert (HPp : exists p, o_get_p o (dname V_tv C) false lw = Ok p /\ shp p = (nt g :: nv g :: dims C g)%list /\
    forall i, in_grid g i -> 0 < par_prob g m lw C i -> ent p (bt i :: bv i :: coords C i) = Fin (par_prob g m lw (union V_tv C) i / par_prob g m lw C i)).
  { pose proof prob_empty as PE. unfold dname. destruct (Bool.bool_dec (nonempty C) true) as [EC|EC]; [|apply Bool.not_true_is_false in EC]; rewrite EC.
    - destruct (par_p_cond L self g m H Hg Hm V_tv C false lw eq_refl EC HD) as (p & Ep & Sp & Hp).
      { destruct C as [[] [] [] []]; try discriminate HD; exact Hl'. }
      { destruct lw; reflexivity. }
      exists p. split; [exact Ep|]. split; [exact Sp|]. intros i Hi Hpos. destruct (Hp i Hi) as [Hp1 _].
      specialize (Hp1 Hpos). cbn [coords V_tv opt has_t has_v has_x has_z app] in Hp1. rewrite Hp1. f_equal. field. lra.
    - destruct (par_p_marg L self g m H Hg Hm V_tv false lw eq_refl Hl') as (p & Ep & Sp & Hp).
      exists p. split; [exact Ep|]. assert (EC' : C = no_vars) by (destruct C as [[] [] [] []]; try discriminate EC; reflexivity).
      split; [rewrite EC'; exact Sp|]. intros i Hi Hpos. rewrite (PE i EC). rewrite EC'. specialize (Hp i Hi).
      cbn [coords V_tv no_vars opt has_t has_v has_x has_z app] in *. rewrite Hp. unfold pent. reflexivity. }
  destruct HPp as (p & Ep & Sp & Hp). rewrite Ep. cbn [bind].
  destruct (deltas_is vt mt _ _ Svt Smt) as (dt & Edt & Sdt & Hdt). rewrite Edt. cbn [bind]. cbn [mdims] in Sdt, Hdt.
  destruct (deltas_is vv mv _ _ Svv Smv) as (dv & Edv & Sdv & Hdv). rewrite Edv. cbn [bind].
  cbn [cn] in *. 
  destruct (double_sum_is p dt dv _ _ _ Sp Sdt Sdv) as (cov & Ecov & Scov & Hcov). rewrite Ecov. cbn [bind].
  unfold get_variance.
  destruct (par_other_central L self g m (Fin 1) lw H Hg Hm Ct C ltac:(discriminate) Dt HlC HTC Hh 2) as (wt & Ewt & Swt & Hwt).
  fold o in Ewt. rewrite Ewt. cbn [bind].
  destruct (par_variance_claim L self g m lw H Hg Hm Hl C EV) as (wv & Ewv & Swv & Hwv). unfold get_variance in Ewv. fold o in Ewv.
  rewrite Ewv. cbn [bind]. cbn [mdims] in Swt.
  destruct (bop_same_is nmul wt wv _ Swt Swv) as (w & Ew & Sw & Hw). rewrite Ew. cbn [bind].
  destruct (bop_same_is ndiv cov (amap nsqrt w) (dims C g) Scov Sw) as (r & Er & Sr & Hr).
  exists r. split; [exact Er|]. split; [exact Sr|]. intros i Hi Hpos Hvar.
  assert (HI : inb (coords C i) (dims C g)) by (apply coords_inb; assumption).
  rewrite Hr by exact HI. cbn [amap ent]. rewrite Hw by exact HI.
  destruct (Hwt i Hi) as [W1 _]. specialize (W1 Hpos). cbn [mcoords] in W1. rewrite W1.
  rewrite (Hwv i Hi Hpos).
  2:{ intros E El. rewrite <- El. pose proof (prob_empty i E) as PE. destruct C as [[] [] [] []]; try discriminate E. exact PE. }
  rewrite nmul_Fin. fold (v_variance g m lw C i). rewrite EV. fold P.
  change (Moment g P Ct C 2 (Mean g P Ct C i) i) with (Variance g P Ct C i).
  rewrite nsqrt_Fin by lra. rewrite Hcov by exact HI.
  rewrite (nsum_seq (nt g) _ (fun t => Sum (nv g) (fun v =>
    par_prob g m lw (union V_tv C) (set_v v (set_t t i)) / par_prob g m lw C i *
    ((mid (tE g) t - Mean g P Ct C i) * (mid (vE g) v - mixture_mean g m lw C i))))).
  - apply ndiv_Fin. apply Rgt_not_eq. apply sqrt_lt_R0. exact Hvar.
  - intros t Ht. apply nsum_seq. intros v Hv.
    assert (Hin : in_grid g (set_v v (set_t t i))) by (destruct Hi as (? & ? & ? & ? & ?); repeat split; assumption).
    assert (Ec : coords C (set_v v (set_t t i)) = coords C i) by (destruct C as [[] [] [] []]; try discriminate HD; reflexivity).
    assert (Epc : par_prob g m lw C (set_v v (set_t t i)) = par_prob g m lw C i) by (unfold par_prob, marg; destruct C as [[] [] [] []]; try discriminate HD; reflexivity).
    specialize (Hp _ Hin). rewrite Ec, Epc in Hp. specialize (Hp Hpos). cbn [bt bv set_v set_t] in Hp. rewrite Hp.
    rewrite Hdt, Hdv by assumption. rewrite Hvt, Hvv by assumption.
    destruct (Hmt i Hi) as [M1 _]. destruct (M1 Hpos) as [M2 _]. cbn [mcoords] in M2. rewrite M2, EV. fold P.
    rewrite (proj1 (Hmv i Hi) Hpos (fun E => prob_empty i E)).
    rewrite !nsub_Fin, !nmul_Fin. f_equal. cbn [cedge]. ring.
Qed.
End Corr.
