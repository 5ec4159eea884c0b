(** * ParMomClaims: claims on velocity moments of parametric components. *)
From Coq Require Import Reals Lra Lia List Bool Arith ZArith String Ascii.
From Verif Require Import Num NumLemmas Arr ArrLemmas PyStr StrLemmas Cube Base Spec SpecLemmas Repr CubeLemmas CondLemmas DiskLemmas
  DistLemmas StringClaims Moments MomArr MomSpec MomLemmas MomLemmas2 MomLemmas5 Parametric ParSpec ParRepr ParLemmas ParDist ParClaims ParMoments
  GaussSpec GaussLemmas ParMomSpec ParMomMath ParMomArr ParMomLemmas ParMomMeans.
Import ListNotations.
Local Open Scope R_scope.

Section Claims.
Context (L : stats_lib) (self : par) (g : grid) (m : par_model) (lw : bool).
Context (H : par_on L self g m) (Hg : good_grid g) (Hm : good_par g m) (Hl : par_lw_ok g m lw false).

(** the bin whose centre is used *)
Definition centre_bin (C : vset) (i : bin) : bin := if (has_t C && has_x C && has_z C)%bool then set_z 0 i else i.

Lemma get_mean_at q C : has_v C = false ->
  exists a, get_mean (par_obj L q self) (dname V_v C) lw = Ok a /\ mean_at g m lw C a.
Proof.
  intros Hv. destruct C as [[] [] [] []]; try discriminate Hv; unfold get_mean; cbn -[mean_at mean_v_tx mean_v_txz].
  - apply (mean_txz L); assumption.
  - apply (mean_tx L); assumption.
  - apply mean_tz; assumption.
  - apply mean_t; assumption.
  - apply mean_xz; assumption.
  - apply mean_x; assumption.
  - apply mean_z; assumption.
  - apply mean_0; assumption.
Qed.

Lemma get_moment_at q C j mu : has_v C = false -> shp mu = dims C g ->
  exists a, get_noncentral_moment (par_obj L (Fin q) self) (dname V_v C) j mu lw = Ok a /\
    mom_at g m q lw C j (fun i => ent mu (coords C (centre_bin C i))) a.
Proof.
  intros Hv Hs. destruct C as [[] [] [] []]; try discriminate Hv; unfold get_noncentral_moment;
  cbn -[mom_at noncentral_v_tx noncentral_v_txz]; cbn in Hs.
  - apply (moment_txz L); assumption.
  - apply (moment_tx L); assumption.
  - apply moment_tz; assumption.
  - apply moment_t; assumption.
  - apply moment_xz; assumption.
  - apply moment_x; assumption.
  - apply moment_z; assumption.
  - apply moment_0; assumption.
Qed.

Lemma gsum_mixture C i c j : mixture_moment g m lw C i c j (gsum g m 1 lw C i c j).
Proof.
  exists (fun t x y => gmom (pm_mu m t x y - c) (pm_sig m t x y) j). split.
  - intros t x y Ht Hx Hy. apply gmom_ok. apply (gp_sig _ _ Hm); assumption.
  - unfold gsum, over_rest, sum_over. repeat (apply sum_if_ext_all; intros). rewrite gval_1. reflexivity.
Qed.

(** the moments are determined *)
Lemma mixture_moment_unique C i c j M M' : in_grid g i -> mixture_moment g m lw C i c j M -> mixture_moment g m lw C i c j M' -> M = M'.
Proof.
  intros Hi (G & HG & ->) (G' & HG' & ->). unfold over_rest. apply sum_over_ext; [assumption|].
  intros b (Ht & Hv & Hx & Hy & Hz). f_equal. eapply gauss_moment_unique; [apply HG|apply HG']; assumption.
Qed.

Lemma norm_lw i : lw = true -> par_prob g m lw no_vars i = 1.
Proof.
  intros E. unfold par_prob. pose proof Hl as Hl'. rewrite E in *. change (marg (pgrid g (has_v no_vars)) (pprob g m true (has_v no_vars)) no_vars i)
    with (total (flat g) (light (flat g) (pjoint g m false))).
  apply total_light. apply Rgt_not_eq. apply (Hl' eq_refl).
Qed.
Lemma norm_empty C i : nonempty C = false -> (lw = false -> par_prob g m false no_vars i = 1) -> par_prob g m lw C i = 1.
Proof.
  intros E Hn. replace C with no_vars by (destruct C as [[] [] [] []]; try discriminate E; reflexivity).
  destruct (Bool.bool_dec lw true) as [El|El]; [apply norm_lw; exact El|].
  apply Bool.not_true_is_false in El. rewrite El. auto.
Qed.

(** ** C51 *)
Lemma par_mean_claim f2m1 C : has_v C = false ->
  exists a, get_mean (par_obj L f2m1 self) (dname V_v C) lw = Ok a /\ shp a = dims C g /\
    forall i, in_grid g i ->
      (0 < par_prob g m lw C i -> (nonempty C = false -> lw = false -> par_prob g m false no_vars i = 1) ->
        ent a (coords C i) = Fin (mixture_mean g m lw C i)) /\
      (nonempty C = true -> par_prob g m lw C i = 0 -> In (dname V_v C) ["v_x"; "v_z"; "v_xz"; "v_tz"]%string \/ dname V_v C = "v_t"%string /\ lw = true ->
        ent a (coords C i) = NaN).
Proof.
  intros Hv. destruct (get_mean_at f2m1 C Hv) as (a & E & S1 & He). exists a. split; [exact E|]. split; [exact S1|].
  intros i Hi. destruct (He i Hi) as [H1 H2]. split.
  - intros Hp Hn. apply H1; [exact Hp|]. intros EC. apply norm_empty; auto.
  - intros HC Hp Hd. apply H2; auto. destruct C as [[] [] [] []]; try discriminate Hv; try discriminate HC; cbn in Hd |- *;
    repeat match goal with H : _ \/ _ |- _ => destruct H | H : _ /\ _ |- _ => destruct H | H : False |- _ => destruct H end; subst; try discriminate; try reflexivity.
Qed.

Lemma par_moment_claim C j mu : has_v C = false -> shp mu = dims C g ->
  (C = V_txz -> forall i, in_grid g i -> ent mu (coords C i) = ent mu (coords C (set_z 0 i))) ->
  exists a, get_noncentral_moment (par_obj L (Fin 1) self) (dname V_v C) j mu lw = Ok a /\ shp a = dims C g /\
    forall i c, in_grid g i -> ent mu (coords C i) = Fin c ->
      0 < par_prob g m lw C i -> (nonempty C = false -> lw = false -> par_prob g m false no_vars i = 1) ->
      exists M, ent a (coords C i) = Fin M /\ mixture_moment g m lw C i c j M.
Proof.
  intros Hv Hs Hz. destruct (get_moment_at 1 C j mu Hv Hs) as (a & E & S1 & He). exists a. split; [exact E|]. split; [exact S1|].
  intros i c Hi Hc Hp Hn. destruct (He i Hi) as [H1 _].
  exists (gsum g m 1 lw C i c j). split; [|apply gsum_mixture]. apply H1; [exact Hp| |].
  - intros EC. apply norm_empty; auto.
  - rewrite <- Hc. unfold centre_bin. destruct (has_t C && has_x C && has_z C)%bool eqn:EC; [|reflexivity].
    symmetry. apply Hz; [|assumption]. destruct C as [[] [] [] []]; try discriminate EC; try discriminate Hv; reflexivity.
Qed.

(** moments about the mean *)
Lemma mean_z0 C i : C = V_txz -> in_grid g i -> 0 < par_prob g m lw C i -> 
  mixture_mean g m lw C i = pm_mu m (bt i) (bx i) (by_ i).
Proof. intros -> Hi Hp. apply mean_full; auto. Qed.

Lemma central_at q C j : has_v C = false ->
  exists a, get_central_moment (par_obj L (Fin q) self) (dname V_v C) j lw = Ok a /\ shp a = dims C g /\
    forall i, in_grid g i -> 0 < par_prob g m lw C i -> (nonempty C = false -> par_prob g m lw C i = 1) ->
      ent a (coords C i) = Fin (gsum g m q lw C i (mixture_mean g m lw C i) j).
Proof.
  intros Hv. destruct (get_mean_at (Fin q) C Hv) as (mu & Emu & Smu & Hmu).
  destruct (get_moment_at q C j mu Hv Smu) as (a & Ea & Sa & Ha).
  exists a. assert (EE : get_central_moment (par_obj L (Fin q) self) (dname V_v C) j lw = Ok a).
  { unfold get_central_moment.
    assert (P0 : part0 (dname V_v C) = "v"%string) by (destruct C as [[] [] [] []]; try discriminate Hv; reflexivity).
    rewrite P0. cbn [String.length Nat.eqb py_assert bind is_tvz String.eqb Ascii.eqb Bool.eqb orb]. rewrite Emu. cbn [bind].
    destruct (nonempty C) eqn:EC.
    - assert (PC : has_char "_" (dname V_v C) = true) by (destruct C as [[] [] [] []]; try discriminate Hv; try discriminate EC; reflexivity).
      assert (P1 : part1 (dname V_v C) = Ok (name C)) by (destruct C as [[] [] [] []]; try discriminate Hv; try discriminate EC; reflexivity).
      rewrite PC, P1. cbn [bind o_cube par_obj].
      destruct (vol_ok _ g (po_cube _ _ _ _ H) Hg C EC) as (d & Ed & _). rewrite Ed. cbn [bind]. exact Ea.
    - assert (PC : has_char "_" (dname V_v C) = false) by (destruct C as [[] [] [] []]; try discriminate EC; reflexivity).
      rewrite PC. cbn [bind]. exact Ea. }
  split; [exact EE|]. split; [exact Sa|]. intros i Hi Hp Hn.
  destruct (Ha i Hi) as [H1 _]. apply H1; [exact Hp|exact Hn|].
  unfold centre_bin. destruct (has_t C && has_x C && has_z C)%bool eqn:EC; [|apply (Hmu i Hi); assumption].
  assert (C = V_txz) by (destruct C as [[] [] [] []]; try discriminate EC; try discriminate Hv; reflexivity). subst C.
  rewrite mean_full by (assumption || reflexivity).
  assert (E0 : mean_v_txz self = Ok mu) by exact Emu.
  destruct (po_mu _ _ _ _ H) as (mv & Emv & Smv & Hmv).
  destruct (mean_v_txz_is self mv _ _ _ _ Emv (self_is mv _ Smv) _ (z_shape L self g m H)) as (E4 & EE4 & HE4).
  rewrite EE4 in E0. injection E0 as ->. destruct Hi as (Ht & Hvv & Hx & Hy & Hz). cbn [coords V_txz opt has_t has_v has_x has_z app set_z bt bx by_ bz] in *.
  assert (Hz0 : (0 < nz g)%nat) by (pose proof (gg_z _ Hg); lia).
  rewrite (proj2 HE4) by inbs. apply Hmv; assumption.
Qed.

Lemma par_central_claim C j : has_v C = false ->
  exists a, get_central_moment (par_obj L (Fin 1) self) (dname V_v C) j lw = Ok a /\ shp a = dims C g /\
    forall i, in_grid g i -> 0 < par_prob g m lw C i -> (nonempty C = false -> lw = false -> par_prob g m false no_vars i = 1) ->
      exists M, ent a (coords C i) = Fin M /\ mixture_moment g m lw C i (mixture_mean g m lw C i) j M.
Proof.
  intros Hv. destruct (central_at 1 C j Hv) as (a & E & S1 & He). exists a. split; [exact E|]. split; [exact S1|].
  intros i Hi Hp Hn. eexists. split; [apply He; auto; intros; apply norm_empty; auto|apply gsum_mixture].
Qed.

Lemma over_rest_lin C i (a b : R) F G : over_rest g m lw C i (fun t x y => a * F t x y + b * G t x y) =
  a * over_rest g m lw C i F + b * over_rest g m lw C i G.
Proof.
  unfold over_rest, sum_over. destruct C as [[] [] [] []]; cbn -[weight];
  rewrite <- ?Sum_scal; rewrite ?Sum_scal_r, <- ?Sum_scal, <- ?Sum_plus; try ring;
  repeat (rewrite <- ?Sum_scal; try rewrite <- Sum_plus; apply Sum_ext; intros); ring.
Qed.
Lemma over_rest_ext C i F G : in_grid g i -> (forall t x y, (t < nt g)%nat -> (x < nx g)%nat -> (y < ny g)%nat -> F t x y = G t x y) ->
  over_rest g m lw C i F = over_rest g m lw C i G.
Proof. intros Hi HF. apply sum_over_ext; [assumption|]. intros b (Ht & Hv & Hx & Hy & Hz). rewrite HF by assumption. reflexivity. Qed.
Lemma over_rest_one C i : has_v C = false -> 0 < par_prob g m lw C i -> over_rest g m lw C i (fun _ _ _ => 1) = 1.
Proof.
  intros Hv Hp.
  assert (E : sum_over (flat g) (rest C) i (marg (flat g) (pprob g m lw false) (union (rest C) C)) = par_prob g m lw C i).
  { rewrite sum_over_marg by (destruct C as [[] [] [] []]; reflexivity). unfold par_prob. rewrite Hv. reflexivity. }
  assert (E2 : forall b, weight g m lw C i b = marg (flat g) (pprob g m lw false) (union (rest C) C) b * / par_prob g m lw C i).
  { intros b. unfold weight, par_prob at 1. replace (has_v (union (rest C) C)) with false by (destruct C as [[] [] [] []]; try discriminate Hv; reflexivity). reflexivity. }
  unfold over_rest. transitivity (sum_over (flat g) (rest C) i (marg (flat g) (pprob g m lw false) (union (rest C) C)) * / par_prob g m lw C i).
  - unfold sum_over. rewrite <- ?Sum_scal_r. destruct C as [[] [] [] []]; cbn -[weight marg par_prob];
    rewrite <- ?Sum_scal_r; repeat (apply Sum_ext; intros; rewrite <- ?Sum_scal_r); rewrite E2; ring.
  - rewrite E. apply Rinv_r. apply Rgt_not_eq. exact Hp.
Qed.

(** mean of the variances plus variance of the means *)
Lemma par_variance_claim C : has_v C = false ->
  exists a, get_variance (par_obj L (Fin 1) self) (dname V_v C) lw = Ok a /\ shp a = dims C g /\
    forall i, in_grid g i -> 0 < par_prob g m lw C i -> (nonempty C = false -> lw = false -> par_prob g m false no_vars i = 1) ->
      ent a (coords C i) = Fin (over_rest g m lw C i (fun t x y => pm_sig m t x y ^ 2) +
        over_rest g m lw C i (fun t x y => (pm_mu m t x y - mixture_mean g m lw C i) ^ 2)).
Proof.
  intros Hv. destruct (central_at 1 C 2 Hv) as (a & E & S1 & He). exists a. split; [exact E|]. split; [exact S1|].
  intros i Hi Hp Hn. rewrite He by (auto; intros; apply norm_empty; auto). f_equal. unfold gsum.
  rewrite <- (Rmult_1_l (over_rest g m lw C i (fun t x y => pm_sig m t x y ^ 2))).
  rewrite <- (Rmult_1_l (over_rest g m lw C i (fun t x y => (_ - _) ^ 2))).
  rewrite <- over_rest_lin. apply over_rest_ext; [assumption|]. intros. rewrite gval_1, gmom_SS, gmom_1, gmom_0. cbn [INR]. ring.
Qed.

(** the values when factorial2(-1) = q *)
Lemma par_order0_claim q C mu : has_v C = false -> shp mu = dims C g ->
  exists a, get_noncentral_moment (par_obj L (Fin q) self) (dname V_v C) 0 mu lw = Ok a /\ shp a = dims C g /\
    forall i c, in_grid g i -> ent mu (coords C (centre_bin C i)) = Fin c ->
      0 < par_prob g m lw C i -> (nonempty C = false -> lw = false -> par_prob g m false no_vars i = 1) ->
      ent a (coords C i) = Fin q.
Proof.
  intros Hv Hs. destruct (get_moment_at q C 0 mu Hv Hs) as (a & E & S1 & He). exists a. split; [exact E|]. split; [exact S1|].
  intros i c Hi Hc Hp Hn. destruct (He i Hi) as [H1 _]. rewrite (H1 Hp) with (c := c); [|intros; apply norm_empty; auto|exact Hc].
  f_equal. unfold gsum. rewrite (over_rest_ext C i _ (fun _ _ _ => q * 1 + 0 * 1)) by (auto; intros; unfold gval; rewrite gmom_0, pow_O; ring).
  rewrite (over_rest_lin C i q 0 (fun _ _ _ => 1) (fun _ _ _ => 1)), over_rest_one by assumption. ring.
Qed.
Lemma par_variance_q q C : has_v C = false ->
  exists a, get_variance (par_obj L (Fin q) self) (dname V_v C) lw = Ok a /\ shp a = dims C g /\
    forall i, in_grid g i -> 0 < par_prob g m lw C i -> (nonempty C = false -> lw = false -> par_prob g m false no_vars i = 1) ->
      ent a (coords C i) = Fin (over_rest g m lw C i (fun t x y => pm_sig m t x y ^ 2) +
        q * over_rest g m lw C i (fun t x y => (pm_mu m t x y - mixture_mean g m lw C i) ^ 2)).
Proof.
  intros Hv. destruct (central_at q C 2 Hv) as (a & E & S1 & He). exists a. split; [exact E|]. split; [exact S1|].
  intros i Hi Hp Hn. rewrite He by (auto; intros; apply norm_empty; auto). f_equal. unfold gsum.
  rewrite <- (Rmult_1_l (over_rest g m lw C i (fun t x y => pm_sig m t x y ^ 2))).
  rewrite <- over_rest_lin. apply over_rest_ext; [assumption|]. intros. unfold gval. rewrite gmom_SS, gmom_1, gmom_0. cbn [INR]. ring.
Qed.

(** the centre which "v_txz" uses *)
Lemma par_txz_claim j mu : shp mu = dims V_txz g ->
  exists a, get_noncentral_moment (par_obj L (Fin 1) self) "v_txz" j mu lw = Ok a /\ shp a = dims V_txz g /\
    forall i c, in_grid g i -> ent mu (coords V_txz (set_z 0 i)) = Fin c -> 0 < par_prob g m lw V_txz i ->
      exists M, ent a (coords V_txz i) = Fin M /\ gauss_moment (pm_mu m (bt i) (bx i) (by_ i)) (pm_sig m (bt i) (bx i) (by_ i)) c j M.
Proof.
  intros Hs. destruct (get_moment_at 1 V_txz j mu eq_refl Hs) as (a & E & S1 & He). exists a. split; [exact E|]. split; [exact S1|].
  intros i c Hi Hc Hp. destruct (He i Hi) as [H1 _]. eexists. split; [apply (H1 Hp); [discriminate|exact Hc]|].
  rewrite gsum_full by (auto; reflexivity). rewrite gval_1. apply gmom_ok. destruct Hi as (Ht & _ & Hx & Hy & _). apply (gp_sig _ _ Hm); assumption.
Qed.

Lemma par_txz_refuted i : in_grid g i -> bz i <> 0%nat -> 0 < par_prob g m lw V_txz i ->
  exists mu a c M M', shp mu = dims V_txz g /\ ent mu (coords V_txz i) = Fin c /\
    get_noncentral_moment (par_obj L (Fin 1) self) "v_txz" 1 mu lw = Ok a /\ ent a (coords V_txz i) = Fin M /\
    gauss_moment (pm_mu m (bt i) (bx i) (by_ i)) (pm_sig m (bt i) (bx i) (by_ i)) c 1 M' /\ M <> M'.
Proof.
  intros Hi Hz Hp. set (mu := Arr (dims V_txz g) (fun idx => Fin (INR (nth 3 idx 0%nat)))).
  destruct (get_moment_at 1 V_txz 1 mu eq_refl eq_refl) as (a & E & S1 & He). destruct (He i Hi) as [H1 _].
  exists mu, a, (INR (bz i)), (pm_mu m (bt i) (bx i) (by_ i) - 0), (pm_mu m (bt i) (bx i) (by_ i) - INR (bz i)).
  split; [reflexivity|]. split; [reflexivity|]. split; [exact E|]. split.
  - rewrite (H1 Hp ltac:(discriminate) 0 eq_refl). f_equal. rewrite gsum_full by (auto; reflexivity). rewrite gval_1. reflexivity.
  - split; [|apply not_0_INR in Hz; lra]. pose proof Hi as (Ht & _ & Hx & Hy & _).
    apply (gmom_ok _ _ (INR (bz i)) (gp_sig _ _ Hm _ _ _ Ht Hx Hy) 1).
Qed.
End Claims.
