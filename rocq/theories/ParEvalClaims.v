(** * ParEvalClaims: datacubes of disks, streams and mixtures of them, and what
    becomes of ybar in a history of calls. *)
From Coq Require Import Reals Lra Lia List Bool Arith ZArith String Ascii Classical.
From Verif Require Import Num NumLemmas Arr ArrLemmas MomArr PyStr Cube Base Parametric GrowingDisk Stream Spec SpecLemmas Repr CubeLemmas CubeGeom CondLemmas VecLemmas
  Fft Ssps SspLemmas Datacube ParYbar FourierSpec FourierLemmas DatacubeSpec DatacubeLemmas DatacubeMain DatacubeClaims ParYbarSpec ParYbarLemmas
  ParSpec ParRepr ParSetSpec ParSetLemmas ParEnrich DiskLemmas StreamLemmas ParLemmas ParDist ParBuild ParClaims Life LifeSpec LifeShape LifeLemmas LifeClaims ParEval EvalSpec ParEvalLemmas FluxClaims.
Import ListNotations.
Local Open Scope R_scope.

(** ** components set up by their setters *)
Section Built.
Context (L : stats_lib) (c : cube) (g : grid) (X0 Y0 : map2d) (x0 y0 rot : R) (f : sfh_args).
Context (Hc : cube_on c g) (Hg : good_grid g) (Hxy0 : cube_xy c g X0 Y0) (Hf : sfh_ok L f) (HN : good_norm (norm_cdf L)).
Context (n : nat) (dv : R) (S : spectra) (HT : templates (c_ssps c) g n dv S) (Hdv : dv <> 0).

Lemma disk_datacube d batch : disk_ok d -> is_batch batch ->
  (exists x y, (x < nx g)%nat /\ (y < ny g)%nat /\ cos rot * (X0 x y - x0) <> sin rot * (Y0 x y - y0)) ->
  exists self m y, build_disk L c (x0, y0) rot f d = Ok self /\ par_on L self g m /\ good_par g m /\
    par_evaluate_ybar L self batch = Ok y /\ is_cube y n (nx g) (ny g) (par_datacube g (txz_mass g m) (pm_mu m) (pm_sig m) n dv S).
Proof.
  intros Hd Hb (x & y & Hx & Hy & Hne).
  set (X := fun x y => rot_x rot (X0 x y - fst (x0, y0)) (Y0 x y - snd (x0, y0))).
  assert (HM : 0 < max_abs g X).
  { apply Rlt_le_trans with (Rabs (X x y)); [|apply max_abs_ge; assumption]. apply Rabs_pos_lt.
    unfold X, rot_x. cbn [fst snd]. lra. }
  destruct (disk_built L c g X0 Y0 (x0, y0) rot f Hc Hg Hxy0 Hf HN d Hd HM) as (self & E & Ec & _ & _ & Hon & Hgood).
  rewrite <- Ec in HT. destruct (component_datacube L self g _ Hon Hg Hgood n dv S HT batch Hdv Hb) as (ya & Ey & Hy').
  eexists self, _, ya. repeat (split; [eassumption|]). exact Hy'.
Qed.
Lemma stream_datacube d batch : stream_ok d -> is_batch batch ->
  exists self m y, build_stream L c (x0, y0) rot f d = Ok self /\ par_on L self g m /\ good_par g m /\
    par_evaluate_ybar L self batch = Ok y /\ is_cube y n (nx g) (ny g) (par_datacube g (txz_mass g m) (pm_mu m) (pm_sig m) n dv S).
Proof.
  intros Hd Hb.
  destruct (stream_built L c g X0 Y0 (x0, y0) rot f Hc Hg Hxy0 Hf HN d Hd) as (self & E & Ec & _ & _ & Hon & Hgood).
  rewrite <- Ec in HT. destruct (component_datacube L self g _ Hon Hg Hgood n dv S HT batch Hdv Hb) as (ya & Ey & Hy').
  eexists self, _, ya. repeat (split; [eassumption|]). exact Hy'.
Qed.
End Built.

(** ** which setters evaluate_ybar needs *)
Section Needs.
Context (L : stats_lib) (s0 : par) (g : grid) (F : fresh s0 g).
Context (n : nat) (dv : R) (S : spectra) (HT : templates (c_ssps (pa_cube s0)) g n dv S).

Definition ready (self : par) (done : setter -> bool) (batch : string) : Prop :=
  (all_done needs_dist done = false -> par_evaluate_ybar L self batch = Err AttributeError) /\
  (all_done needs_dist done = true -> ~ is_batch batch -> par_evaluate_ybar L self batch = Err ValueError) /\
  (is_batch batch -> all_done needs_all done = false -> par_evaluate_ybar L self batch = Err AttributeError) /\
  (is_batch batch -> all_done needs_all done = true ->
    exists y, par_evaluate_ybar L self batch = Ok y /\ shp y = [n; nx g; ny g]).

Lemma ready_of self (bt bx bz bm bs : bool) done batch : cube_on (pa_cube self) g -> pa_cube self = pa_cube s0 ->
  held bt [nt g] (pa_log_p_t self) -> held bx [nx g; ny g; nt g] (pa_log_p_x_t self) -> held bz [nz g; nt g; nx g; ny g] (pa_log_p_z_tx self) ->
  held bm [nt g; nx g; ny g] (pa_mu_v self) -> held bs [nt g; nx g; ny g] (pa_sig_v self) ->
  done Kt = bt -> done Kx = bx -> done Kz = bz -> done Kmu = bm -> done Ksig = bs -> ready self done batch.
Proof.
  intros Hc Ec Ht Hx Hz Hm Hs Dt Dx Dz Dm Ds. rewrite <- Ec in HT.
  destruct (evaluate_ready L self g bt bx bz bm bs Hc (fr_g _ _ F) Ht Hx Hz Hm Hs n dv S HT batch) as (R1 & R2 & R3 & R4).
  assert (E1 : all_done needs_dist done = (bt && bx && bz)%bool) by (unfold all_done; cbn; rewrite Dt, Dx, Dz; destruct bt, bx, bz; reflexivity).
  assert (E2 : all_done needs_all done = (bt && bx && bz && (bm && bs))%bool)
    by (unfold all_done; cbn; rewrite Dt, Dx, Dz, Dm, Ds; destruct bt, bx, bz, bm, bs; reflexivity).
  unfold ready. rewrite E1, E2. split; [exact R1|]. split; [exact R2|]. destruct (bt && bx && bz)%bool; cbn [andb].
  - split; [intros; apply R3; auto|intros; apply R4; auto].
  - split; [intros; apply R1; reflexivity|discriminate].
Qed.

Lemma disk_ready h batch : ready (disk_after L s0 h) (disk_done (disk_history h)) batch.
Proof.
  rewrite (after_denote L s0 g F). pose proof (well_history h) as W.
  eapply ready_of; try reflexivity.
  - exact (fr_c _ _ F).
  - eapply held_t; eassumption.
  - eapply held_x; eassumption.
  - eapply held_z; eassumption.
  - eapply held_mu; eassumption.
  - eapply held_sig; eassumption.
Qed.
Lemma stream_ready h batch : ready (stream_after L s0 h) (stream_done (stream_history h)) batch.
Proof.
  rewrite (s_after_denote L s0 g F). pose proof (s_well_history h) as W.
  eapply ready_of; try reflexivity.
  - exact (fr_c _ _ F).
  - eapply s_held_t; eassumption.
  - eapply s_held_x; eassumption.
  - eapply s_held_z; eassumption.
  - eapply s_held_mu; eassumption.
  - eapply s_held_sig; eassumption.
Qed.
End Needs.

(** ** total flux *)
Section Flux.
Context (g : grid) (m : par_model) (Hm : good_par g m) (n : nat) (dv : R) (S : spectra) (Hn : (0 < n)%nat).

(** templates whose flux depends on age only *)
Lemma by_age_flux (A : nat -> R) : (forall t z, (t < nt g)%nat -> (z < nz g)%nat -> Sum n (S t z) = A t) ->
  all_flux n (nx g) (ny g) (par_datacube g (txz_mass g m) (pm_mu m) (pm_sig m) n dv S) = Sum (nt g) (fun t => pm_t m t * wid (tE g) t * A t).
Proof.
  intros HA. unfold all_flux, pixel_flux.
  erewrite Sum_ext; [|intros i _; apply Sum_ext; intros j _; apply par_flux_claim; exact Hn].
  rewrite Sum_pixels. apply Sum_ext. intros t Ht.
  transitivity (Sum (nx g) (fun i => Sum (ny g) (fun j => (pm_x m t i j * (wid (xE g) i * wid (yE g) j)) * (pm_t m t * wid (tE g) t * A t)))).
  - apply Sum_ext. intros i Hi. apply Sum_ext. intros j Hj.
    transitivity (Sum (nz g) (fun z => (pm_z m t i j z * wid (zE g) z) * ((pm_x m t i j * (wid (xE g) i * wid (yE g) j)) * (pm_t m t * wid (tE g) t * A t)))).
    + apply Sum_ext. intros z Hz. rewrite HA by assumption. unfold txz_mass. ring.
    + rewrite Sum_scal_r, (gp_z1 _ _ Hm) by assumption. ring.
  - erewrite Sum_ext; [|intros i _; apply Sum_scal_r]. rewrite Sum_scal_r, (gp_x1 _ _ Hm) by assumption. ring.
Qed.
End Flux.

Lemma cube_flux_ext n nx ny y D D' : is_cube y n nx ny D -> is_cube y n nx ny D' -> all_flux n nx ny D = all_flux n nx ny D'.
Proof.
  intros [_ H] [_ H']. unfold all_flux, pixel_flux. apply Sum_ext. intros i Hi. apply Sum_ext. intros j Hj. apply Sum_ext. intros w Hw.
  specialize (H w i j Hw Hi Hj). rewrite H' in H by assumption. injection H as ->. reflexivity.
Qed.

(** ** mixtures of parametric components *)
Lemma par_mixture L g n dv S batch (K : list (par * R * par_model)) : K <> [] -> good_grid g -> dv <> 0 -> is_batch batch ->
  Forall (fun k => par_on L (fst (fst k)) g (snd k) /\ good_par g (snd k) /\ templates (c_ssps (pa_cube (fst (fst k)))) g n dv S) K ->
  let total w i j := sumR (map (fun k => snd (fst k) * par_datacube g (txz_mass g (snd k)) (pm_mu (snd k)) (pm_sig (snd k)) n dv S w i j) K) in
  exists ys y, map_res (fun k => par_evaluate_ybar L (fst (fst k)) batch) K = Ok ys /\
    mixture_ybar (map Some ys) (map (fun k => Fin (snd (fst k))) K) = Ok y /\ is_cube y n (nx g) (ny g) total /\
    forall i j, pixel_flux n total i j =
      sumR (map (fun k => snd (fst k) * Sum (nt g) (fun t => Sum (nz g) (fun z => txz_mass g (snd k) t i j z * Sum n (S t z)))) K).
Proof.
  intros Hne Hg Hdv Hb HK total.
  assert (E : exists M : list (arr num * R * (nat -> nat -> nat -> R)),
     map_res (fun k => par_evaluate_ybar L (fst (fst k)) batch) K = Ok (map (fun k => fst (fst k)) M) /\
     map (fun k => snd (fst k)) M = map (fun k => snd (fst k)) K /\
     Forall (fun k => is_cube (fst (fst k)) n (nx g) (ny g) (snd k)) M /\ (K <> [] -> M <> []) /\
     forall w i j, map (fun k => snd (fst k) * snd k w i j) M =
       map (fun k => snd (fst k) * par_datacube g (txz_mass g (snd k)) (pm_mu (snd k)) (pm_sig (snd k)) n dv S w i j) K).
  { clear Hne total. induction HK as [|[[p c] m] K (H1 & H2 & H3) HK IH].
    - exists []. repeat split; try reflexivity; [constructor|congruence].
    - destruct IH as (M & E1 & E2 & E3 & _ & E4). cbn [fst snd] in *.
      destruct (component_datacube L p g m H1 Hg H2 n dv S H3 batch Hdv Hb) as (y & Ey & Hy).
      exists ((y, c, par_datacube g (txz_mass g m) (pm_mu m) (pm_sig m) n dv S) :: M). cbn [map_res fst snd map]. rewrite Ey. cbn [bind]. rewrite E1. cbn [bind].
      split; [reflexivity|]. split; [rewrite E2; reflexivity|]. split; [constructor; assumption|]. split; [congruence|].
      intros w i j. rewrite E4. reflexivity. }
  destruct E as (M & E1 & E2 & E3 & E5 & E4).
  destruct (mixture_ybar_claim n (nx g) (ny g) M (E5 Hne) E3) as (y & Ey & Hy).
  exists (map (fun m => fst (fst m)) M), y. split; [exact E1|].
  assert (E2' : map (fun k => Fin (snd (fst k))) K = map (fun k => Fin (snd (fst k))) M).
  { transitivity (map Fin (map (fun k => snd (fst k)) K)); [rewrite map_map; reflexivity|]. rewrite <- E2, map_map. reflexivity. }
  split; [rewrite map_map, E2'; exact Ey|]. split.
  { destruct Hy as [Hs He]. split; [exact Hs|]. intros w i j Hw Hi Hj. rewrite He by assumption. cbv beta. rewrite E4. reflexivity. }
  intros i j. unfold pixel_flux, total. clear Hne E1 E2 E3 E4 E5 E2' Ey Hy total M y.
  induction HK as [|[[p c] m] K (H1 & H2 & H3) HK IH]; cbn [map sumR fold_right fst snd].
  - rewrite Sum_0. reflexivity.
  - change (fold_right Rplus 0) with sumR in *. rewrite Sum_plus, IH, Sum_scal. f_equal. f_equal. apply par_flux_claim. apply H3.
Qed.

(** ** histories with evaluations *)
Lemma setters_app {C} (h h' : list (call C)) : setters (h ++ h') = setters h ++ setters h'.
Proof. induction h as [|[c|b] h IH]; cbn [setters app]; [reflexivity|rewrite IH; reflexivity|exact IH]. Qed.

Section History.
Context {C : Type} (L : stats_lib) (set : par -> C -> par * res unit) (s0 : par).
Definition after (l : list C) : par := fold_left (fun s c => fst (set s c)) l s0.

Lemma observe_snoc h k : observe_all L set s0 (h ++ [k]) = fst (observe L set (observe_all L set s0 h) k).
Proof. unfold observe_all. rewrite fold_left_app. reflexivity. Qed.
Lemma after_snoc l c : after (l ++ [c]) = fst (set (after l) c).
Proof. unfold after. rewrite fold_left_app. reflexivity. Qed.

Lemma observed_par h : ob_par (observe_all L set s0 h) = after (setters h).
Proof.
  induction h as [|k h IH] using rev_ind; [reflexivity|]. rewrite observe_snoc, setters_app. destruct k as [c|b]; cbn [observe setters].
  - rewrite after_snoc, <- IH. destruct (set (ob_par _) c); reflexivity.
  - rewrite app_nil_r, <- IH. destruct (par_evaluate_ybar L _ b); reflexivity.
Qed.
Lemma observed_says h k : snd (observe L set (observe_all L set s0 h) k) =
  match k with CSet c => snd (set (after (setters h)) c)
  | CEval b => match par_evaluate_ybar L (after (setters h)) b with Ok _ => Ok tt | Err e => Err e end end.
Proof.
  destruct k as [c|b]; cbn [observe]; rewrite observed_par.
  - destruct (set (after (setters h)) c); reflexivity.
  - destruct (par_evaluate_ybar L _ b); reflexivity.
Qed.

(** every evaluation in h2, coming after h1, fails *)
Definition all_fail (h1 h2 : list (call C)) : Prop :=
  forall h3 b h4, h2 = h3 ++ CEval b :: h4 -> exists e, par_evaluate_ybar L (after (setters (h1 ++ h3))) b = Err e.

Lemma snoc_split {A} (h : list A) k h3 b h4 : h ++ [k] = h3 ++ b :: h4 ->
  (h4 = [] /\ h3 = h /\ b = k) \/ exists h5, h4 = h5 ++ [k] /\ h = h3 ++ b :: h5.
Proof.
  intros E. destruct h4 as [|x h4] using rev_ind.
  - left. apply app_inj_tail in E as [-> ->]. auto.
  - right. clear IHh4. exists h4. change (b :: h4 ++ [x]) with ((b :: h4) ++ [x]) in E. rewrite app_assoc in E. apply app_inj_tail in E as [-> ->]. auto.
Qed.
Lemma all_fail_snoc h1 h2 k : all_fail h1 (h2 ++ [k]) <->
  all_fail h1 h2 /\ match k with CEval b => exists e, par_evaluate_ybar L (after (setters (h1 ++ h2))) b = Err e | _ => True end.
Proof.
  unfold all_fail. split.
  - intros H. split.
    + intros h3 b h4 ->. apply (H h3 b (h4 ++ [k])). rewrite <- app_assoc. reflexivity.
    + destruct k as [c|b]; [exact I|]. apply (H h2 b []). reflexivity.
  - intros [H1 H2] h3 b h4 E. apply snoc_split in E as [(-> & -> & <-)|(h5 & -> & ->)]; [exact H2|]. apply (H1 h3 b h5). reflexivity.
Qed.

Lemma observed_none h : ob_ybar (observe_all L set s0 h) = None <-> all_fail [] h.
Proof.
  induction h as [|k h IH] using rev_ind.
  - split; [|reflexivity]. intros _ h3 b h4 E. destruct h3; discriminate E.
  - rewrite observe_snoc, all_fail_snoc, <- IH. cbn [app]. destruct k as [c|b]; cbn [observe].
    + destruct (set (ob_par _) c). cbn [fst ob_ybar]. tauto.
    + rewrite observed_par. destruct (par_evaluate_ybar L (after (setters h)) b) as [y|e]; cbn [fst ob_ybar].
      * split; [discriminate|]. intros [_ (e & E)]. discriminate E.
      * split; [intros H; split; [exact H|eauto]|tauto].
Qed.
Lemma observed_some h y : ob_ybar (observe_all L set s0 h) = Some y <->
  exists h1 b h2, h = h1 ++ CEval b :: h2 /\ par_evaluate_ybar L (after (setters h1)) b = Ok y /\ all_fail (h1 ++ [CEval b]) h2.
Proof.
  revert y. induction h as [|k h IH] using rev_ind; intros y.
  - split; [discriminate|]. intros (h1 & b & h2 & E & _). destruct h1; discriminate E.
  - rewrite observe_snoc. split.
    + intros H. destruct k as [c|b]; cbn [observe] in H.
      * assert (K : ob_ybar (observe_all L set s0 h) = Some y) by (destruct (set (ob_par _) c); exact H).
        apply IH in K as (h1 & b & h2 & -> & Ey & HF). exists h1, b, (h2 ++ [CSet c]). rewrite <- app_assoc. split; [reflexivity|]. split; [exact Ey|].
        apply all_fail_snoc. split; [exact HF|exact I].
      * rewrite observed_par in H. destruct (par_evaluate_ybar L (after (setters h)) b) as [y'|e] eqn:E; cbn [fst ob_ybar] in H.
        { injection H as ->. exists h, b, []. split; [reflexivity|]. split; [exact E|]. intros h3 b' h4 Q. destruct h3; discriminate Q. }
        apply IH in H as (h1 & b' & h2 & -> & Ey & HF). exists h1, b', (h2 ++ [CEval b]). rewrite <- app_assoc. split; [reflexivity|]. split; [exact Ey|].
        apply all_fail_snoc. split; [exact HF|]. exists e. rewrite <- app_assoc. exact E.
    + intros (h1 & b & h2 & E & Ey & HF). apply snoc_split in E as [(-> & -> & <-)|(h5 & -> & ->)].
      * cbn [observe]. rewrite observed_par, Ey. reflexivity.
      * apply all_fail_snoc in HF as [HF HK].
        assert (K : ob_ybar (observe_all L set s0 (h1 ++ CEval b :: h5)) = Some y) by (apply IH; exists h1, b, h5; auto).
        destruct k as [c|b']; cbn [observe].
        { destruct (set (ob_par _) c); exact K. }
        destruct HK as (e & Ee). rewrite observed_par. rewrite <- app_assoc in Ee. cbn [app] in Ee. rewrite Ee. exact K.
Qed.
End History.

(** ** ybar after another star formation history has been set *)
Lemma all_flux_differ n nx ny y y' D D' : is_cube y n nx ny D -> is_cube y' n nx ny D' -> all_flux n nx ny D <> all_flux n nx ny D' ->
  exists w i j, (w < n)%nat /\ (i < nx)%nat /\ (j < ny)%nat /\ ent y [w; i; j] <> ent y' [w; i; j].
Proof.
  intros [_ H] [_ H'] Hne. apply NNPP. intros K. apply Hne. unfold all_flux, pixel_flux.
  apply Sum_ext. intros i Hi. apply Sum_ext. intros j Hj. apply Sum_ext. intros w Hw.
  destruct (classic (ent y [w; i; j] = ent y' [w; i; j])) as [E|E].
  - rewrite H, H' in E by assumption. injection E as ->. reflexivity.
  - exfalso. apply K. exists w, i, j. auto.
Qed.

Lemma stale_claim L self g m n dv S A f b b' : par_on L self g m -> good_grid g -> good_par g m ->
  templates (c_ssps (pa_cube self)) g n dv S -> dv <> 0 -> (forall t z, (t < nt g)%nat -> (z < nz g)%nat -> Sum n (S t z) = A t) ->
  sfh_ok L f -> is_batch b -> is_batch b' ->
  Sum (nt g) (fun t => pm_t m t * wid (tE g) t * A t) <> Sum (nt g) (fun t => sfh_mass g (sfh_cdf L f) t * A t) ->
  let o := observe_all L (disk_step L) self [CEval b; CSet (DPt (sa_lmd f) (sa_phi f) (sa_se f))] in
  exists y y', ob_ybar o = Some y /\ par_evaluate_ybar L (ob_par o) b' = Ok y' /\
    exists w i j, (w < n)%nat /\ (i < nx g)%nat /\ (j < ny g)%nat /\ ent y [w; i; j] <> ent y' [w; i; j].
Proof.
  intros H Hg Hm HT Hdv HA Hf Hb Hb' Hne o.
  destruct (component_datacube L self g m H Hg Hm n dv S HT b Hdv Hb) as (y & Ey & Hy).
  destruct (set_age_ok L self g f (po_cube _ _ _ _ H) Hg Hf) as (a & Ea & Ha & _). unfold set_age in Ea.
  set (p := with_p_t self _ _ a) in Ea.
  set (m' := ParModel (fun t => sfh_mass g (sfh_cdf L f) t / wid (tE g) t) (pm_x m) (pm_z m) (pm_mu m) (pm_sig m) (pm_F m)).
  assert (Hm' : good_par g m').
  { destruct Hm. constructor; cbn [m' pm_t pm_x pm_z pm_mu pm_sig pm_F]; try assumption.
    intros t Ht. apply Rle_mult_inv_pos; [|apply (wid_pos _ _ _ (gg_tE _ Hg) Ht)]. apply sfh_nonneg; try assumption. apply (so_cdf _ _ Hf). }
  assert (H' : par_on L p g m').
  { destruct H as [P1 P2 P3 P4 P5 P6 P7]. constructor; try assumption. exists a. split; [reflexivity|]. split; [exact (proj1 Ha)|].
    intros t Ht. exact (proj2 Ha [t] ltac:(repeat constructor; assumption)). }
  destruct (component_datacube L p g m' H' Hg Hm' n dv S HT b' Hdv Hb') as (y' & Ey' & Hy').
  assert (E2 : disk_step L self (DPt (sa_lmd f) (sa_phi f) (sa_se f)) = (p, Ok tt)) by (unfold disk_step; rewrite Ea; reflexivity).
  exists y, y'. unfold o, observe_all. cbn [fold_left]. unfold observe at 2 4. cbn [ob_par]. rewrite Ey. cbn [fst observe ob_par ob_ybar]. rewrite E2. cbn [fst ob_ybar ob_par].
  split; [reflexivity|]. split; [exact Ey'|]. eapply all_flux_differ; [exact Hy|exact Hy'|].
  rewrite (by_age_flux g m Hm n dv S (tp_n _ _ _ _ _ HT) A HA), (by_age_flux g m' Hm' n dv S (tp_n _ _ _ _ _ HT) A HA). cbn [m' pm_t].
  intros E. apply Hne. rewrite E. apply Sum_ext. intros t Ht. pose proof (wid_pos _ _ _ (gg_tE _ Hg) Ht). field. lra.
Qed.
