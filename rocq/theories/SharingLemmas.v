(** * SharingLemmas: claim C65, and the templates left on the SSP object by a cube. *)
From Coq Require Import Reals Lra Lia List Bool Arith ZArith String Ascii Sorted Classical.
From Verif Require Import Num NumLemmas Arr ArrLemmas MomArr PyStr Cube Base Spec SpecLemmas Repr CubeLemmas BaseLemmas CondLemmas
  DistLemmas VecLemmas Fft ReadMiles Ssps SspLemmas SspFlow CubeGeom Noise Datacube FourierSpec FourierLemmas DatacubeSpec DatacubeLemmas VelocityLemmas
  DatacubeMain DatacubeClaims ParYbar ParYbarSpec ParYbarLemmas Sharing.
Import ListNotations.
Local Open Scope R_scope.

Lemma cube_init_see s s' nx1 nx2 nvel x1 x2 v c : cube_init s nx1 nx2 nvel x1 x2 v = Ok c ->
  cube_init s' nx1 nx2 nvel x1 x2 v = Ok (see c s').
Proof.
  unfold cube_init. intros H.
  repeat match type of H with bind ?a _ = _ => destruct a; cbn [bind] in H |- *; [|discriminate H] end.
  injection H as <-. reflexivity.
Qed.
Lemma see_ssps c s : c_ssps (see c s) = s. Proof. reflexivity. Qed.

(** interpolation gives finite numbers from finite numbers *)
Definition finite_spline (spline : list R -> list num -> R -> num) : Prop :=
  forall knots vals w, (forall x, In x vals -> exists r, x = Fin r) -> exists r, spline knots vals w = Fin r.

(** templates on which cubes can be built *)
Record ssp_object (mg : mgrid) (g : grid) (nL : nat) (F : nat -> nat -> nat -> R) : Prop := {
  sb_on : templates_on mg nL (nz g) (nt g) (zE g) (tE g) F;
  sb_n : (4 <= List.length (g_lmd mg))%nat;
  sb_sorted : StronglySorted Rlt (g_lmd mg);
  sb_pos : forall w, In w (g_lmd mg) -> 0 < w;
  sb_light : forall t z, (t < nt g)%nat -> (z < nz g)%nat -> Lw g t z = Sum nL (fun l => F l z t)
}.

Lemma resample_templates spline dv mg g nL F : finite_spline spline -> ssp_object mg g nL F -> 0 < dv ->
  exists s S, resample spline dv mg = Ok s /\ ssps_on s g /\ templates s g (n_fft s) dv S.
Proof.
  intros Hsp [Hon Hlen Hso Hpos Hl] Hdv.
  destruct (resample_ok spline dv mg nL (nz g) (nt g) (zE g) (tE g) F Hon Hdv Hlen Hso Hpos)
    as (s & Es & Hn & HX & HF & Hd & A1 & A2 & A3 & A4 & A5 & A6 & A7 & A8 & A9).
  assert (HS : forall w c, (w < n_fft s)%nat -> (c < nz g * nt g)%nat -> exists r, ent (Xw s) [w; c] = Fin r).
  { intros w c Hw Hc. unfold resample in Es. destruct (np_min _) as [lo|]; cbn [bind] in Es; [|discriminate]. destruct (np_max _) as [hi|]; cbn [bind] in Es; [|discriminate].
    destruct (Nat.ltb _ 4); [discriminate|]. destruct (Reqb _ 0); [discriminate|].
    destruct (rfft _ _) as [fx|]; cbn [bind] in Es; [|discriminate]. destruct (get_light_weights mg); cbn [bind] in Es; [|discriminate].
    injection Es as <-. cbn [Xw ent]. apply Hsp. intros x Hx. apply in_map_iff in Hx as (k & <- & Hk). apply in_seq in Hk.
    unfold len0 in Hk. rewrite (to_xs _ _ _ _ _ _ _ Hon) in Hk. cbn [hd nth] in Hk.
    assert (0 < nt g)%nat by nia.
    rewrite (Nat.div_mod c (nt g)) by lia. eexists. rewrite (Nat.mul_comm (nt g)). apply (to_x _ _ _ _ _ _ _ Hon).
    - lia.
    - apply Nat.div_lt_upper_bound; lia.
    - apply Nat.mod_upper_bound. lia. }
  assert (HD : forall k c, (k < n_fft s / 2 + 1)%nat -> (c < nz g * nt g)%nat -> ent (FXw s) [k; c] = dft (n_fft s) (n_fft s) (fun w => ent (Xw s) [w; c]) k).
  { intros k c Hk Hc. unfold resample in Es. destruct (np_min _) as [lo|]; cbn [bind] in Es; [|discriminate]. destruct (np_max _) as [hi|]; cbn [bind] in Es; [|discriminate].
    destruct (Nat.ltb _ 4); [discriminate|]. destruct (Reqb _ 0); [discriminate|].
    unfold rfft in Es. destruct (Nat.eqb _ 0); [discriminate|]. cbn [T shp rev app] in Es. cbn [bind] in Es.
    destruct (get_light_weights mg); cbn [bind] in Es; [|discriminate].
    injection Es as <-. cbn [FXw Xw n_fft T ent rev app removelast last last_dim shp]. reflexivity. }
  exists s, (fun t z w => match ent (Xw s) [w; (z * nt g + t)%nat] with Fin r => r | _ => 0 end). split; [exact Es|]. split.
  - constructor; try assumption; try (rewrite Nat.add_1_r; assumption). intros t z Ht Hz. rewrite A9 by assumption. rewrite Hl by assumption. reflexivity.
  - constructor; try assumption; try reflexivity. intros t z w Ht Hz Hw. destruct (HS w (z * nt g + t)%nat Hw ltac:(nia)) as [r ->]. reflexivity.
Qed.

(** ** sequences of constructions *)
Definition good_args (a : cube_args) : Prop :=
  (0 < a_nx1 a)%nat /\ (0 < a_nx2 a)%nat /\ (0 < a_nv a)%nat /\
  fst (a_x1 a) < snd (a_x1 a) /\ fst (a_x2 a) < snd (a_x2 a) /\ fst (a_v a) < snd (a_v a).
Definition width (a : cube_args) : R := (snd (a_v a) - fst (a_v a)) / INR (a_nv a).
Definition args_grid (g : grid) (a : cube_args) : grid := cube_grid g (a_nx1 a) (a_nx2 a) (a_nv a) (a_x1 a) (a_x2 a) (a_v a).

Lemma width_pos a : good_args a -> 0 < width a.
Proof. intros (_ & _ & H3 & _ & _ & H6). unfold width. apply Rdiv_lt_0_compat; [lra|]. apply lt_0_INR. exact H3. Qed.

(** the cube of arguments [a], seeing attributes [s] *)
Definition cube_of (a : cube_args) (c : cube) : Prop :=
  cube_init blank (a_nx1 a) (a_nx2 a) (a_nv a) (a_x1 a) (a_x2 a) (a_v a) = Ok c.

Lemma cube_of_on a c s g : cube_of a c -> good_args a -> ssps_on s g -> cube_on (see c s) (args_grid g a).
Proof.
  intros Hc (H1 & H2 & H3 & _) Hs. destruct (cube_init_ok s g _ _ _ (a_x1 a) (a_x2 a) (a_v a) Hs H1 H2 H3) as (c' & E & Hon & _).
  rewrite (cube_init_see _ s _ _ _ _ _ _ _ Hc) in E. injection E as <-. exact Hon.
Qed.

Lemma build_ok spline w a g nL F : finite_spline spline -> ssp_object (w_grid w) g nL F -> good_args a ->
  exists c s S, build spline w a = Ok (World (w_grid w) (Some s) (w_cubes w ++ [c])) /\ cube_of a c /\
    resample spline (width a) (w_grid w) = Ok s /\ ssps_on s g /\ templates s g (n_fft s) (width a) S.
Proof.
  intros Hsp Ho Ha. pose proof (width_pos a Ha) as Hw. destruct (resample_templates spline (width a) (w_grid w) g nL F Hsp Ho Hw) as (s & S & Es & Hs & HT).
  pose proof Ha as (H1 & H2 & H3 & _).
  destruct (cube_init_ok s g _ _ _ (a_x1 a) (a_x2 a) (a_v a) Hs H1 H2 H3) as (c' & E & Hon & _).
  apply (cube_init_see _ blank) in E.
  exists (see c' blank), s, S. split; [|split; [exact E|split; [exact Es|split; [exact Hs|exact HT]]]].
  unfold build. rewrite E. cbn [bind see c_v_edg].
  destruct (vec_get _ _ _ 1 (co_v _ _ Hon) ltac:(cbn; lia)) as (e1 & E1 & V1).
  destruct (vec_get _ _ _ 0 (co_v _ _ Hon) ltac:(cbn; lia)) as (e0 & E0 & V0).
  change (Z.of_nat 1) with 1%Z in E1. change (Z.of_nat 0) with 0%Z in E0. rewrite E1. cbn [bind]. rewrite E0. cbn [bind].
  rewrite V1, V0, nsub_Fin. cbn [args_grid cube_grid vE].
  replace (lin (fst (a_v a)) (snd (a_v a)) (a_nv a) 1 - lin (fst (a_v a)) (snd (a_v a)) (a_nv a) 0) with (width a).
  - rewrite Es. reflexivity.
  - symmetry. exact (lin_wid (fst (a_v a)) (snd (a_v a)) (a_nv a) 0).
Qed.

Lemma builds_ok spline g nL F l : finite_spline spline -> Forall good_args l -> forall w, ssp_object (w_grid w) g nL F ->
  exists w' cs, builds spline w l = Ok w' /\ w_grid w' = w_grid w /\ w_cubes w' = w_cubes w ++ cs /\ Forall2 cube_of l cs /\
    (l = [] -> w_now w' = w_now w) /\
    (forall a l', l = l' ++ [a] -> exists s S, w_now w' = Some s /\ resample spline (width a) (w_grid w) = Ok s /\ ssps_on s g /\ templates s g (n_fft s) (width a) S).
Proof.
  intros Hsp Hl. induction Hl as [|a l Ha Hl IH]; intros w Hw.
  - exists w, []. cbn [builds]. rewrite app_nil_r. repeat split; try reflexivity; [constructor|]. intros a l' E. destruct l'; discriminate E.
  - destruct (build_ok spline w a g nL F Hsp Hw Ha) as (c & s & S & Eb & Hc & Es & Hs & HT).
    cbn [builds]. rewrite Eb. cbn [bind].
    destruct (IH (World (w_grid w) (Some s) (w_cubes w ++ [c])) Hw) as (w' & cs & E & G1 & G2 & G3 & G4 & G5). cbn [w_grid w_cubes w_now] in *.
    exists w', (c :: cs). split; [exact E|]. split; [exact G1|]. split; [rewrite G2, <- app_assoc; reflexivity|].
    split; [constructor; assumption|]. split; [discriminate|]. intros a0 l' Hl'. destruct l' as [|b l'].
    + cbn in Hl'. injection Hl' as -> ->. exists s, S. split; [apply G4; reflexivity|]. auto.
    + cbn in Hl'. injection Hl' as -> ->. apply (G5 a0 l'). reflexivity.
Qed.

(** after the constructions [l ++ [last]], every cube reads the attributes resampled for the last one *)
Lemma last_wins_claim spline mg g nL F l a : finite_spline spline -> ssp_object mg g nL F -> Forall good_args (l ++ [a]) ->
  exists w s S, builds spline (World mg None []) (l ++ [a]) = Ok w /\ resample spline (width a) mg = Ok s /\
    templates s g (n_fft s) (width a) S /\
    forall k b, nth_error (l ++ [a]) k = Some b -> exists c, the_cube w k = Some c /\ c_ssps c = s /\ cube_on c (args_grid g b).
Proof.
  intros Hsp Ho Hl. destruct (builds_ok spline g nL F _ Hsp Hl (World mg None []) Ho) as (w & cs & E & _ & G2 & G3 & _ & G5).
  cbn [w_grid w_cubes] in *. destruct (G5 a l eq_refl) as (s & S & Gn & Es & Hs & HT).
  exists w, s, S. split; [exact E|]. split; [exact Es|]. split; [exact HT|]. intros k b Hk.
  assert (Hc : exists c, nth_error cs k = Some c /\ cube_of b c).
  { clear - G3 Hk. revert k Hk. induction G3 as [|x y l1 l2 Hxy _ IH]; intros k Hk; [destruct k; discriminate|].
    destruct k; cbn in *; [injection Hk as ->; exists y; auto|]. apply IH. exact Hk. }
  destruct Hc as (c & Hc & Hbc). exists (see c s). unfold the_cube. rewrite G2, Gn. cbn [app]. rewrite Hc.
  split; [reflexivity|]. split; [reflexivity|]. apply cube_of_on; [exact Hbc| |exact Hs].
  rewrite Forall_forall in Hl. apply Hl. eapply nth_error_In. exact Hk.
Qed.

(** base: a cube whose bins differ in width from the last one's is refused *)
Lemma shared_base_claim spline mg g nL F l a k b : finite_spline spline -> ssp_object mg g nL F -> Forall good_args (l ++ [a]) ->
  nth_error (l ++ [a]) k = Some b -> ~ close (width b) (width a) ->
  (exists v, (v < a_nv b)%nat /\ close (mid (lin (fst (a_v b)) (snd (a_v b)) (a_nv b)) v) 0) ->
  exists w c, builds spline (World mg None []) (l ++ [a]) = Ok w /\ the_cube w k = Some c /\
    forall W logp batch f, comp_on (Component c logp) (args_grid g b) f -> evaluate_ybar W (Component c logp) batch = Err ValueError.
Proof.
  intros Hsp Ho Hl Hk Hcl Hz. destruct (last_wins_claim spline mg g nL F l a Hsp Ho Hl) as (w & s & S & E & _ & HT & Hc).
  destruct (Hc k b Hk) as (c & Ec & Ecs & Hon). exists w, c. split; [exact E|]. split; [exact Ec|]. intros W logp batch f Hcomp.
  apply (rejected_claim W _ (args_grid g b) f batch (width a) Hcomp).
  - cbn [comp_cube]. rewrite Ecs. exact (tp_dv _ _ _ _ _ HT).
  - exact Hz.
  - intros v0 Hv0. apply Hcl. destruct Hz as (v & Hv & _). pose proof (vo_width _ _ _ _ Hv0 v Hv) as H. cbn [args_grid cube_grid vE] in H.
    rewrite lin_wid in H. exact H.
Qed.

(** equal widths: nothing changes *)
Lemma same_width_claim spline mg g nL F l l' a a' k b : finite_spline spline -> ssp_object mg g nL F ->
  Forall good_args (l ++ [a]) -> Forall good_args (l' ++ [a']) -> width a = width a' ->
  nth_error (l ++ [a]) k = Some b -> nth_error (l' ++ [a']) k = Some b ->
  exists w w' c, builds spline (World mg None []) (l ++ [a]) = Ok w /\ builds spline (World mg None []) (l' ++ [a']) = Ok w' /\
    the_cube w k = Some c /\ the_cube w' k = Some c.
Proof.
  intros Hsp Ho Hl Hl' Hw Hk Hk'.
  destruct (builds_ok spline g nL F _ Hsp Hl (World mg None []) Ho) as (w & cs & E & _ & G2 & G3 & _ & G5).
  destruct (builds_ok spline g nL F _ Hsp Hl' (World mg None []) Ho) as (w' & cs' & E' & _ & G2' & G3' & _ & G5').
  cbn [w_grid w_cubes] in *. destruct (G5 a l eq_refl) as (s & S & Gn & Es & _). destruct (G5' a' l' eq_refl) as (s' & S' & Gn' & Es' & _).
  rewrite Hw in Es. assert (s' = s) by congruence. subst s'.
  assert (Q : forall L C, Forall2 cube_of L C -> nth_error L k = Some b -> exists c, nth_error C k = Some c /\ cube_of b c).
  { clear. intros L C H. revert k. induction H as [|x y l1 l2 Hxy _ IH]; intros k Hk; [destruct k; discriminate|].
    destruct k; cbn in *; [injection Hk as ->; exists y; auto|]. apply IH. exact Hk. }
  destruct (Q _ _ G3 Hk) as (c & Hc & Hb). destruct (Q _ _ G3' Hk') as (c' & Hc' & Hb'). unfold cube_of in Hb, Hb'. assert (c' = c) by congruence. subst c'.
  exists w, w', (see c s). split; [exact E|]. split; [exact E'|]. unfold the_cube. rewrite G2, G2', Gn, Gn'. cbn [app]. rewrite Hc, Hc'. auto.
Qed.

(** parametric: the evaluation succeeds, with the pixels of the last cube *)
Lemma shared_par_claim spline mg g nL F l a k b P mu sig P_txz mu_v sig_v batch : finite_spline spline -> ssp_object mg g nL F -> good_grid g ->
  Forall good_args (l ++ [a]) -> nth_error (l ++ [a]) k = Some b -> is_batch batch ->
  arr_is P_txz [nt g; a_nx1 b; a_nx2 b; nz g] (fun idx => match idx with [t; x; y; z] => Fin (P t x y z) | _ => NaN end) ->
  arr_is mu_v [nt g; a_nx1 b; a_nx2 b] (fun idx => match idx with [t; x; y] => Fin (mu t x y) | _ => NaN end) ->
  arr_is sig_v [nt g; a_nx1 b; a_nx2 b] (fun idx => match idx with [t; x; y] => Fin (sig t x y) | _ => NaN end) ->
  exists w c s S y, builds spline (World mg None []) (l ++ [a]) = Ok w /\ the_cube w k = Some c /\
    resample spline (width a) mg = Ok s /\ templates s g (n_fft s) (width a) S /\
    par_evaluate c P_txz mu_v sig_v batch = Ok y /\
    is_cube y (n_fft s) (a_nx1 b) (a_nx2 b) (par_datacube (args_grid g b) P mu sig (n_fft s) (width a) S).
Proof.
  intros Hsp Ho Hgg Hl Hk Hb HP Hmu Hsig. destruct (last_wins_claim spline mg g nL F l a Hsp Ho Hl) as (w & s & S & E & Er & HT & Hc).
  destruct (Hc k b Hk) as (c & Ec & Ecs & Hon).
  assert (HT' : templates (c_ssps c) (args_grid g b) (n_fft s) (width a) S).
  { rewrite Ecs. destruct HT as [T1 T2 T3 T4 T5 T6 T7]. constructor; cbn [args_grid cube_grid nt nz]; assumption. }
  assert (Hgood : good_args a) by (rewrite Forall_forall in Hl; apply Hl; apply in_or_app; right; left; reflexivity).
  pose proof (width_pos a Hgood).
  destruct (par_evaluate_claim c (args_grid g b) (n_fft s) (width a) S P mu sig P_txz mu_v sig_v HT' ltac:(lra)
     (so_dims _ _ (co_ssps _ _ Hon)) ltac:(cbn; pose proof (gg_t _ Hgg); pose proof (gg_z _ Hgg); nia) (co_nx _ _ Hon) (co_ny _ _ Hon) HP Hmu Hsig batch Hb) as (y & Ey & Hy).
  exists w, c, s, S, y. repeat (split; [assumption|]). exact Hy.
Qed.
