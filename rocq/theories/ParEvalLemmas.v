(** * ParEvalLemmas: the datacube of a set-up parametric component. *)
From Coq Require Import Reals Lra Lia List Bool Arith ZArith String Ascii.
From Verif Require Import Num NumLemmas Arr ArrLemmas MomArr PyStr Cube Base Parametric GrowingDisk Stream Spec SpecLemmas Repr CubeLemmas CubeGeom CondLemmas VecLemmas
  Fft Ssps SspLemmas Datacube ParYbar FourierSpec FourierLemmas DatacubeSpec DatacubeLemmas DatacubeMain DatacubeClaims ParYbarSpec ParYbarLemmas
  ParSpec ParRepr ParSetSpec ParSetLemmas ParLemmas ParDist ParBuild ParClaims Life LifeSpec LifeShape LifeLemmas LifeClaims ParEval.
Import ListNotations.
Local Open Scope R_scope.

Lemma batch_known_is b : batch_known b = true <-> is_batch b.
Proof.
  unfold batch_known, is_batch. rewrite !orb_true_iff, !String.eqb_eq. tauto.
Qed.

Section Component.
Context (L : stats_lib) (self : par) (g : grid) (m : par_model).
Context (H : par_on L self g m) (Hg : good_grid g) (Hm : good_par g m).
Context (n : nat) (dv : R) (S : spectra) (HT : templates (c_ssps (pa_cube self)) g n dv S).

Lemma txz_arr : exists a, par_get_p L self "txz" false false = Ok a /\
  arr_is a [nt g; nx g; ny g; nz g] (fun idx => match idx with [t; x; y; z] => Fin (txz_mass g m t x y z) | _ => NaN end).
Proof.
  destruct (par_p_marg L self g m H Hg Hm (VSet true false true true) false false eq_refl) as (a & E & Hs & He); [intros Q; discriminate Q|].
  exists a. split; [exact E|]. split; [exact Hs|]. intros idx Hi. inb_inv.
  match goal with |- ent a [?t; ?x; ?y; ?z] = _ => specialize (He (Bin t 0%nat x y z)) end.
  cbn [coords has_t has_v has_x has_z opt app bt bv bx by_ bz] in He. rewrite He.
  - unfold pent, par_prob, marg, pgrid, pprob, pjoint. f_equal. cbn. rewrite !Rmult_1_r, ?Rplus_0_r, ?Rplus_0_l. field.
  - pose proof (gg_v _ Hg). unfold in_grid; cbn; lia.
Qed.
Lemma component_datacube batch : dv <> 0 -> is_batch batch ->
  exists y, par_evaluate_ybar L self batch = Ok y /\
    is_cube y n (nx g) (ny g) (par_datacube g (txz_mass g m) (pm_mu m) (pm_sig m) n dv S).
Proof.
  intros Hdv Hb. destruct txz_arr as (P & EP & HP). unfold par_evaluate_ybar. cbv zeta. rewrite EP. cbn [bind].
  destruct H as [Hc _ _ _ _ (mu & Emu & Smu & Vmu) (sg & Esg & Ssg & Vsg)].
  pose proof (co_ssps _ _ Hc) as Hss. pose proof (so_dims _ _ Hss) as Hd.
  assert (Htz : (0 < nz g * nt g)%nat) by (pose proof (gg_t _ Hg); pose proof (gg_z _ Hg); nia).
  destruct (template_arr (pa_cube self) g n dv S HT Htz (co_nx _ _ Hc) (co_ny _ _ Hc)) as (F & EF & _). rewrite Hd. cbn [fst snd]. rewrite EF. cbn [bind].
  rewrite (proj2 (batch_known_is batch) Hb), Emu, Esg. cbn [attr bind].
  apply (par_evaluate_claim (pa_cube self) g n dv S); try assumption.
  - apply (co_nx _ _ Hc).
  - apply (co_ny _ _ Hc).
  - split; [exact Smu|]. intros idx Hi. inb_inv. apply Vmu; assumption.
  - split; [exact Ssg|]. intros idx Hi. inb_inv. apply Vsg; assumption.
Qed.
End Component.

(** ** shapes and missing attributes *)
Section Ready.
Context (L : stats_lib) (self : par) (g : grid) (bt bx bz bm bs : bool).
Context (Hc : cube_on (pa_cube self) g) (Hg : good_grid g).
Context (Ht : held bt [nt g] (pa_log_p_t self)) (Hx : held bx [nx g; ny g; nt g] (pa_log_p_x_t self)).
Context (Hz : held bz [nz g; nt g; nx g; ny g] (pa_log_p_z_tx self)).
Context (Hm : held bm [nt g; nx g; ny g] (pa_mu_v self)) (Hs : held bs [nt g; nx g; ny g] (pa_sig_v self)).
Context (n : nat) (dv : R) (S : spectra) (HT : templates (c_ssps (pa_cube self)) g n dv S).
Let c := pa_cube self.
Let Hn : (0 < n)%nat := tp_n _ _ _ _ _ HT.

Lemma out_transform (mu sg om : arr num) s1 s2 s : shp mu = s1 -> shp sg = s1 -> shp om = s2 -> bshape s1 s2 = Some s -> bshape s s = Some s ->
  out true s (transform mu sg om).
Proof.
  intros H1 H2 H3 E E'. unfold transform.
  eapply out_bind_ok; [eapply out_bop; eassumption|]. intros a Ha.
  eapply out_bind_ok; [eapply out_bop; eassumption|]. intros b Hb.
  eapply out_bind_ok; [eapply out_bop; [exact Ha|cbn; exact Hb|exact E']|]. intros d Hd. apply out_ok. exact Hd.
Qed.
Lemma out_einsum s P F G w t z : shp G = [w; z; t] -> shp P = t :: s ++ [z] -> shp F = w :: t :: s -> out true (w :: s) (einsum s P F G).
Proof.
  intros E1 E2 E3. unfold einsum. rewrite E1, E2, E3, !natlist_eqb_refl. cbn [andb]. apply out_ok. reflexivity.
Qed.
Lemma out_irfft0 (a : arr cnum) d s k : shp a = d :: s -> (0 < k)%nat -> out true (k :: s) (irfft_ax a k 0).
Proof. intros E Hk. unfold irfft_ax. rewrite E. cbn [nth_error]. destruct (Nat.eqb_spec k 0); [lia|]. apply out_ok. reflexivity. Qed.
Lemma out_bto (a : arr num) s : shp a = s -> out true s (broadcast_to a s).
Proof.
  intros E. destruct (broadcast_to_is a s (ent a) s (conj E (fun _ _ => eq_refl)) (bshape_same s)) as (b & -> & Hb). apply out_ok. apply Hb.
Qed.
Lemma map_res_out {B} (f : nat -> res B) k : (forall i, (i < k)%nat -> exists b, f i = Ok b) -> exists l, map_res f (seq 0 k) = Ok l.
Proof.
  intros H. destruct (map_res_rel f (fun i b => True) k) as (l & E & _); [|eauto]. intros i Hi. destruct (H i Hi) as (b & E). eauto.
Qed.
Lemma out_get_int {A} spec (a : arr A) s s' : shp a = s -> gi_shape spec s = Some s' -> out true s' (getitem spec a).
Proof. apply out_get. Qed.

Definition sized (P mu sg : arr num) : Prop :=
  shp P = [nt g; nx g; ny g; nz g] /\ shp mu = [nt g; nx g; ny g] /\ shp sg = [nt g; nx g; ny g].

Lemma evaluate_shape P mu sg batch : sized P mu sg -> is_batch batch -> out true [n; nx g; ny g] (par_evaluate c P mu sg batch).
Proof.
  intros (SP & Smu & Ssg) Hb. unfold par_evaluate. cbv zeta. unfold c. rewrite (so_dims _ _ (co_ssps _ _ Hc)). cbn [fst snd].
  assert (Htz : (0 < nz g * nt g)%nat) by (pose proof (gg_t _ Hg); pose proof (gg_z _ Hg); nia).
  destruct (template_arr (pa_cube self) g n dv S HT Htz (co_nx _ _ Hc) (co_ny _ _ Hc)) as (F & EF & HF). rewrite EF. cbn [bind].
  set (om := amap _ (linspace 0 PI _)).
  assert (So : shp om = [(n / 2 + 1)%nat]) by (unfold om; cbn [shp amap linspace]; rewrite (tp_F _ _ _ _ _ HT); reflexivity). clearbody om.
  destruct HF as [SF _].
  destruct Hb as [ -> | [ -> | -> ] ]; cbn [String.eqb Ascii.eqb Bool.eqb].
  - unfold par_none. rewrite (co_nx _ _ Hc), (co_ny _ _ Hc), (tp_fft _ _ _ _ _ HT).
    eapply out_bind_ok; [eapply out_get; [exact So|reflexivity]|]. intros o Ho. cbn in Ho.
    eapply out_bind_ok; [eapply out_transform; [exact Smu|exact Ssg|exact Ho|bsh|apply bshape_same]|]. intros f Hf.
    eapply out_bind_ok; [eapply out_einsum; [exact SF|exact SP|exact Hf]|]. intros y Hy. eapply out_irfft0; [exact Hy|exact Hn].
  - unfold par_column. rewrite (co_nx _ _ Hc), (co_ny _ _ Hc), (tp_fft _ _ _ _ _ HT), (tp_X _ _ _ _ _ HT). cbn [nth].
    eapply out_bind_ok; [eapply out_get; [exact So|reflexivity]|]. intros o Ho. cbn in Ho.
    match goal with |- context [map_res ?G (seq 0 (ny g))] => destruct (map_res_out G (ny g)) as (cols & ->) end.
    { intros j Hj. match goal with |- exists b, ?r = Ok b => cut (out true [n; nx g] r); [intros (b & E & _); eauto|] end.
      eapply out_bind_ok; [eapply out_get; [exact Smu|cbn [gi_shape]; rewrite int_ok_nat by assumption; reflexivity]|]. intros mi Hmi.
      eapply out_bind_ok; [eapply out_get; [exact Ssg|cbn [gi_shape]; rewrite int_ok_nat by assumption; reflexivity]|]. intros si Hsi.
      eapply out_bind_ok; [eapply out_transform; [exact Hmi|exact Hsi|exact Ho|bsh|apply bshape_same]|]. intros f Hf.
      eapply out_bind_ok; [eapply out_get; [exact SP|cbn [gi_shape]; rewrite int_ok_nat by assumption; reflexivity]|]. intros pi Hpi.
      eapply out_bind_ok; [eapply out_einsum; [exact SF|exact Hpi|exact Hf]|]. intros y Hy.
      eapply out_bind_ok; [eapply out_irfft0; [exact Hy|exact Hn]|]. intros y' Hy'. apply out_bto. exact Hy'. }
    cbn [bind]. apply out_ok. reflexivity.
  - unfold par_spaxel. rewrite (co_nx _ _ Hc), (co_ny _ _ Hc), (tp_fft _ _ _ _ _ HT), (tp_X _ _ _ _ _ HT). cbn [nth].
    eapply out_bind_ok; [eapply out_get; [exact So|reflexivity]|]. intros o Ho. cbn in Ho.
    match goal with |- context [map_res ?G (seq 0 (nx g))] => destruct (map_res_out G (nx g)) as (cols & ->) end.
    { intros i Hi. match goal with |- context [map_res ?G (seq 0 (ny g))] => apply (map_res_out G (ny g)) end.
      intros j Hj. match goal with |- exists b, ?r = Ok b => cut (out true [n] r); [intros (b & E & _); eauto|] end.
      eapply out_bind_ok; [eapply out_get; [exact Smu|cbn [gi_shape]; rewrite !int_ok_nat by assumption; reflexivity]|]. intros mi Hmi.
      eapply out_bind_ok; [eapply out_get; [exact Ssg|cbn [gi_shape]; rewrite !int_ok_nat by assumption; reflexivity]|]. intros si Hsi.
      eapply out_bind_ok; [eapply out_transform; [exact Hmi|exact Hsi|exact Ho|bsh|apply bshape_same]|]. intros f Hf.
      eapply out_bind_ok; [eapply out_get; [exact SP|cbn [gi_shape]; rewrite !int_ok_nat by assumption; reflexivity]|]. intros pi Hpi.
      eapply out_bind_ok; [eapply out_einsum; [exact SF|exact Hpi|exact Hf]|]. intros y Hy.
      eapply out_bind_ok; [eapply out_irfft0; [exact Hy|exact Hn]|]. intros y' Hy'. apply out_bto. exact Hy'. }
    cbn [bind]. apply out_ok. reflexivity.
Qed.

(** what evaluate_ybar does, by which attributes are there *)
Lemma evaluate_ready batch :
  (bt && bx && bz = false -> par_evaluate_ybar L self batch = Err AttributeError) /\
  (bt && bx && bz = true -> ~ is_batch batch -> par_evaluate_ybar L self batch = Err ValueError) /\
  (bt && bx && bz = true -> is_batch batch -> bm && bs = false -> par_evaluate_ybar L self batch = Err AttributeError) /\
  (bt && bx && bz = true -> is_batch batch -> bm && bs = true ->
    exists y, par_evaluate_ybar L self batch = Ok y /\ shp y = [n; nx g; ny g]).
Proof.
  assert (HP : out (bt && bx && bz) [nt g; nx g; ny g; nz g] (par_get_p L self "txz" false false)).
  { pose proof (o_get_p_marg L self g bt bx bz bm bs Hc Hg Ht Hx Hz Hm Hs (VSet true false true true) false false eq_refl) as K.
    eapply out_eq; [|exact K]. destruct bt, bx, bz, bm, bs; reflexivity. }
  assert (Htz : (0 < nz g * nt g)%nat) by (pose proof (gg_t _ Hg); pose proof (gg_z _ Hg); nia).
  destruct (template_arr (pa_cube self) g n dv S HT Htz (co_nx _ _ Hc) (co_ny _ _ Hc)) as (F & EF & _).
  unfold par_evaluate_ybar. cbv zeta. destruct (bt && bx && bz)%bool; cbn [out] in HP.
  - destruct HP as (P & -> & SP). cbn [bind]. rewrite (so_dims _ _ (co_ssps _ _ Hc)). cbn [fst snd]. rewrite EF. cbn [bind].
    split; [discriminate|]. split; [|split].
    + intros _ Hb. destruct (batch_known batch) eqn:E; [|reflexivity]. apply batch_known_is in E. contradiction.
    + intros _ Hb E. rewrite (proj2 (batch_known_is batch) Hb).
      pose proof (out_attr _ _ _ Hm) as K1. pose proof (out_attr _ _ _ Hs) as K2.
      destruct bm; [|cbn [out] in K1; rewrite K1; reflexivity]. destruct K1 as (a & -> & _). cbn [bind].
      destruct bs; [discriminate E|]. cbn [out] in K2. rewrite K2. reflexivity.
    + intros _ Hb E. rewrite (proj2 (batch_known_is batch) Hb). destruct bm, bs; try discriminate E.
      destruct Hm as (a & -> & Sa). destruct Hs as (b & -> & Sb). cbn [attr bind].
      apply (evaluate_shape P a b batch (conj SP (conj Sa Sb)) Hb).
  - rewrite HP. split; [reflexivity|]. repeat split; discriminate.
Qed.
End Ready.
