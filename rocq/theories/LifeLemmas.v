(** * LifeLemmas: single setter calls. *)
From Coq Require Import Reals Lra Lia List Bool Arith ZArith String Ascii.
From Verif Require Import Num NumLemmas Arr ArrLemmas PyStr Cube Base Parametric GrowingDisk Stream Spec SpecLemmas Repr
  CubeLemmas CubeGeom CondLemmas BaseLemmas DistLemmas ParSpec ParRepr ParSetLemmas ParEnrich Life LifeSpec LifeShape.
Import ListNotations.
Local Open Scope R_scope.

(** the attributes which setters never change *)
Definition same_frame (s0 s : par) : Prop :=
  pa_cube s = pa_cube s0 /\ pa_xxp s = pa_xxp s0 /\ pa_yyp s = pa_yyp s0 /\ pa_zgrid s = pa_zgrid s0.

Definition rmap {A B} (f : A -> B) (r : res A) : res B := match r with Ok a => Ok (f a) | Err e => Err e end.

Definition put_age (self : par) (tp : option t_pars) (lp : option (arr num)) : par :=
  Par (pa_cube self) (pa_xxp self) (pa_yyp self) (pa_zgrid self) tp lp
      (pa_log_p_x_t self) (pa_t_dep self) (pa_log_p_z_tx self) (pa_mu_v self) (pa_sig_v self) (pa_theta_lims self).
Definition put_x (self : par) (a : option (arr num)) : par :=
  Par (pa_cube self) (pa_xxp self) (pa_yyp self) (pa_zgrid self) (pa_t_pars self) (pa_log_p_t self)
      a (pa_t_dep self) (pa_log_p_z_tx self) (pa_mu_v self) (pa_sig_v self) (pa_theta_lims self).
Definition put_z (self : par) (td lp : option (arr num)) : par :=
  Par (pa_cube self) (pa_xxp self) (pa_yyp self) (pa_zgrid self) (pa_t_pars self) (pa_log_p_t self)
      (pa_log_p_x_t self) td lp (pa_mu_v self) (pa_sig_v self) (pa_theta_lims self).
Definition put_mu (self : par) (a : option (arr num)) : par :=
  Par (pa_cube self) (pa_xxp self) (pa_yyp self) (pa_zgrid self) (pa_t_pars self) (pa_log_p_t self)
      (pa_log_p_x_t self) (pa_t_dep self) (pa_log_p_z_tx self) a (pa_sig_v self) (pa_theta_lims self).
Definition put_sig (self : par) (a : option (arr num)) : par :=
  Par (pa_cube self) (pa_xxp self) (pa_yyp self) (pa_zgrid self) (pa_t_pars self) (pa_log_p_t self)
      (pa_log_p_x_t self) (pa_t_dep self) (pa_log_p_z_tx self) (pa_mu_v self) a (pa_theta_lims self).

(** setters read only the frame and, some of them, the age interval or the angles *)
Ltac reads :=
  repeat match goal with
  | |- context [bind ?r _] => destruct r; cbn [bind]; [|reflexivity]
  | |- context [if ?b then _ else _] => destruct b; [try reflexivity|try reflexivity]
  end; try reflexivity.

Lemma set_p_t_reads L s0 s lmd phi se : same_frame s0 s ->
  set_p_t L s lmd phi se = rmap (fun p => put_age s (pa_t_pars p) (pa_log_p_t p)) (set_p_t L s0 lmd phi se).
Proof.
  intros (E1 & E2 & E3 & E4). unfold set_p_t. rewrite E1. unfold put_age. rewrite E1. cbv zeta.
  destruct (negb _); [reflexivity|]. reads.
Qed.

Lemma linear_reads s0 s a b : same_frame s0 s -> pa_t_pars s = pa_t_pars s0 ->
  linear_interpolate_t s a b = linear_interpolate_t s0 a b.
Proof. intros (E1 & _) E. unfold linear_interpolate_t. rewrite E1, E. reflexivity. Qed.
Lemma interp_reads s0 s l : same_frame s0 s -> pa_t_pars s = pa_t_pars s0 -> interp_t3 s l = interp_t3 s0 l.
Proof. intros F E. unfold interp_t3. rewrite (linear_reads s0 s) by assumption. reflexivity. Qed.
Lemma ell_reads s0 s q : same_frame s0 s -> ell_radius s q = ell_radius s0 q.
Proof. intros (E1 & E2 & E3 & E4). unfold ell_radius. rewrite E2, E3. reflexivity. Qed.
Lemma max_reads s0 s : same_frame s0 s -> max_abs_x1 s = max_abs_x1 s0.
Proof. intros (E1 & E2 & E3 & E4). unfold max_abs_x1. rewrite E2. reflexivity. Qed.
Lemma dxdy_reads s0 s : same_frame s0 s -> log_dxdy s = log_dxdy s0.
Proof. intros (E1 & _). unfold log_dxdy. rewrite E1. reflexivity. Qed.

Lemma disk_x_reads s0 s q rc al : same_frame s0 s -> pa_t_pars s = pa_t_pars s0 ->
  disk_set_p_x_t s q rc al = rmap (fun p => put_x s (pa_log_p_x_t p)) (disk_set_p_x_t s0 q rc al).
Proof.
  intros F E. unfold disk_set_p_x_t. rewrite !(interp_reads s0 s) by assumption. rewrite (dxdy_reads s0 s F).
  do 6 (match goal with |- context [bind ?r _] => destruct r; cbn [bind]; [|reflexivity] end).
  rewrite (ell_reads s0 s) by assumption. reads.
Qed.
Lemma disk_mu_reads s0 s q r v : same_frame s0 s -> pa_t_pars s = pa_t_pars s0 ->
  disk_set_mu_v s q r v = rmap (fun p => put_mu s (pa_mu_v p)) (disk_set_mu_v s0 q r v).
Proof.
  intros F E. unfold disk_set_mu_v. rewrite !(interp_reads s0 s) by assumption.
  pose proof F as (E1 & E2 & E3 & E4). rewrite E2, E3.
  do 8 (match goal with |- context [bind ?r _] => destruct r; cbn [bind]; [|reflexivity] end).
  do 2 (match goal with |- context [bind ?r _] => destruct r; cbn [bind]; [|reflexivity] end).
  rewrite (ell_reads s0 s) by assumption. reads.
Qed.
Lemma disk_sig_reads s0 s q al vi vo a b : same_frame s0 s -> pa_t_pars s = pa_t_pars s0 ->
  disk_set_sig_v s q al vi vo a b = rmap (fun p => put_sig s (pa_sig_v p)) (disk_set_sig_v s0 q al vi vo a b).
Proof.
  intros F E. unfold disk_set_sig_v. rewrite !(interp_reads s0 s) by assumption.
  do 8 (match goal with |- context [bind ?r _] => destruct r; cbn [bind]; [|reflexivity] end).
  rewrite (ell_reads s0 s), (max_reads s0 s) by assumption. reads.
Qed.
Lemma enrich_reads L s0 s td : same_frame s0 s -> enrichment_base L s td = enrichment_base L s0 td.
Proof. intros (E1 & E2 & E3 & E4). unfold enrichment_base. rewrite E1, E4. reflexivity. Qed.
Lemma set_z_reads L s0 s td : same_frame s0 s ->
  set_p_z_tx L s td = rmap (fun p => put_z s (pa_t_dep p) (pa_log_p_z_tx p)) (set_p_z_tx L s0 td).
Proof. intros F. unfold set_p_z_tx. rewrite (enrich_reads L s0 s td F). reads. Qed.
Lemma disk_tdep_reads L s0 s q al a b lo hi : same_frame s0 s ->
  disk_set_t_dep L s q al a b lo hi = rmap (fun p => put_z s (pa_t_dep p) (pa_log_p_z_tx p)) (disk_set_t_dep L s0 q al a b lo hi).
Proof.
  intros F. unfold disk_set_t_dep.
  do 6 (match goal with |- context [bind ?r _] => destruct r; cbn [bind]; [|reflexivity] end).
  rewrite (ell_reads s0 s), (max_reads s0 s) by assumption.
  do 2 (match goal with |- context [bind ?r _] => destruct r; cbn [bind]; [|reflexivity] end).
  cbv zeta. apply set_z_reads; assumption.
Qed.
Lemma stream_coord_x_reads L s0 s th r sig n : same_frame s0 s -> 
  stream_log_p_x_t L s th r sig n = stream_log_p_x_t L s0 th r sig n.
Proof.
  intros F. pose proof F as (E1 & E2 & E3 & E4). unfold stream_log_p_x_t. rewrite (dxdy_reads s0 s F), E1, E2, E3. reflexivity.
Qed.
Lemma stream_tdep_reads L s0 s td : same_frame s0 s ->
  stream_set_t_dep L s td = rmap (fun p => put_z s (pa_t_dep p) (pa_log_p_z_tx p)) (stream_set_t_dep L s0 td).
Proof. intros F. unfold stream_set_t_dep. pose proof F as (-> & _). apply set_z_reads; assumption. Qed.
Lemma stream_mu_reads s0 s v : same_frame s0 s -> pa_theta_lims s = pa_theta_lims s0 ->
  stream_set_mu_v s v = rmap (fun p => put_mu s (pa_mu_v p)) (stream_set_mu_v s0 v).
Proof.
  intros F E. pose proof F as (E1 & E2 & E3 & E4). unfold stream_set_mu_v. rewrite E, E1, E2, E3. reads.
Qed.
Lemma stream_sig_reads s0 s sg : same_frame s0 s ->
  stream_set_sig_v s sg = put_sig s (pa_sig_v (stream_set_sig_v s0 sg)).
Proof. intros (E1 & _). unfold stream_set_sig_v. rewrite E1. reflexivity. Qed.

(** a setter succeeds, storing arrays of the right shapes *)
Section Succeeds.
Context (L : stats_lib) (s0 : par) (g : grid) (Hc : cube_on (pa_cube s0) g) (Hg : good_grid g).
Context (Sx : shp (pa_xxp s0) = [nx g; ny g]) (Sy : shp (pa_yyp s0) = [nx g; ny g]).
Context (Sz : shp (zg_z (pa_zgrid s0)) = [n_grid; nt g]).
Let Gt := gg_t _ Hg. Let Gv := gg_v _ Hg. Let Gx := gg_x _ Hg. Let Gy := gg_y _ Hg. Let Gz := gg_z _ Hg.

Tactic Notation "on" tactic3(t) := let a := fresh "a" in let E := fresh "E" in let S := fresh "S" in
  lazymatch goal with |- context [bind ?r _] =>
    let K := fresh "K" in eassert (K : out true _ r) by t; destruct K as (a & E & S); rewrite E; cbn [bind]; clear E
  end.

Lemma shp_tedg : shp (par_edges_t (c_ssps (pa_cube s0))) = [(nt g + 1)%nat].
Proof. exact (proj1 (so_te _ _ (co_ssps _ _ Hc))). Qed.
Lemma shp_zedg : shp (par_edges_z (c_ssps (pa_cube s0))) = [(nz g + 1)%nat].
Proof. exact (proj1 (so_ze _ _ (co_ssps _ _ Hc))). Qed.
Lemma shp_tc : shp (par_cents_t (c_ssps (pa_cube s0))) = [nt g].
Proof. exact (proj1 (so_tc _ _ (co_ssps _ _ Hc))). Qed.

Lemma set_p_t_done lmd phi se :
  if valid_sfh lmd phi
  then exists tp lp, set_p_t L s0 lmd phi se = Ok (put_age s0 (Some tp) (Some lp)) /\ shp lp = [nt g]
  else set_p_t L s0 lmd phi se = Err ValueError.
Proof.
  unfold valid_sfh, set_p_t. destruct (Rltb 1 (lmd * phi) || Rltb 1 (lmd * (1 - phi)))%bool; cbn [negb]; [|reflexivity].
  pose proof shp_tedg as S.
  destruct (vec_get _ _ _ 0%nat (so_te _ _ (co_ssps _ _ Hc))) as (e0 & E0 & _); [lia|]. cbn in E0. rewrite E0. cbn [bind].
  destruct (vec_last _ _ _ (so_te _ _ (co_ssps _ _ Hc))) as (e1 & -> & _). cbn [bind]. cbv zeta.
  on (eapply o_logdiff; shape).
  destruct (vol_ok _ _ Hc Hg (VSet true false false false) eq_refl) as (dt & Ed & Sd & _). cbn [name has_t has_v has_x has_z append] in Ed.
  cbn [dims unit_dims all_vars has_t has_v has_x has_z opt app pt nt nv nx ny nz] in Sd.
  rewrite Ed. cbn [bind]. on (idtac; prim).
  eexists; eexists; split; [reflexivity|assumption].
Qed.

Lemma interp_done tp l : pa_t_pars s0 = Some tp -> out true [nt g; 1; 1]%nat (interp_t3 s0 l).
Proof.
  intros E. unfold interp_t3, linear_interpolate_t. rewrite E. cbn [attr bind]. pose proof shp_tc. prim.
Qed.
Lemma interp_missing l : pa_t_pars s0 = None -> interp_t3 s0 l = Err AttributeError.
Proof. intros E. unfold interp_t3, linear_interpolate_t. rewrite E. reflexivity. Qed.
Lemma ell_done q : shp q = [nt g; 1; 1]%nat -> out true [nt g; nx g; ny g] (ell_radius s0 q).
Proof.
  intros S. unfold ell_radius. eapply out_bind_ok; [prim|intros ? ?]. eapply out_bind_ok; [prim|intros ? ?]. apply out_ok; shape.
Qed.
Lemma ell_done0 q : shp q = [] -> out true [nx g; ny g] (ell_radius s0 q).
Proof.
  intros S. unfold ell_radius. eapply out_bind_ok; [prim|intros ? ?]. eapply out_bind_ok; [prim|intros ? ?]. apply out_ok; shape.
Qed.
Lemma max_done : exists m, max_abs_x1 s0 = Ok m.
Proof.
  unfold max_abs_x1. rewrite Sx. replace (has_zero [nx g; ny g]) with false by (symmetry; nozero). eexists; reflexivity.
Qed.

(** the outcome of a disk setter which varies its parameters with age *)
Definition outcome (valid : bool) (age : option t_pars) (put : par -> option (arr num) -> par) (s : list nat) (r : res par) : Prop :=
  if valid then match age with
                | Some _ => exists a, r = Ok (put s0 (Some a)) /\ shp a = s
                | None => r = Err AttributeError
                end
  else r = Err AssertionError.

Ltac asserts := repeat match goal with |- context [py_assert ?b] => destruct b; cbn [py_assert bind andb]; [|reflexivity] end.
Lemma disk_x_done q rc al : outcome (disk_valid (DPxt q rc al)) (pa_t_pars s0) put_x [nx g; ny g; nt g] (disk_set_p_x_t s0 q rc al).
Proof.
  unfold outcome, disk_valid, disk_set_p_x_t. change (both_pos) with all_pos. change both_ge0 with all_nonneg.
  destruct (all_pos q), (all_pos rc), (all_nonneg al); cbn [py_assert bind andb]; try reflexivity.
  destruct (pa_t_pars s0) as [tp|] eqn:E; [|rewrite (interp_missing _ E); reflexivity].
  do 3 on (eapply interp_done; exact E).
  on (apply ell_done; shape). do 3 on (idtac; prim). on (idtac; prim). on (idtac; prim). on (idtac; prim). eexists; split; [reflexivity|assumption].
Qed.
Lemma disk_mu_done q r v : outcome (disk_valid (DMu q r v)) (pa_t_pars s0) put_mu [nt g; nx g; ny g] (disk_set_mu_v s0 q r v).
Proof.
  unfold outcome, disk_valid, disk_set_mu_v. change both_pos with all_pos. fold (both_ge0 v). fold (both_le0 v).
  destruct (all_pos q), (both_ge0 v || both_le0 v)%bool; cbn [py_assert bind andb]; try reflexivity.
  destruct (pa_t_pars s0) as [tp|] eqn:E; [|rewrite (interp_missing _ E); reflexivity].
  do 3 on (eapply interp_done; exact E). cbv zeta.
  do 5 on (idtac; prim). on (apply ell_done; shape). do 4 on (idtac; prim). eexists; split; [reflexivity|assumption].
Qed.
Lemma disk_sig_done q al vi vo x y : outcome (disk_valid (DSig q al vi vo x y)) (pa_t_pars s0) put_sig [nt g; nx g; ny g] (disk_set_sig_v s0 q al vi vo x y).
Proof.
  unfold outcome, disk_valid, disk_set_sig_v. change both_pos with all_pos. change both_ge0 with all_nonneg.
  destruct (all_pos q), (all_nonneg al), (all_pos vi), (all_pos vo); cbn [py_assert bind andb]; try reflexivity.
  destruct (pa_t_pars s0) as [tp|] eqn:E; [|rewrite (interp_missing _ E); reflexivity].
  do 4 on (eapply interp_done; exact E).
  on (apply ell_done; shape). destruct max_done as (m & ->). cbn [bind].
  do 4 on (idtac; prim). eexists; split; [reflexivity|assumption].
Qed.

Lemma enrich_done td : shp td = [nx g; ny g] -> out true [nz g; nt g; nx g; ny g] (enrichment_base L s0 td).
Proof.
  intros S. unfold enrichment_base. cbv zeta. rewrite S, (co_nx _ _ Hc), (co_ny _ _ Hc), natlist_eqb_refl. cbn [negb].
  rewrite Sz. cbn [nth]. pose proof shp_zedg.
  eapply out_bind_ok; [prim|intros e Se].
  assert (Sm : forall f : list nat -> num, shp (Arr [nt g; nx g; ny g] f) = [nt g; nx g; ny g]) by reflexivity.
  eapply out_bind_ok; [eapply o_logcdf; [apply Sm|eapply shp_amap, shp_amap, Sm|exact Se]|intros cdf Sc].
  eapply out_bind_ok; [eapply o_logdiff; shape|intros tmp St].
  destruct (vol_ok _ _ Hc Hg (VSet false false false true) eq_refl) as (dz & Ed & Sd & _). cbn [name has_t has_v has_x has_z append] in Ed.
  cbn [dims unit_dims all_vars has_t has_v has_x has_z opt app pt nt nv nx ny nz] in Sd. rewrite Ed. cbn [bind].
  eapply out_bind_ok; [prim|intros ? ?]. eapply out_bind_ok; [prim|intros ? ?]. prim.
Qed.
Lemma set_z_done td : shp td = [nx g; ny g] ->
  exists lp, set_p_z_tx L s0 td = Ok (put_z s0 (Some td) (Some lp)) /\ shp lp = [nz g; nt g; nx g; ny g].
Proof.
  intros S. unfold set_p_z_tx. destruct (enrich_done td S) as (lp & -> & Sl). cbn [bind]. exists lp. split; [reflexivity|exact Sl].
Qed.
Lemma disk_tdep_done q al a b lo hi :
  if disk_valid (DTdep q al a b lo hi)
  then exists td lp, disk_set_t_dep L s0 q al a b lo hi = Ok (put_z s0 (Some td) (Some lp)) /\ shp lp = [nz g; nt g; nx g; ny g]
  else disk_set_t_dep L s0 q al a b lo hi = Err AssertionError.
Proof.
  unfold disk_valid, disk_set_t_dep. fold (between a lo hi). fold (between b lo hi).
  destruct (Rltb 0 q), (Rleb 0 al), (Rleb (1 / 10) lo), (Rleb hi 13), (between a lo hi), (between b lo hi); cbn [py_assert bind andb]; try reflexivity.
  on (apply ell_done0; reflexivity). destruct max_done as (m & ->). cbn [bind]. cbv zeta.
  match goal with |- context [set_p_z_tx L s0 ?t] => destruct (set_z_done t) as (lp & E & Sl); [exact S|] end.
  eexists; exists lp; split; [exact E|exact Sl].
Qed.

(** streams *)
Lemma stream_coord_done xx d mu sig n : shp xx = [nx g; ny g] -> shp mu = [n] ->
  out true [nx g; ny g; n] (stream_coord L xx d mu sig).
Proof.
  intros S1 S2. unfold stream_coord. do 3 (eapply out_bind_ok; [prim|intros ? ?]).
  unfold norm_logcdf.
  eapply out_bind_ok; [eapply out_bind_ok; [prim|intros ? ?]; prim|intros ? ?].
  eapply out_bind_ok; [eapply out_bind_ok; [prim|intros ? ?]; prim|intros ? ?].
  eapply o_logdiff; shape.
Qed.
Lemma stream_values_t : exists t, get_variable_values (pa_cube s0) "t" = Ok t /\ len0 t = nt g.
Proof.
  exists (par_cents_t (c_ssps (pa_cube s0))). split; [reflexivity|]. unfold len0. rewrite shp_tc. reflexivity.
Qed.
Lemma bcast_front {A} (a : arr A) n : shp a = [nx g; ny g] ->
  exists b, broadcast_to a (n :: [nx g; ny g]) = Ok b /\ shp b = [n; nx g; ny g].
Proof.
  intros S. unfold broadcast_to. rewrite S.
  assert (E : bshape [nx g; ny g] [n; nx g; ny g] = Some [n; nx g; ny g]) by (cbn [rev app]; bsh).
  rewrite E, natlist_eqb_refl. eexists; split; reflexivity.
Qed.
Lemma stream_x_done th r sig n : (0 < n)%nat -> out true [nx g; ny g; nt g] (stream_log_p_x_t L s0 th r sig n).
Proof.
  intros Hn. unfold stream_log_p_x_t. cbv zeta. destruct stream_values_t as (t & Et & Lt).
  assert (Sn : shp (linspace (fst th) (snd th) n) = [n]) by reflexivity.
  do 2 (eapply out_bind_ok; [prim|intros ? ?]). rewrite Et. cbn [bind].
  eapply out_bind_ok; [eapply stream_coord_done; [exact Sx|shape]|intros ? ?].
  eapply out_bind_ok; [eapply stream_coord_done; [exact Sy|shape]|intros ? ?].
  do 5 (eapply out_bind_ok; [prim|intros ? ?]).
  rewrite Lt.
  match goal with H : shp ?a = [nx g; ny g] |- context [broadcast_to ?a] => rewrite H; destruct (bcast_front a (nt g) H) as (b & -> & Sb) end.
  cbn [bind]. prim.
Qed.
Lemma stream_x_empty th r sig : stream_log_p_x_t L s0 th r sig 0 = Err ValueError.
Proof.
  unfold stream_log_p_x_t. cbv zeta. destruct stream_values_t as (t & Et & Lt).
  assert (Sn : shp (linspace (fst th) (snd th) 0) = [0%nat]) by reflexivity.
  do 2 on (idtac; prim). rewrite Et. cbn [bind].
  on (eapply stream_coord_done; [exact Sx|shape]).
  on (eapply stream_coord_done; [exact Sy|shape]).
  on (idtac; prim). unfold logsumexp.
  match goal with H : shp ?a = [nx g; ny g; 0%nat] |- context [norm_axes (List.length (shp ?a)) _] => rewrite H end.
  reflexivity.
Qed.
Lemma stream_angles_done th : stream_angles_ok th = if valid_angles th then Ok tt else Err AssertionError.
Proof.
  unfold stream_angles_ok, valid_angles, between. destruct th as [a b]. cbn [fst snd]. unfold py_assert.
  destruct (Rleb (- PI) (Rmin a b)) eqn:E1.
  - cbn [bind]. apply Rleb_true in E1. assert (- PI <= a /\ - PI <= b) as (Ha & Hb).
    { split; [apply Rle_trans with (Rmin a b); [exact E1|apply Rmin_l]|apply Rle_trans with (Rmin a b); [exact E1|apply Rmin_r]]. }
    apply Rleb_true in Ha, Hb. rewrite Ha, Hb. cbn [andb].
    destruct (Rleb (Rmax a b) PI) eqn:E2.
    + apply Rleb_true in E2. assert (a <= PI /\ b <= PI) as (H1 & H2).
      { split; [apply Rle_trans with (Rmax a b); [apply Rmax_l|exact E2]|apply Rle_trans with (Rmax a b); [apply Rmax_r|exact E2]]. }
      apply Rleb_true in H1, H2. rewrite H1, H2. reflexivity.
    + destruct (Rleb a PI) eqn:H1; [|reflexivity]. destruct (Rleb b PI) eqn:H2; [|reflexivity].
      apply Rleb_true in H1, H2. assert (Rmax a b <= PI) by (apply Rmax_lub; assumption). apply Rleb_true in H. congruence.
  - cbn [bind]. destruct (Rleb (- PI) a) eqn:H1; [|reflexivity]. destruct (Rleb (- PI) b) eqn:H2; [|destruct (Rleb a PI); reflexivity].
    apply Rleb_true in H1, H2. assert (- PI <= Rmin a b) by (apply Rmin_glb; assumption). apply Rleb_true in H. congruence.
Qed.
Lemma stream_tdep_done td :
  exists t lp, stream_set_t_dep L s0 td = Ok (put_z s0 (Some t) (Some lp)) /\ shp lp = [nz g; nt g; nx g; ny g].
Proof.
  unfold stream_set_t_dep. rewrite (co_nx _ _ Hc), (co_ny _ _ Hc).
  match goal with |- context [set_p_z_tx L s0 ?t] => destruct (set_z_done t) as (lp & E & Sl); [reflexivity|] end.
  eexists; exists lp; split; [exact E|exact Sl].
Qed.
Lemma stream_mu_done v :
  match pa_theta_lims s0 with
  | Some _ => exists a, stream_set_mu_v s0 v = Ok (put_mu s0 (Some a)) /\ shp a = [nt g; nx g; ny g]
  | None => stream_set_mu_v s0 v = Err AttributeError
  end.
Proof.
  unfold stream_set_mu_v. destruct (pa_theta_lims s0) as [th|].
  - on (idtac; prim). cbn [attr bind]. cbv zeta. destruct stream_values_t as (t & -> & Lt). cbn [bind]. rewrite Lt.
    match goal with |- context [broadcast_to ?m (nt g :: shp ?m)] => assert (Sm : shp m = [nx g; ny g]) by shape; rewrite Sm;
      destruct (bcast_front m (nt g) Sm) as (b & -> & Sb) end.
    cbn [bind]. exists b. split; [reflexivity|exact Sb].
  - on (idtac; prim). reflexivity.
Qed.
Lemma stream_sig_done s :
  exists a, stream_set_sig_v s0 s = put_sig s0 (Some a) /\ shp a = [nt g; nx g; ny g].
Proof.
  unfold stream_set_sig_v. eexists; split; [reflexivity|]. cbn [shp full].
  rewrite (so_dims _ _ (co_ssps _ _ Hc)), (co_nx _ _ Hc), (co_ny _ _ Hc). reflexivity.
Qed.
End Succeeds.
