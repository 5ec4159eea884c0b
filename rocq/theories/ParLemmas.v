(** * ParLemmas: the marginals of a parametric component. *)
From Coq Require Import Reals Lra Lia List Bool Arith ZArith String Ascii.
From Verif Require Import Num NumLemmas Arr ArrLemmas PyStr Cube Base Parametric Spec SpecLemmas Repr
  ParSpec ParRepr CubeLemmas BaseLemmas CondLemmas.
Import ListNotations.
Local Open Scope R_scope.

Arguments total : simpl never.
Arguments lit : simpl never.

Lemma good_flat g : good_grid g -> good_grid (flat g).
Proof.
  intros []. split; cbn; auto. intros i Hi. replace i with 0%nat by lia. apply gg_vE; assumption.
Qed.
Lemma good_pgrid g b : good_grid g -> good_grid (pgrid g b).
Proof. destruct b; [auto|apply good_flat]. Qed.

Lemma vbin_nonneg g m t v x y : good_grid g -> good_par g m ->
  (t < nt g)%nat -> (v < nv g)%nat -> (x < nx g)%nat -> (y < ny g)%nat -> 0 <= vbin g m t v x y.
Proof.
  intros Hg Hm Ht Hv Hx Hy. unfold vbin.
  assert (vE g v < vE g (S v)) by (apply (gg_vE _ Hg); assumption).
  pose proof (gp_sig _ _ Hm t x y Ht Hx Hy).
  assert (pm_F m ((vE g v - pm_mu m t x y) / pm_sig m t x y) <= pm_F m ((vE g (S v) - pm_mu m t x y) / pm_sig m t x y)); [|lra].
  apply (gp_F_mono _ _ Hm). apply Rmult_le_compat_r; [left; apply Rinv_0_lt_compat; assumption|lra].
Qed.

Lemma txz_nonneg g m t x y z : good_grid g -> good_par g m ->
  (t < nt g)%nat -> (x < nx g)%nat -> (y < ny g)%nat -> (z < nz g)%nat -> 0 <= txz_mass g m t x y z.
Proof.
  intros Hg Hm Ht Hx Hy Hz. unfold txz_mass.
  pose proof (wid_pos _ _ _ (gg_tE _ Hg) Ht). pose proof (wid_pos _ _ _ (gg_xE _ Hg) Hx).
  pose proof (wid_pos _ _ _ (gg_yE _ Hg) Hy). pose proof (wid_pos _ _ _ (gg_zE _ Hg) Hz).
  pose proof (gp_t _ _ Hm t Ht). pose proof (gp_x _ _ Hm t x y Ht Hx Hy).
  pose proof (gp_z _ _ Hm t x y z Ht Hx Hy Hz).
  repeat apply Rmult_le_pos; lra.
Qed.

Lemma pjoint_nonneg g m b : good_grid g -> good_par g m -> nonneg (pgrid g b) (pjoint g m b).
Proof.
  intros Hg Hm t v x y z Ht Hv Hx Hy Hz. unfold pjoint. apply Rmult_le_pos.
  - apply txz_nonneg; try assumption; destruct b; assumption.
  - destruct b; [apply vbin_nonneg; assumption|lra].
Qed.

Lemma pprob_nonneg g m lw b : good_grid g -> good_par g m -> par_lw_ok g m lw b ->
  nonneg (pgrid g b) (pprob g m lw b).
Proof.
  intros Hg Hm Hl. pose proof (pjoint_nonneg g m b Hg Hm) as HJ. destruct lw; [|exact HJ].
  specialize (Hl eq_refl). intros t v x y z Ht Hv Hx Hy Hz. unfold pprob, light.
  apply Rmult_le_pos; [|left; apply Rinv_0_lt_compat; assumption].
  apply (lit_nonneg _ _ (good_pgrid g b Hg) HJ); assumption.
Qed.

Lemma par_prob_nonneg g m lw S i : good_grid g -> good_par g m -> par_lw_ok g m lw (has_v S) ->
  in_grid (pgrid g (has_v S)) i -> 0 <= par_prob g m lw S i.
Proof. intros. apply marg_nonneg; [assumption|]. apply pprob_nonneg; assumption. Qed.

(** what a query of S returns: probability, or probability over volume *)
Definition pent (g : grid) (m : par_model) (density lw : bool) (S : vset) (i : bin) : R :=
  par_prob g m lw S i / (if density then vol g S i else 1).

Lemma vol_pos' g b S i : good_grid g -> in_grid (pgrid g b) i -> 0 < vol g S i.
Proof.
  intros Hg Hi. destruct b; [apply vol_pos; assumption|].
  change (0 < vol (flat g) S i). apply vol_pos; [apply good_flat|]; assumption.
Qed.

Lemma pent_nonneg g m density lw S i : good_grid g -> good_par g m -> par_lw_ok g m lw (has_v S) ->
  in_grid (pgrid g (has_v S)) i -> 0 <= pent g m density lw S i.
Proof.
  intros Hg Hm Hl Hi. unfold pent. apply Rmult_le_pos; [apply par_prob_nonneg; assumption|].
  left; apply Rinv_0_lt_compat. destruct density; [eapply vol_pos'; eassumption|lra].
Qed.

Section Par.
Context (L : stats_lib) (self : par) (g : grid) (m : par_model).
Context (H : par_on L self g m) (Hg : good_grid g) (Hm : good_par g m).
Let Hc := po_cube _ _ _ _ H.

Let wxc := wid_x_const _ _ Hc Hg.
Let wyc := wid_y_const _ _ Hc Hg.

Lemma log_vol_ok S : nonempty S = true ->
  exists a, log_vol self (name S) = Ok a /\ arr_is a (dims S (pt g)) (fun idx => lg (vol g S (rd S idx))).
Proof.
  intros HS. destruct (vol_ok _ _ Hc Hg S HS) as (a & E & Ha). unfold log_vol. rewrite E. cbn [bind].
  eexists; split; [reflexivity|]. apply (amap_is nlog) in Ha. exact Ha.
Qed.
Lemma log_dt_ok : exists a, log_vol self "t" = Ok a /\ arr_is a [nt g] (fun idx => lg (wid (tE g) (hd 0%nat idx))).
Proof.
  destruct (log_vol_ok (VSet true false false false) eq_refl) as (a & E & Ha). exists a; split; [exact E|].
  eapply arr_is_ext; [exact Ha|]. intros idx Hi. cbn in Hi; inb_inv. cbn. f_equal. unfold vol; cbn; ring.
Qed.
Lemma log_dz_ok : exists a, log_vol self "z" = Ok a /\ arr_is a [nz g] (fun idx => lg (wid (zE g) (hd 0%nat idx))).
Proof.
  destruct (log_vol_ok (VSet false false false true) eq_refl) as (a & E & Ha). exists a; split; [exact E|].
  eapply arr_is_ext; [exact Ha|]. intros idx Hi. cbn in Hi; inb_inv. cbn. f_equal. unfold vol; cbn; ring.
Qed.
Lemma log_dv_ok : exists a, log_vol self "v" = Ok a /\ arr_is a [nv g] (fun idx => lg (wid (vE g) (hd 0%nat idx))).
Proof.
  destruct (log_vol_ok (VSet false true false false) eq_refl) as (a & E & Ha). exists a; split; [exact E|].
  eapply arr_is_ext; [exact Ha|]. intros idx Hi. cbn in Hi; inb_inv. cbn. f_equal. unfold vol; cbn; ring.
Qed.
Lemma log_dtz_ok : exists a, log_vol self "tz" = Ok a /\
  arr_is a [nt g; nz g] (fun idx => lg (wid (tE g) (hd 0%nat idx) * wid (zE g) (hd 0%nat (tl idx)))).
Proof.
  destruct (log_vol_ok (VSet true false false true) eq_refl) as (a & E & Ha). exists a; split; [exact E|].
  eapply arr_is_ext; [exact Ha|]. intros idx Hi. cbn in Hi; inb_inv. cbn. f_equal. unfold vol; cbn; ring.
Qed.

(** the size of a pixel *)
Definition px_area : R := wid (xE g) 0 * wid (yE g) 0.
Lemma px_area_pos : 0 < px_area.
Proof.
  apply Rmult_lt_0_compat; [apply (wid_pos _ _ _ (gg_xE _ Hg) (gg_x _ Hg))|apply (wid_pos _ _ _ (gg_yE _ Hg) (gg_y _ Hg))].
Qed.
Lemma px_area_at x y : (x < nx g)%nat -> (y < ny g)%nat -> wid (xE g) x * wid (yE g) y = px_area.
Proof. intros. rewrite (wxc x), (wyc y) by assumption. reflexivity. Qed.
Lemma log_dxdy_is : arr_is (log_dxdy self) [] (fun _ => lg px_area).
Proof.
  unfold log_dxdy. pose proof (gg_x _ Hg). pose proof (gg_y _ Hg).
  destruct (co_dx _ _ Hc) as (dx & -> & Hdx), (co_dy _ _ Hc) as (dy & -> & Hdy).
  pose proof (wid_pos _ _ _ (gg_xE _ Hg) (gg_x _ Hg)). pose proof (wid_pos _ _ _ (gg_yE _ Hg) (gg_y _ Hg)).
  rewrite <- (Hdx 0%nat), <- (Hdy 0%nat) by assumption. rewrite !nlog_Fin, nadd_lg by lra. apply scal_is.
Qed.

Opaque px_area.
Definition dn (density : bool) (w : R) : R := if density then 1 else w.

Lemma x_t_mw_ok density : exists a, x_t_mw self density = Ok a /\
  arr_is a [nx g; ny g; nt g] (fun idx => match idx with [x; y; t] => lg (pm_x m t x y * dn density px_area) | _ => NaN end).
Proof.
  unfold x_t_mw. destruct (po_x _ _ _ _ H) as (a & -> & Hs & He). cbn [attr bind].
  assert (Ha : arr_is a [nx g; ny g; nt g] (fun idx => match idx with [x; y; t] => lg (pm_x m t x y) | _ => NaN end)).
  { split; [exact Hs|]. intros idx Hi; inb_inv. apply He; assumption. }
  destruct density.
  - exists a; split; [reflexivity|]. eapply arr_is_ext; [exact Ha|]. intros idx Hi; inb_inv. cbn. f_equal; ring.
  - pose proof log_dxdy_is. s_iop. eexists; split; [reflexivity|]. entries.
    rewrite nadd_lg; [reflexivity|apply (gp_x _ _ Hm); assumption|left; apply px_area_pos].
Qed.

Lemma t_mw_ok density : exists a, t_mw self density = Ok a /\
  arr_is a [nt g] (fun idx => let t := hd 0%nat idx in lg (pm_t m t * dn density (wid (tE g) t))).
Proof.
  unfold t_mw. destruct (po_t _ _ _ _ H) as (a & -> & Hs & He). cbn [attr bind].
  assert (Ha : arr_is a [nt g] (fun idx => lg (pm_t m (hd 0%nat idx)))).
  { split; [exact Hs|]. intros idx Hi; inb_inv. apply He; assumption. }
  destruct density.
  - exists a; split; [reflexivity|]. eapply arr_is_ext; [exact Ha|]. intros idx Hi; inb_inv. cbn. f_equal; ring.
  - destruct log_dt_ok as (b & -> & Hb). cbn [bind]. s_iop. eexists; split; [reflexivity|]. entries.
    rewrite nadd_lg; [reflexivity|apply (gp_t _ _ Hm); assumption|left; apply (wid_pos _ _ _ (gg_tE _ Hg)); assumption].
Qed.

Lemma tx_mw_ok density : exists a, tx_mw self density = Ok a /\
  arr_is a [nt g; nx g; ny g] (fun idx => match idx with [t; x; y] =>
    lg (pm_x m t x y * dn density px_area * (pm_t m t * dn density (wid (tE g) t))) | _ => NaN end).
Proof.
  unfold tx_mw. destruct (x_t_mw_ok density) as (a & -> & Ha). destruct (t_mw_ok density) as (b & -> & Hb).
  cbn [bind]. s_bop. s_mov. eexists; split; [reflexivity|]. entries.
  apply nadd_lg; apply Rmult_le_pos; try (apply (gp_x _ _ Hm); assumption); try (apply (gp_t _ _ Hm); assumption);
    destruct density; cbn; try lra; left; [apply px_area_pos|apply (wid_pos _ _ _ (gg_tE _ Hg)); assumption].
Qed.

Lemma z_tx_mw_ok density : exists a, z_tx_mw self density = Ok a /\
  arr_is a [nz g; nt g; nx g; ny g] (fun idx => match idx with [z; t; x; y] =>
    lg (pm_z m t x y z * dn density (wid (zE g) z)) | _ => NaN end).
Proof.
  unfold z_tx_mw. destruct (po_z _ _ _ _ H) as (a & -> & Hs & He). cbn [attr bind].
  assert (Ha : arr_is a [nz g; nt g; nx g; ny g] (fun idx => match idx with [z; t; x; y] => lg (pm_z m t x y z) | _ => NaN end)).
  { split; [exact Hs|]. intros idx Hi; inb_inv. apply He; assumption. }
  destruct density.
  - exists a; split; [reflexivity|]. eapply arr_is_ext; [exact Ha|]. intros idx Hi; inb_inv. cbn. f_equal; ring.
  - destruct log_dz_ok as (b & -> & Hb). cbn [bind]. pose proof (T_is _ _ _ Ha) as Ht. cbn in Ht. s_bop.
    eexists; split; [reflexivity|]. apply T_is in Hr. cbn in Hr. entries.
    rewrite nadd_lg; [reflexivity|apply (gp_z _ _ Hm); assumption|left; apply (wid_pos _ _ _ (gg_zE _ Hg)); assumption].
Qed.

Lemma wt_pos t : (t < nt g)%nat -> 0 < wid (tE g) t.
Proof. apply (wid_pos _ _ _ (gg_tE _ Hg)). Qed.
Lemma wz_pos z : (z < nz g)%nat -> 0 < wid (zE g) z.
Proof. apply (wid_pos _ _ _ (gg_zE _ Hg)). Qed.
Lemma wv_pos z : (z < nv g)%nat -> 0 < wid (vE g) z.
Proof. apply (wid_pos _ _ _ (gg_vE _ Hg)). Qed.
Lemma dn_pos density w : 0 < w -> 0 < dn density w.
Proof. destruct density; cbn; lra. Qed.

Lemma txz_mw_ok density : exists a, txz_mw self density = Ok a /\
  arr_is a [nt g; nx g; ny g; nz g] (fun idx =>
    lg (pent g m density false (VSet true false true true) (rd (VSet true false true true) idx))).
Proof.
  unfold txz_mw. destruct (tx_mw_ok density) as (a & -> & Ha). destruct (z_tx_mw_ok density) as (b & -> & Hb).
  cbn [bind]. s_get. s_mov. s_bop. eexists; split; [reflexivity|]. entries.
  pose proof (wt_pos i Hi). pose proof (wz_pos i2 Hi2). pose proof px_area_pos.
  pose proof (px_area_at i0 i1 Hi0 Hi1) as Ea.
  pose proof (gp_x _ _ Hm i i0 i1 Hi Hi0 Hi1). pose proof (gp_t _ _ Hm i Hi).
  pose proof (gp_z _ _ Hm i i0 i1 i2 Hi Hi0 Hi1 Hi2).
  rewrite nadd_lg.
  - f_equal. unfold pent, par_prob, marg, pprob, pjoint, txz_mass, vol; cbn. rewrite Ea.
    destruct density; cbn; field; lra.
  - destruct density; cbn; repeat apply Rmult_le_pos; lra.
  - destruct density; cbn; repeat apply Rmult_le_pos; lra.
Qed.

Lemma lw_is : arr_is (light_weights (c_ssps (pa_cube self))) [nt g; nz g]
   (fun idx => Fin (Lw g (hd 0%nat idx) (hd 0%nat (tl idx)))).
Proof.
  pose proof (co_ssps _ _ Hc) as Hs. split; [apply (so_lw_shp _ _ Hs)|].
  intros idx Hi; inb_inv. cbn. apply (so_lw _ _ Hs); assumption.
Qed.

Ltac ing := unfold in_grid; cbn; repeat split;
  first [assumption | lia | apply (gg_t _ Hg) | apply (gg_v _ Hg) | apply (gg_x _ Hg) | apply (gg_y _ Hg) | apply (gg_z _ Hg)].

Lemma txz_ok density lw : par_lw_ok g m lw false -> exists a, p_txz self density lw = Ok a /\
  arr_is a [nt g; nx g; ny g; nz g] (fun idx =>
    lg (pent g m density lw (VSet true false true true) (rd (VSet true false true true) idx))).
Proof.
  intros Hl. unfold p_txz. destruct (txz_mw_ok density) as (a & -> & Ha). destruct (txz_mw_ok false) as (b & -> & Hb).
  cbn [bind]. destruct lw; [|exists a; split; [reflexivity|exact Ha]].
  specialize (Hl eq_refl). pose proof lw_is as Hlw.
  pose proof (pjoint_nonneg g m false Hg Hm) as HJ.
  pose proof (lit_nonneg _ _ (good_flat g Hg) HJ) as HLn.
  pose proof (gg_t _ Hg). pose proof (gg_x _ Hg). pose proof (gg_y _ Hg). pose proof (gg_z _ Hg).
  s_get. s_map. s_bop.
  assert (HL : arr_is r1 [nt g; nx g; ny g; nz g] (fun idx => match idx with [t; x; y; z] =>
            lg (lit (flat g) (pjoint g m false) t 0%nat x y z) | _ => NaN end)).
  { entries. rewrite nlog_Fin, nadd_lg.
    - f_equal. unfold pent, par_prob, marg, lit; cbn. field.
    - apply pent_nonneg; try assumption; [discriminate|ing].
    - apply (gg_L _ Hg); assumption. }
  clear Hr1. s_lseall.
  assert (HT : arr_is r2 [] (fun _ => lg (total (flat g) (lit (flat g) (pjoint g m false))))).
  { eapply arr_is_ext; [eassumption|]. intros ? ?.
    rewrite (lse_map_lg _ (fun idx => match idx with [t; x; y; z] =>
            lit (flat g) (pjoint g m false) t 0%nat x y z | _ => 0 end)).
    - f_equal. unfold total; cbn [flat nt nv nx ny nz]. rewrite sum_all_idx_cons; apply Sum_ext; intros.
      cbn [Sum]. rewrite Rplus_0_l.
      repeat (rewrite sum_all_idx_cons; apply Sum_ext; intros). apply sum_all_idx_nil.
    - intros ix Hix. apply in_all_idx in Hix. inb_inv. reflexivity.
    - intros ix Hix. apply in_all_idx in Hix. inb_inv. apply HLn; cbn; try assumption; lia. }
  clear Hr1. s_bop. s_bop. eexists; split; [reflexivity|]. entries.
  pose proof (gg_L _ Hg i i2 Hi Hi2).
  rewrite nlog_Fin, nadd_lg, nsub_lg; [f_equal| | | |].
  - unfold pent, par_prob, marg, pprob, light, pgrid in *; cbn -[total lit] in *.
    set (TT := total (flat g) (lit (flat g) (pjoint g m false))) in *.
    assert (Q : 0 < (if density then vol g (VSet true false true true) (Bin i 0 i0 i1 i2) else 1)).
    { destruct density; [|lra]. apply (vol_pos' g false); [assumption|ing]. }
    unfold lit; cbn. clearbody TT. field. lra.
  - apply Rmult_le_pos; [apply pent_nonneg; try assumption; [discriminate|ing]|assumption].
  - exact Hl.
  - apply pent_nonneg; try assumption; [discriminate|ing].
  - assumption.
Qed.

(** ** velocities *)
Lemma v_tx_mw_ok density : exists a, v_tx_mw L self density = Ok a /\
  arr_is a [nv g; nt g; nx g; ny g] (fun idx => match idx with [v; t; x; y] =>
    lg (vbin g m t v x y / (if density then wid (vE g) v else 1)) | _ => NaN end).
Proof.
  unfold v_tx_mw. pose proof (vec_is _ _ _ (co_v _ _ Hc)) as Hv.
  destruct (po_mu _ _ _ _ H) as (mu & -> & Hsm & Hem). destruct (po_sig _ _ _ _ H) as (sig & -> & Hss & Hes).
  assert (Hmu : arr_is mu [nt g; nx g; ny g] (fun idx => match idx with [t; x; y] => Fin (pm_mu m t x y) | _ => NaN end)).
  { split; [exact Hsm|]. intros idx Hi; inb_inv. apply Hem; assumption. }
  assert (Hsig : arr_is sig [nt g; nx g; ny g] (fun idx => match idx with [t; x; y] => Fin (pm_sig m t x y) | _ => NaN end)).
  { split; [exact Hss|]. intros idx Hi; inb_inv. apply Hes; assumption. }
  clear Hsm Hem Hss Hes. cbn [attr bind]. s_get. unfold norm_logcdf, logdiffexp.
  pose proof (tail0_is _ _ _ _ Hr ltac:(lia)) as H1. pose proof (init0_is _ _ _ _ Hr) as H0.
  replace (nv g + 1 - 1)%nat with (nv g) in * by lia. cbn in H1, H0.
  assert (Hms : exists ms, bop pair mu sig = Ok ms /\ arr_is ms [nt g; nx g; ny g]
     (fun idx => match idx with [t; x; y] => (Fin (pm_mu m t x y), Fin (pm_sig m t x y)) | _ => (NaN, NaN) end)).
  { destruct (bop_is pair mu sig _ _ _ _ _ Hmu Hsig (bshape_same _)) as (ms & E & Hms).
    exists ms; split; [exact E|]. eapply arr_is_ext; [exact Hms|]. intros idx Hi; inb_inv. cbn. picks. reflexivity. }
  destruct Hms as (ms & -> & Hms). cbn [bind].
  assert (K : forall (e : arr num) off, arr_is e [nv g; 1; 1; 1]%nat (fun idx => Fin (vE g (off + hd 0 idx)%nat)) ->
     exists a, bop (fun x ls => norm_logcdf1 L (fst ls) (snd ls) x) e ms = Ok a /\
       arr_is a [nv g; nt g; nx g; ny g] (fun idx => match idx with [v; t; x; y] =>
         lg (norm_cdf L ((vE g (off + v)%nat - pm_mu m t x y) / pm_sig m t x y)) | _ => NaN end)).
  { intros e off He. s_bop. eexists; split; [reflexivity|]. entries.
    pose proof (gp_sig _ _ Hm i0 i1 i2 Hi0 Hi1 Hi2). unfold norm_logcdf1; cbn.
    destruct (Rlt_dec 0 (pm_sig m i0 i1 i2)); [reflexivity|lra]. }
  destruct (K (init0 r) 0%nat) as (lo & -> & Hlo).
  { eapply arr_is_ext; [exact H0|]. intros idx Hi; inb_inv; ones; reflexivity. }
  destruct (K (tail0 r) 1%nat) as (hi & -> & Hhi).
  { eapply arr_is_ext; [exact H1|]. intros idx Hi; inb_inv; ones; reflexivity. }
  cbn [bind]. clear K H0 H1.
  assert (Hd : exists a, bop (fun h l => lse_b [(h, Fin 1); (l, Fin (-1))]) hi lo = Ok a /\
     arr_is a [nv g; nt g; nx g; ny g] (fun idx => match idx with [v; t; x; y] => lg (vbin g m t v x y) | _ => NaN end)).
  { s_bop. eexists; split; [reflexivity|]. entries. rewrite lse_b_diff.
    - unfold vbin. rewrite (po_F _ _ _ _ H). reflexivity.
    - rewrite <- (po_F _ _ _ _ H). apply (gp_F _ _ Hm).
    - rewrite <- (po_F _ _ _ _ H). apply (gp_F _ _ Hm). }
  destruct Hd as (d & -> & Hd). cbn [bind]. destruct density.
  - destruct log_dv_ok as (lv & -> & Hlv). cbn [bind]. pose proof (T_is _ _ _ Hd) as Ht. cbn in Ht. s_bop.
    eexists; split; [reflexivity|]. apply T_is in Hr0. cbn in Hr0. eapply arr_is_ext; [exact Hr0|].
    intros idx Hidx; inb_inv; cbn; picks; cbn.
    rewrite nsub_lg; [reflexivity|apply vbin_nonneg; assumption|apply wv_pos; assumption].
  - eexists; split; [reflexivity|]. eapply arr_is_ext; [exact Hd|]. intros idx Hidx; inb_inv. f_equal. field.
Qed.

Lemma tvxz_mw_ok density : exists a, tvxz_mw L self density = Ok a /\
  arr_is a (dims all_vars g) (fun idx => lg (pent g m density false all_vars (rd all_vars idx))).
Proof.
  unfold tvxz_mw. destruct (txz_mw_ok density) as (a & -> & Ha). destruct (v_tx_mw_ok density) as (b & -> & Hb).
  cbn [bind]. s_get. s_mov. s_get. s_bop. eexists; split; [reflexivity|].
  eapply arr_is_ext; [exact Hr2|]. intros idx Hidx; cbn in Hidx; inb_inv; cbn; picks; cbn.
  rewrite nadd_lg.
  - f_equal. unfold pent, par_prob, marg, pprob, pjoint, vol; cbn.
    pose proof (wt_pos i Hi). pose proof (wz_pos i3 Hi3). pose proof px_area_pos. pose proof (wv_pos i0 Hi0).
    pose proof (wid_pos _ _ _ (gg_xE _ Hg) Hi1). pose proof (wid_pos _ _ _ (gg_yE _ Hg) Hi2).
    destruct density; field; repeat split; lra.
  - pose proof (vbin_nonneg g m i i0 i1 i2 Hg Hm Hi Hi0 Hi1 Hi2). pose proof (wv_pos i0 Hi0).
    apply Rmult_le_pos; [assumption|]. left; apply Rinv_0_lt_compat. destruct density; lra.
  - apply pent_nonneg; try assumption; [discriminate|ing].
Qed.

Lemma tvxz_ok density lw : par_lw_ok g m lw true -> exists a, p_tvxz L self density lw = Ok a /\
  arr_is a (dims all_vars g) (fun idx => lg (pent g m density lw all_vars (rd all_vars idx))).
Proof.
  intros Hl. unfold p_tvxz. destruct (tvxz_mw_ok density) as (a & -> & Ha). destruct (tvxz_mw_ok false) as (b & -> & Hb).
  cbn [bind]. destruct lw; [|exists a; split; [reflexivity|exact Ha]].
  specialize (Hl eq_refl). pose proof lw_is as Hlw.
  pose proof (pjoint_nonneg g m true Hg Hm) as HJ.
  pose proof (lit_nonneg _ _ Hg HJ) as HLn.
  pose proof (gg_t _ Hg). pose proof (gg_x _ Hg). pose proof (gg_y _ Hg). pose proof (gg_z _ Hg). pose proof (gg_v _ Hg).
  cbn [dims all_vars has_t has_v has_x has_z opt app nt nv nx ny nz] in *.
  s_get. s_map. s_bop.
  assert (HL : arr_is r1 [nt g; nv g; nx g; ny g; nz g] (fun idx =>
            lg (at_bin (lit g (pjoint g m true)) (rd all_vars idx)))).
  { entries. rewrite nlog_Fin, nadd_lg.
    - f_equal. unfold pent, par_prob, marg, lit, at_bin; cbn. field.
    - apply pent_nonneg; try assumption; [discriminate|ing].
    - apply (gg_L _ Hg); assumption. }
  clear Hr1. s_lseall.
  assert (HT : arr_is r2 [] (fun _ => lg (total g (lit g (pjoint g m true))))).
  { eapply arr_is_ext; [eassumption|]. intros ? ?.
    rewrite (lse_map_lg _ (fun idx => at_bin (lit g (pjoint g m true)) (rd all_vars idx))).
    - f_equal. repeat (rewrite sum_all_idx_cons; apply Sum_ext; intros). apply sum_all_idx_nil.
    - intros ix Hix. reflexivity.
    - intros ix Hix. apply in_all_idx in Hix. inb_inv. apply HLn; cbn; assumption. }
  clear Hr1. s_bop. s_bop. eexists; split; [reflexivity|]. entries.
  pose proof (gg_L _ Hg i i3 Hi Hi3).
  rewrite nlog_Fin, nadd_lg, nsub_lg; [f_equal| | | |].
  - unfold pent, par_prob, marg, pprob, light, pgrid in *; cbn -[total lit] in *.
    set (TT := total g (lit g (pjoint g m true))) in *.
    assert (Q : 0 < (if density then vol g all_vars (Bin i i0 i1 i2 i3) else 1)).
    { destruct density; [|lra]. apply (vol_pos' g true); [assumption|ing]. }
    unfold lit; cbn. clearbody TT. unfold all_vars in *. field. lra.
  - apply Rmult_le_pos; [apply pent_nonneg; try assumption; [discriminate|ing]|assumption].
  - exact Hl.
  - apply pent_nonneg; try assumption; [discriminate|ing].
  - assumption.
Qed.

(** ** summing out *)
Lemma sum_idx1 F n : sumR (map F (all_idx [n])) = Sum n (fun a => F [a]).
Proof. rewrite sum_all_idx_cons. apply Sum_ext; intros. apply sum_all_idx_nil. Qed.
Lemma sum_idx2 F n k : sumR (map F (all_idx [n; k])) = Sum n (fun a => Sum k (fun b => F [a; b])).
Proof. rewrite sum_all_idx_cons. apply Sum_ext; intros. apply sum_idx1. Qed.
Lemma sum_idx3 F n k l : sumR (map F (all_idx [n; k; l])) = Sum n (fun a => Sum k (fun b => Sum l (fun c => F [a; b; c]))).
Proof. rewrite sum_all_idx_cons. apply Sum_ext; intros. apply sum_idx2. Qed.

Lemma lse_out (S' S : vset) (density lw : bool) (ds : list nat) (f : list nat -> num) (b : list nat -> bin) (i : bin) :
  has_v S' = has_v S -> par_lw_ok g m lw (has_v S) -> in_grid (pgrid g (has_v S)) i ->
  (forall sub, inb sub ds -> in_grid (pgrid g (has_v S)) (b sub) /\
     f sub = lg (par_prob g m lw S' (b sub) / (if density then vol g S i else 1))) ->
  sumR (map (fun sub => par_prob g m lw S' (b sub)) (all_idx ds)) = par_prob g m lw S i ->
  lse (map f (all_idx ds)) = lg (pent g m density lw S i).
Proof.
  intros Ev Hl Hi Hf HS.
  assert (Q : 0 < (if density then vol g S i else 1)).
  { destruct density; [|lra]. eapply vol_pos'; eassumption. }
  rewrite (lse_map_lg _ (fun sub => par_prob g m lw S' (b sub) * / (if density then vol g S i else 1))).
  - f_equal. unfold pent, Rdiv. rewrite <- HS. clear -Q.
    induction (all_idx ds) as [|a l IH]; cbn; [ring|]. unfold sumR in IH |- *. cbn. rewrite IH. ring.
  - intros sub Hs. apply in_all_idx in Hs. apply Hf, Hs.
  - intros sub Hs. apply in_all_idx in Hs. destruct (Hf sub Hs) as [Hb _].
    apply Rmult_le_pos; [|left; apply Rinv_0_lt_compat; assumption].
    apply par_prob_nonneg; try assumption; rewrite Ev; assumption.
Qed.

Lemma nadd_lg2 p w1 w2 : 0 <= p -> 0 < w1 -> 0 < w2 ->
  nadd (nadd (lg p) (lg w1)) (lg w2) = nadd (lg p) (lg (w1 * w2)).
Proof.
  intros. rewrite !nadd_lg; try lra; try (apply Rmult_le_pos; lra). f_equal; ring.
Qed.

Lemma add_w S' S lw w b i : par_lw_ok g m lw (has_v S') -> in_grid (pgrid g (has_v S')) b ->
  0 < w -> 0 < vol g S i -> vol g S' b = vol g S i * w ->
  nadd (lg (pent g m true lw S' b)) (lg w) = lg (par_prob g m lw S' b / vol g S i).
Proof.
  intros Hl Hb Hw HV E. rewrite nadd_lg; [|apply pent_nonneg; assumption|lra].
  f_equal. unfold pent. rewrite E. field. lra.
Qed.

Let V_t := VSet true false false false.
Let V_tx := VSet true false true false.
Let V_tz := VSet true false false true.
Let V_txz := VSet true false true true.
Let V_x := VSet false false true false.
Let V_xz := VSet false false true true.
Let V_z := VSet false false false true.
Let V_v := VSet false true false false.
Let V_tv := VSet true true false false.
Let V_vx := VSet false true true false.
Let V_vz := VSet false true false true.
Let V_tvx := VSet true true true false.
Let V_tvz := VSet true true false true.
Let V_vxz := VSet false true true true.

(** an array over S holding the answers to a query of S *)
Definition holds (a : arr num) (density lw : bool) (S : vset) : Prop :=
  arr_is a (dims S g) (fun idx => lg (pent g m density lw S (rd S idx))).
Definition ok (r : res (arr num)) (density lw : bool) (S : vset) : Prop :=
  exists a, r = Ok a /\ holds a density lw S.

Ltac vols := unfold vol; cbn -[px_area]; rewrite ?px_area_at by assumption; try ring.
Ltac wpos := first [apply px_area_pos | apply wt_pos; assumption | apply wz_pos; assumption | apply wv_pos; assumption
  | apply Rmult_lt_0_compat; wpos].
Ltac ents :=
  eapply arr_is_ext; [eassumption|];
  let idx := fresh "idx" in let Hidx := fresh "Hidx" in
  intros idx Hidx; cbn in Hidx; inb_inv; cbn -[pent par_prob px_area]; picks; cbn -[pent par_prob px_area].
(** one summation: Hr is the array after logsumexp *)
Ltac out S' S bb :=
  match goal with Hl : par_lw_ok _ _ ?lw _ |- _ =>
  eapply arr_is_ext; [eassumption|];
  let idx := fresh "idx" in let Hidx := fresh "Hidx" in
  intros idx Hidx; cbn in Hidx; inb_inv; cbn -[pent par_prob px_area];
  match goal with |- lse (map ?f (all_idx ?ds)) = lg (pent _ _ ?d _ _ ?i) =>
    apply (lse_out S' S d lw ds f (fun sub : list nat => bb i (nth 0 sub 0%nat) (nth 1 sub 0%nat) (nth 2 sub 0%nat)) i eq_refl Hl);
    [ ing
    | let sub := fresh "sub" in let Hsub := fresh "Hsub" in
      intros sub Hsub; inb_inv; split;
      [ ing
      | cbn -[pent par_prob px_area]; picks; cbn -[pent par_prob px_area];
        first
        [ unfold pent; reflexivity
        | rewrite nadd_lg2 by (first [wpos | apply pent_nonneg; [assumption|assumption|exact Hl|ing]]);
          apply (add_w S' S lw); [exact Hl|ing|wpos|apply (vol_pos' g (has_v S)); [assumption|ing]|vols]
        | apply (add_w S' S lw); [exact Hl|ing|wpos|apply (vol_pos' g (has_v S)); [assumption|ing]|vols]
        ]]
    | rewrite ?sum_idx1, ?sum_idx2, ?sum_idx3; cbn [nth] ]
  end end.

Let u_x (i : bin) (x y _z : nat) : bin := Bin (bt i) (bv i) x y (bz i).
Let u_z (i : bin) (z _y _z : nat) : bin := Bin (bt i) (bv i) (bx i) (by_ i) z.
Let u_t (i : bin) (t _y _z : nat) : bin := Bin t (bv i) (bx i) (by_ i) (bz i).
Let u_tz (i : bin) (t z _z : nat) : bin := Bin t (bv i) (bx i) (by_ i) z.
Let u_tx (i : bin) (t x y : nat) : bin := Bin t (bv i) x y (bz i).

Lemma tz_ok density lw : par_lw_ok g m lw false -> ok (p_tz self density lw) density lw V_tz.
Proof.
  intros Hl. unfold p_tz, ok, holds. destruct (txz_ok density lw Hl) as (a & -> & Ha). cbn [bind].
  pose proof (gg_x _ Hg). pose proof (gg_y _ Hg). pose proof log_dxdy_is as Hd.
  destruct density; [s_iop|]; cbn [bind]; s_lse; (eexists; split; [reflexivity|]); out V_txz V_tz u_x;
    exact (marg_sum_x (flat g) _ V_tz _).
Qed.

Lemma t_lw_ok density lw : par_lw_ok g m true false -> lw = true -> ok (p_t self density lw) density lw V_t.
Proof.
  intros Hl ->. unfold p_t, ok, holds. destruct (tz_ok true true Hl) as (a & -> & Ha). cbn [bind].
  unfold holds in Ha. cbn [dims V_tz has_t has_v has_x has_z opt app] in Ha.
  pose proof (gg_z _ Hg). destruct log_dz_ok as (lz & -> & Hz). destruct log_dt_ok as (lt & -> & Ht). cbn [bind].
  s_bop. s_lse.
  assert (E : arr_is r0 [nt g] (fun idx => lg (pent g m true true V_t (rd V_t idx)))).
  { out V_tz V_t u_z. exact (marg_sum_z (flat g) _ V_t _). }
  destruct density; [exists r0; split; [reflexivity|exact E]|].
  clear Hr0. s_iop. eexists; split; [reflexivity|]. ents.
  rewrite nadd_lg; [|apply pent_nonneg; [assumption|assumption|exact Hl|ing]|left; apply wt_pos; assumption].
  f_equal. unfold pent. vols. pose proof (wt_pos i Hi). field. lra.
Qed.

Lemma tx_lw_ok density lw : par_lw_ok g m true false -> lw = true -> ok (p_tx self density lw) density lw V_tx.
Proof.
  intros Hl ->. unfold p_tx, ok, holds. destruct (txz_ok density true Hl) as (a & -> & Ha). cbn [bind].
  pose proof (gg_z _ Hg). destruct log_dz_ok as (lz & -> & Hz).
  destruct density; cbn [bind]; [s_iop|]; s_lse; (eexists; split; [reflexivity|]); out V_txz V_tx u_z;
    exact (marg_sum_z (flat g) _ V_tx _).
Qed.

Ltac start lem := 
  let a := fresh "a" in let Ha := fresh "Ha" in
  destruct lem as (a & -> & Ha); cbn [bind]; unfold holds in Ha;
  cbn [dims V_t V_tx V_tz V_txz V_x V_xz V_z V_v V_tv V_vx V_vz V_tvx V_tvz V_vxz all_vars has_t has_v has_x has_z opt app] in Ha.

Lemma xz_ok density lw : par_lw_ok g m lw false -> ok (p_xz self density lw) density lw V_xz.
Proof.
  intros Hl. unfold p_xz, add_log_dt, ok, holds. start (txz_ok density lw Hl).
  pose proof (gg_t _ Hg). destruct log_dt_ok as (lt & -> & Ht). pose proof (T_is _ _ _ Ha) as HT. cbn in HT.
  destruct density; cbn [bind]; [s_bop; apply T_is in Hr; cbn in Hr|]; s_lse;
  (eexists; split; [reflexivity|]); out V_txz V_xz u_t; reflexivity.
Qed.

Lemma z_ok density lw : par_lw_ok g m lw false -> ok (p_z self density lw) density lw V_z.
Proof.
  intros Hl. unfold p_z, add_log_dt, ok, holds. start (tz_ok density lw Hl).
  pose proof (gg_t _ Hg). destruct log_dt_ok as (lt & -> & Ht). pose proof (T_is _ _ _ Ha) as HT. cbn in HT.
  destruct density; cbn [bind]; [s_bop; apply T_is in Hr; cbn in Hr|]; s_lse;
  (eexists; split; [reflexivity|]); out V_tz V_z u_t; reflexivity.
Qed.

Lemma x_lw_ok density lw : par_lw_ok g m true false -> lw = true -> ok (p_x self density lw) density lw V_x.
Proof.
  intros Hl ->. unfold p_x, ok, holds. start (txz_ok density true Hl).
  pose proof (gg_t _ Hg). pose proof (gg_z _ Hg). destruct log_dtz_ok as (lt & -> & Ht). cbn [bind].
  destruct density; cbn [bind]; [s_get; s_iop|]; s_lse;
  (eexists; split; [reflexivity|]); out V_txz V_x u_tz;
  (etransitivity; [apply Sum_ext; intros t Htt; exact (marg_sum_z (flat g) _ V_tx (Bin t 0 i i0 0))|reflexivity]).
Qed.

(** mass-weighted p(t), p(x|t) p(t): the normalised factors sum out *)
Lemma par_prob_tx i : in_grid (flat g) i ->
  par_prob g m false V_tx i = pm_t m (bt i) * wid (tE g) (bt i) * (pm_x m (bt i) (bx i) (by_ i) * px_area).
Proof.
  intros (Ht & _ & Hx & Hy & _). cbn in *. unfold par_prob, marg, pprob, pjoint, txz_mass; cbn.
  rewrite px_area_at by assumption. rewrite Rplus_0_l.
  rewrite (Sum_ext _ _ (fun z => pm_t m (bt i) * wid (tE g) (bt i) * (pm_x m (bt i) (bx i) (by_ i) * px_area) *
     (pm_z m (bt i) (bx i) (by_ i) z * wid (zE g) z))) by (intros; ring).
  rewrite Sum_scal, (gp_z1 _ _ Hm) by assumption. ring.
Qed.
Lemma par_prob_t i : in_grid (flat g) i ->
  par_prob g m false V_t i = pm_t m (bt i) * wid (tE g) (bt i).
Proof.
  intros Hi. transitivity (Sum (nx g) (fun x => Sum (ny g) (fun y => par_prob g m false V_tx (set_xy x y i)))).
  { symmetry. exact (marg_sum_x (flat g) _ V_t i). }
  destruct Hi as (Ht & Hv & Hx & Hy & Hz). cbn in *.
  rewrite (Sum_ext _ _ (fun x => pm_t m (bt i) * wid (tE g) (bt i) *
      Sum (ny g) (fun y => pm_x m (bt i) x y * (wid (xE g) x * wid (yE g) y)))).
  - rewrite Sum_scal, (gp_x1 _ _ Hm) by assumption. ring.
  - intros x Hxx. rewrite <- Sum_scal. apply Sum_ext; intros y Hyy. rewrite par_prob_tx by ing. cbn.
    rewrite px_area_at by assumption. reflexivity.
Qed.

Lemma t_ok density lw : par_lw_ok g m lw false -> ok (p_t self density lw) density lw V_t.
Proof.
  intros Hl. destruct lw; [apply t_lw_ok; auto|]. unfold p_t, ok, holds. start (t_mw_ok density).
  eexists; split; [reflexivity|]. ents. f_equal. unfold pent. rewrite par_prob_t by ing. cbn.
  unfold vol; cbn. pose proof (wt_pos i Hi). destruct density; cbn; field; lra.
Qed.

Lemma tx_ok density lw : par_lw_ok g m lw false -> ok (p_tx self density lw) density lw V_tx.
Proof.
  intros Hl. destruct lw; [apply tx_lw_ok; auto|]. unfold p_tx, ok, holds. start (tx_mw_ok density).
  eexists; split; [reflexivity|]. ents. f_equal. unfold pent. rewrite par_prob_tx by ing. cbn.
  unfold vol; cbn. rewrite px_area_at by assumption. pose proof (wt_pos i Hi). pose proof px_area_pos.
  destruct density; cbn; field; lra.
Qed.

Lemma x_ok density lw : par_lw_ok g m lw false -> ok (p_x self density lw) density lw V_x.
Proof.
  intros Hl. destruct lw; [apply x_lw_ok; auto|]. unfold p_x, ok, holds. start (x_t_mw_ok density).
  start (t_mw_ok false). pose proof (gg_t _ Hg). s_bop. s_lse. eexists; split; [reflexivity|].
  eapply arr_is_ext; [eassumption|]. intros idx Hidx. cbn in Hidx; inb_inv. cbn -[pent par_prob].
  pose proof px_area_pos.
  match goal with |- lse (map ?f (all_idx ?ds)) = lg (pent _ _ ?d _ _ ?i) =>
    apply (lse_out V_tx V_x d false ds f (fun sub : list nat => u_t i (nth 0 sub 0%nat) 0%nat 0%nat) i eq_refl Hl) end.
  - ing.
  - intros sub Hsub; inb_inv. split; [ing|]. cbn -[par_prob]; picks; cbn -[par_prob].
    rewrite nadd_lg.
    + f_equal. rewrite par_prob_tx by ing. cbn. unfold vol; cbn. rewrite px_area_at by assumption.
      destruct density; cbn; field; lra.
    + apply Rmult_le_pos; [apply (gp_x _ _ Hm); assumption|left; apply dn_pos, px_area_pos].
    + apply Rmult_le_pos; [apply (gp_t _ _ Hm); assumption|left; apply wt_pos; assumption].
  - rewrite sum_idx1. cbn [nth]. reflexivity.
Qed.

(** ** strings with v *)
Lemma par_prob_tvx i : in_grid g i ->
  par_prob g m false V_tvx i = par_prob g m false V_tx i * vbin g m (bt i) (bv i) (bx i) (by_ i).
Proof.
  intros Hi. unfold par_prob, marg, pprob, pjoint; cbn. rewrite Rplus_0_l, <- Sum_scal_r.
  apply Sum_ext; intros. ring.
Qed.

Lemma tvx_ok density lw : par_lw_ok g m lw true -> ok (p_tvx L self density lw) density lw V_tvx.
Proof.
  intros Hl. unfold p_tvx, ok, holds. destruct lw.
  - start (tvxz_ok density true Hl). pose proof (gg_z _ Hg). destruct log_dz_ok as (lz & -> & Hz).
    destruct density; cbn [bind]; [s_iop|]; s_lse; (eexists; split; [reflexivity|]); out all_vars V_tvx u_z;
    exact (marg_sum_z g _ V_tvx _).
  - assert (E : ok (tx_mw self density) density false V_tx) by (apply (tx_ok density false); discriminate).
    start E. start (v_tx_mw_ok density). s_get. s_mov. s_bop. eexists; split; [reflexivity|]. ents.
    pose proof (vbin_nonneg g m i i0 i1 i2 Hg Hm Hi Hi0 Hi1 Hi2). pose proof (wv_pos i0 Hi0).
    rewrite nadd_lg.
    + f_equal. unfold pent. rewrite par_prob_tvx by ing. cbn -[par_prob].
      change (par_prob g m false V_tx (Bin i 0 i1 i2 0)) with (par_prob g m false V_tx (Bin i i0 i1 i2 0)).
      unfold vol; cbn -[par_prob px_area]. rewrite px_area_at by assumption.
      pose proof (wt_pos i Hi). pose proof px_area_pos.
      destruct density; field; repeat split; lra.
    + apply pent_nonneg; [assumption|assumption|discriminate|ing].
    + apply Rmult_le_pos; [assumption|left; apply Rinv_0_lt_compat; destruct density; lra].
Qed.

Lemma tv_ok density lw : par_lw_ok g m lw true -> ok (p_tv L self density lw) density lw V_tv.
Proof.
  intros Hl. unfold p_tv, ok, holds. start (tvx_ok density lw Hl).
  pose proof (gg_x _ Hg). pose proof (gg_y _ Hg). pose proof log_dxdy_is as Hd.
  destruct density; [s_iop|]; cbn [bind]; s_lse; (eexists; split; [reflexivity|]); out V_tvx V_tv u_x;
    exact (marg_sum_x g _ V_tv _).
Qed.

Lemma tvz_ok density lw : par_lw_ok g m lw true -> ok (p_tvz L self density lw) density lw V_tvz.
Proof.
  intros Hl. unfold p_tvz, ok, holds. start (tvxz_ok density lw Hl).
  pose proof (gg_x _ Hg). pose proof (gg_y _ Hg). pose proof log_dxdy_is as Hd.
  destruct density; [s_iop|]; cbn [bind]; s_lse; (eexists; split; [reflexivity|]); out all_vars V_tvz u_x;
    exact (marg_sum_x g _ V_tvz _).
Qed.

Lemma vx_ok density lw : par_lw_ok g m lw true -> ok (p_vx L self density lw) density lw V_vx.
Proof.
  intros Hl. unfold p_vx, add_log_dt, ok, holds. start (tvx_ok density lw Hl).
  pose proof (gg_t _ Hg). destruct log_dt_ok as (lt & -> & Ht). pose proof (T_is _ _ _ Ha) as HT. cbn in HT.
  destruct density; cbn [bind]; [s_bop; apply T_is in Hr; cbn in Hr|]; s_lse;
  (eexists; split; [reflexivity|]); out V_tvx V_vx u_t; reflexivity.
Qed.

Lemma vxz_ok density lw : par_lw_ok g m lw true -> ok (p_vxz L self density lw) density lw V_vxz.
Proof.
  intros Hl. unfold p_vxz, add_log_dt, ok, holds. start (tvxz_ok density lw Hl).
  pose proof (gg_t _ Hg). destruct log_dt_ok as (lt & -> & Ht). pose proof (T_is _ _ _ Ha) as HT. cbn in HT.
  destruct density; cbn [bind]; [s_bop; apply T_is in Hr; cbn in Hr|]; s_lse;
  (eexists; split; [reflexivity|]); out all_vars V_vxz u_t; reflexivity.
Qed.

Lemma vz_ok density lw : par_lw_ok g m lw true -> ok (p_vz L self density lw) density lw V_vz.
Proof.
  intros Hl. unfold p_vz, ok, holds. start (vxz_ok density lw Hl).
  pose proof (gg_x _ Hg). pose proof (gg_y _ Hg). pose proof log_dxdy_is as Hd.
  destruct density; [s_iop|]; cbn [bind]; s_lse; (eexists; split; [reflexivity|]); out V_vxz V_vz u_x;
    exact (marg_sum_x g _ V_vz _).
Qed.

Lemma v_ok density lw : par_lw_ok g m lw true -> ok (p_v L self density lw) density lw V_v.
Proof.
  intros Hl. unfold p_v, add_log_dt, ok, holds. start (tvx_ok density lw Hl).
  pose proof (gg_t _ Hg). pose proof (gg_x _ Hg). pose proof (gg_y _ Hg). pose proof log_dxdy_is as Hd.
  destruct log_dt_ok as (lt & -> & Ht). pose proof (T_is _ _ _ Ha) as HT. cbn in HT.
  destruct density; cbn [bind]; [s_bop; apply T_is in Hr; cbn in Hr; s_iop|]; s_lse;
  (eexists; split; [reflexivity|]).
  - out V_tvx V_v u_tx; reflexivity.
  - out V_tvx V_v u_tx. reflexivity.
Qed.

(** ** all 15 marginals *)
Lemma par_marginal_ok S density lw : nonempty S = true -> par_lw_ok g m lw (has_v S) ->
  ok (get_log_marginal (par_table L self) (name S) density lw) density lw S.
Proof.
  intros HS Hl. destruct S as [[] [] [] []]; try discriminate HS; cbn [has_v] in Hl.
  - exact (tvxz_ok density lw Hl).
  - exact (tvx_ok density lw Hl).
  - exact (tvz_ok density lw Hl).
  - exact (tv_ok density lw Hl).
  - exact (txz_ok density lw Hl).
  - exact (tx_ok density lw Hl).
  - exact (tz_ok density lw Hl).
  - exact (t_ok density lw Hl).
  - exact (vxz_ok density lw Hl).
  - exact (vx_ok density lw Hl).
  - exact (vz_ok density lw Hl).
  - exact (v_ok density lw Hl).
  - exact (xz_ok density lw Hl).
  - exact (x_ok density lw Hl).
  - exact (z_ok density lw Hl).
Qed.

(** ** conditionals *)
Lemma vbin_le1 t v x y : vbin g m t v x y <= 1.
Proof.
  unfold vbin. pose proof (gp_F _ _ Hm ((vE g (S v) - pm_mu m t x y) / pm_sig m t x y)).
  pose proof (gp_F _ _ Hm ((vE g v - pm_mu m t x y) / pm_sig m t x y)). lra.
Qed.

(** dropping the velocity factor only increases a marginal *)
Lemma marg_drop_v (Q : nat -> nat -> nat -> nat -> R) S i : has_v S = true -> in_grid g i ->
  (forall t x y z, (t < nt g)%nat -> (x < nx g)%nat -> (y < ny g)%nat -> (z < nz g)%nat -> 0 <= Q t x y z) ->
  marg g (fun t v x y z => Q t x y z * vbin g m t v x y) S i <=
  marg (flat g) (fun t v x y z => Q t x y z) (with_v false S) i.
Proof.
  intros HS (Ht & Hv & Hx & Hy & Hz) HQ. unfold marg; cbn. rewrite HS; cbn.
  apply over_le; [auto|]. intros t Htt. rewrite Rplus_0_l.
  apply over_le; [auto|]. intros x Hxx. apply over_le; [auto|]. intros y Hyy. apply over_le; [auto|]. intros z Hzz.
  specialize (HQ t x y z Htt Hxx Hyy Hzz).
  pose proof (vbin_le1 t (bv i) x y). rewrite <- (Rmult_1_r (Q t x y z)) at 2. apply Rmult_le_compat_l; assumption.
Qed.

Definition wt (lw : bool) (t z : nat) : R := if lw then Lw g t z else 1.
Definition nrm (lw b : bool) : R := if lw then total (pgrid g b) (lit (pgrid g b) (pjoint g m b)) else 1.

Lemma par_prob_nrm lw S i : par_prob g m lw S i =
  marg (pgrid g (has_v S)) (fun t v x y z => txz_mass g m t x y z * wt lw t z * (if has_v S then vbin g m t v x y else 1)) S i
  / nrm lw (has_v S).
Proof.
  unfold par_prob, Rdiv. rewrite (Rmult_comm (marg _ _ _ _)), <- marg_scal.
  unfold marg. repeat (apply over_ext_all; intros).
  unfold pprob, nrm, wt, light, lit, pjoint. destruct lw; [|field].
  destruct (has_v S); cbn; unfold Rdiv; ring.
Qed.

Lemma lw_ok_drop lw : par_lw_ok g m lw true -> par_lw_ok g m lw false.
Proof.
  intros Hl E. specialize (Hl E). cbn [pgrid] in *.
  assert (HQ : forall t x y z, (t < nt g)%nat -> (x < nx g)%nat -> (y < ny g)%nat -> (z < nz g)%nat ->
     0 <= txz_mass g m t x y z * Lw g t z).
  { intros. apply Rmult_le_pos; [apply txz_nonneg; assumption|apply (gg_L _ Hg); assumption]. }
  set (i0 := Bin 0 0 0 0 0).
  assert (E0 : total (flat g) (lit (flat g) (pjoint g m false)) =
     marg (flat g) (fun t v x y z => txz_mass g m t x y z * Lw g t z) no_vars i0).
  { rewrite marg_none. apply total_ext. intros t v x y z _ _ _ _ _. unfold lit, pjoint; cbn. ring. }
  assert (E1 : total g (lit g (pjoint g m true)) <= INR (nv g) * total (flat g) (lit (flat g) (pjoint g m false))).
  { rewrite E0, <- (marg_none g _ i0).
    rewrite <- Sum_const. change no_vars with (with_v false V_v) at 1. rewrite <- (marg_sum_v g _ V_v i0).
    apply Sum_le. intros v Hv. eapply Rle_trans; [|apply (marg_drop_v _ (with_v true V_v) (set_v v i0) eq_refl); [|exact HQ]].
    - right. apply marg_ext; [ing|]. intros t v' x y z _ _ _ _ _. unfold lit, pjoint. ring.
    - ing. }
  assert (0 < INR (nv g)) by (apply lt_0_INR, (gg_v _ Hg)).
  destruct (Rlt_dec 0 (total (flat g) (lit (flat g) (pjoint g m false)))) as [|n]; [assumption|].
  assert (INR (nv g) * total (flat g) (lit (flat g) (pjoint g m false)) <= INR (nv g) * 0)
    by (apply Rmult_le_compat_l; lra). lra.
Qed.

Lemma nrm_pos lw b : par_lw_ok g m lw b -> 0 < nrm lw b.
Proof. unfold nrm. destruct lw; [intros Hl; apply Hl; reflexivity|lra]. Qed.

Lemma in_grid_flat i : in_grid g i -> in_grid (flat g) (set_v 0 i).
Proof. intros (?&?&?&?&?). ing. Qed.

Lemma par_prob_set_v lw S i v : has_v S = false -> par_prob g m lw S (set_v v i) = par_prob g m lw S i.
Proof. intros E. unfold par_prob, marg. rewrite E. reflexivity. Qed.

Lemma par_prob_ge0 lw S i : par_lw_ok g m lw (has_v S) -> in_grid g i -> 0 <= par_prob g m lw S i.
Proof.
  intros Hl Hi. destruct (has_v S) eqn:E.
  - apply par_prob_nonneg; try assumption; rewrite E; assumption.
  - rewrite <- (par_prob_set_v lw S i 0 E). apply par_prob_nonneg; try assumption; rewrite E; try assumption.
    apply in_grid_flat, Hi.
Qed.

Lemma par_prob_zero lw A C i : par_lw_ok g m lw (has_v (union A C)) -> in_grid g i ->
  par_prob g m lw C i = 0 -> par_prob g m lw (union A C) i = 0.
Proof.
  intros Hl Hi E0. set (U := union A C) in *.
  assert (HU : has_v C = true -> has_v U = true) by (unfold U; cbn; intros ->; apply orb_true_r).
  assert (HlC : par_lw_ok g m lw (has_v C)).
  { destruct (has_v C) eqn:EC; [rewrite (HU eq_refl) in Hl; exact Hl|].
    destruct (has_v U); [apply lw_ok_drop|]; exact Hl. }
  assert (Hsub : subset C U = true) by (unfold U; destruct A as [[] [] [] []], C as [[] [] [] []]; reflexivity).
  pose proof (par_prob_ge0 lw U i Hl Hi) as HU0.
  rewrite par_prob_nrm in E0. rewrite par_prob_nrm in HU0 |- *.
  pose proof (nrm_pos _ _ HlC) as P1. pose proof (nrm_pos _ _ Hl) as P2.
  set (QQ := fun t x y z => txz_mass g m t x y z * wt lw t z) in *.
  assert (HQ : forall t x y z, (t < nt g)%nat -> (x < nx g)%nat -> (y < ny g)%nat -> (z < nz g)%nat -> 0 <= QQ t x y z).
  { intros t x y z Ht Hx Hy Hz. unfold QQ, wt. apply Rmult_le_pos; [apply txz_nonneg; assumption|].
    destruct lw; [apply (gg_L _ Hg); assumption|lra]. }
  assert (Z : marg (pgrid g (has_v C)) (fun t v x y z => QQ t x y z * (if has_v C then vbin g m t v x y else 1)) C i = 0).
  { apply (Rmult_eq_reg_r (/ nrm lw (has_v C))); [|apply Rinv_neq_0_compat; lra]. rewrite Rmult_0_l. exact E0. }
  assert (N : nonneg (pgrid g (has_v U)) (fun t v x y z => QQ t x y z * (if has_v U then vbin g m t v x y else 1))).
  { intros t v x y z Ht Hv Hx Hy Hz. apply Rmult_le_pos.
    - apply HQ; destruct (has_v U); assumption.
    - destruct (has_v U); [apply vbin_nonneg; assumption|lra]. }
  assert (W : marg (pgrid g (has_v U)) (fun t v x y z => QQ t x y z * (if has_v U then vbin g m t v x y else 1)) U i <= 0).
  { rewrite <- Z. destruct (has_v U) eqn:EU, (has_v C) eqn:EC.
    - apply marg_mono; assumption.
    - eapply Rle_trans; [apply (marg_drop_v QQ U i EU Hi HQ)|].
      assert (N' : nonneg (flat g) (fun t v x y z => QQ t x y z * 1))
        by (intros t v x y z Ht Hv Hx Hy Hz; rewrite Rmult_1_r; apply HQ; assumption).
      eapply Rle_trans; [right; apply (marg_ext (flat g) _ (fun t v x y z => QQ t x y z * 1) (with_v false U) (set_v 0 i));
         [apply in_grid_flat, Hi|intros t v x y z _ _ _ _ _; ring]|].
      eapply Rle_trans; [apply (marg_mono (flat g) _ C (with_v false U) (set_v 0 i));
         [apply in_grid_flat, Hi|exact N'|]|].
      + unfold U; destruct A as [[] [] [] []], C as [[] [] [] []]; try discriminate EC; reflexivity.
      + right. apply marg_agree. unfold agree; rewrite EC; cbn; repeat split; intros; congruence.
    - discriminate (HU eq_refl).
    - eapply Rle_trans; [right; apply (marg_agree _ _ U i (set_v 0 i))|].
      + unfold agree; rewrite EU; cbn; repeat split; intros; congruence.
      + eapply Rle_trans; [apply (marg_mono (flat g) _ C U (set_v 0 i)); [apply in_grid_flat, Hi|exact N|exact Hsub]|].
        right. apply marg_agree. unfold agree; rewrite EC; cbn; repeat split; intros; congruence. }
  assert (Q0 : marg (pgrid g (has_v U)) (fun t v x y z => QQ t x y z * (if has_v U then vbin g m t v x y else 1)) U i = 0).
  { apply Rle_antisym; [exact W|]. apply (Rmult_le_reg_r (/ nrm lw (has_v U))); [apply Rinv_0_lt_compat; lra|].
    rewrite Rmult_0_l. exact HU0. }
  transitivity (0 / nrm lw (has_v U)); [|unfold Rdiv; ring]. f_equal. exact Q0.
Qed.

(** a conditional for which there is a special method *)
Definition special (A C : vset) : bool :=
  (String.eqb (cname A C) "x_t" || String.eqb (cname A C) "v_tx" || String.eqb (cname A C) "z_tx")%bool.

Lemma lw_ok_C lw A C : par_lw_ok g m lw (has_v (union A C)) -> par_lw_ok g m lw (has_v C).
Proof.
  intros Hl. cbn in Hl. destruct (has_v C) eqn:EC; [rewrite orb_true_r in Hl; exact Hl|].
  rewrite orb_false_r in Hl. destruct (has_v A); [apply lw_ok_drop|]; exact Hl.
Qed.

Lemma par_prob_proj lw S i : par_prob g m lw S (proj S i) = par_prob g m lw S i.
Proof. unfold par_prob. apply marg_proj. Qed.

Lemma par_tab lw S : nonempty S = true -> par_lw_ok g m lw (has_v S) ->
  tab (par_table L self) g lw S (par_prob g m lw S).
Proof.
  intros HS Hl. destruct (par_marginal_ok S false lw HS Hl) as (a & E & Ha). exists a; split; [exact E|].
  eapply arr_is_ext; [exact Ha|]. intros idx Hi. cbn -[par_prob]. unfold pent. f_equal. field.
Qed.

Lemma par_cond_ok A C density lw :
  nonempty A = true -> nonempty C = true -> disjoint A C = true -> par_lw_ok g m lw (has_v (union A C)) ->
  special A C = false ->
  exists a, get_log_conditional (pa_cube self) (par_table L self) (cname A C) density lw = Ok a /\
    arr_is a (dims A g ++ dims C g) (fun idx => let i := rd2 A C idx in
      cond_entry (par_prob g m lw (union A C) i / (if density then vol g A i else 1)) (par_prob g m lw C i)).
Proof.
  intros HA HC HD Hl Hsp. pose proof (lw_ok_C lw A C Hl) as HlC.
  assert (HU : nonempty (union A C) = true) by (destruct A as [[] [] [] []], C as [[] [] [] []]; try discriminate HA; reflexivity).
  destruct (cond2_ok (pa_cube self) (par_table L self) g lw Hc Hg A C density
     (par_prob g m lw (union A C)) (par_prob g m lw C) HA HC HD
     (par_tab lw _ HU Hl) (par_tab lw C HC HlC)) as (a & E & Ha).
  - unfold no_method. clear -Hsp HD HA HC.
    destruct A as [[] [] [] []], C as [[] [] [] []]; try discriminate HD; try discriminate Hsp;
      try discriminate HA; try discriminate HC; exact I.
  - intros i Hi. rewrite !par_prob_proj. split; [apply par_prob_ge0; assumption|].
    split; [apply par_prob_ge0; assumption|]. apply par_prob_zero; assumption.
  - exists a; split; [exact E|]. eapply arr_is_ext; [exact Ha|]. intros idx Hi. cbv beta zeta.
    rewrite !par_prob_proj. reflexivity.
Qed.

(** the special methods, mass-weighted: the factors themselves *)
Lemma log_cond_special w (f : log_p_method) density lw a :
  par_table L self w = Some f -> has_char "_" w = true ->
  (exists d k, split "_" w = [d; k]) -> f density lw = Ok a ->
  get_log_conditional (pa_cube self) (par_table L self) w density lw = Ok a.
Proof.
  intros E Hw (d & k & Es) Ef. unfold get_log_conditional. rewrite Hw. cbn [py_assert bind]. rewrite Es.
  cbv zeta. unfold getattr_log_p. rewrite E. cbn [bind]. rewrite Ef. reflexivity.
Qed.

Lemma nsub_cond_u j c w u : 0 <= j -> 0 <= c -> (c = 0 -> j = 0) -> 0 < w -> 0 < u ->
  nsub (lg (j / (w * u))) (lg (c / u)) = cond_entry (j / w) c.
Proof.
  intros Hj Hc0 Hz Hw Hu.
  assert (Pu : 0 < / u) by (apply Rinv_0_lt_compat; assumption).
  assert (Pw : 0 < / w) by (apply Rinv_0_lt_compat; assumption).
  rewrite nsub_cond2.
  - unfold cond_entry. destruct (Rlt_dec 0 (c / u)) as [p|p], (Rlt_dec 0 c) as [q|q]; try reflexivity.
    + f_equal. field. repeat split; lra.
    + assert (c = 0) by lra. subst c. unfold Rdiv in p. rewrite Rmult_0_l in p. lra.
    + exfalso. apply p. apply Rmult_lt_0_compat; assumption.
  - unfold Rdiv. apply Rmult_le_pos; [assumption|]. left. apply Rinv_0_lt_compat, Rmult_lt_0_compat; assumption.
  - apply Rmult_le_pos; lra.
  - intros E. assert (c = 0). { apply (Rmult_eq_reg_r (/ u)); [|lra]. rewrite Rmult_0_l. exact E. }
    rewrite (Hz H0). unfold Rdiv. ring.
Qed.
Lemma nadd_cond_w j c w : 0 <= j -> 0 < w -> nadd (cond_entry (j / w) c) (lg w) = cond_entry j c.
Proof.
  intros Hj Hw. assert (Pw : 0 < / w) by (apply Rinv_0_lt_compat; assumption).
  unfold cond_entry. destruct (Rlt_dec 0 c) as [p|p]; [|reflexivity].
  assert (0 < / c) by (apply Rinv_0_lt_compat; assumption).
  rewrite nadd_lg; [f_equal; field; lra| |lra]. unfold Rdiv. repeat apply Rmult_le_pos; lra.
Qed.

Lemma x_t_lw_ok density : par_lw_ok g m true false -> exists a, p_x_t self density true = Ok a /\
  arr_is a [nx g; ny g; nt g] (fun idx => match idx with [x; y; t] => let i := Bin t 0 x y 0 in
    cond_entry (par_prob g m true V_tx i / (if density then px_area else 1)) (par_prob g m true V_t i) | _ => NaN end).
Proof.
  intros Hl. unfold p_x_t. start (txz_ok true true Hl). pose proof (gg_z _ Hg).
  destruct log_dz_ok as (lz & -> & Hz). cbn [bind]. s_bop. s_lse.
  assert (Htx : arr_is r0 [nt g; nx g; ny g] (fun idx => lg (pent g m true true V_tx (rd V_tx idx)))).
  { out V_txz V_tx u_z. exact (marg_sum_z (flat g) _ V_tx _). }
  clear Hr0 Hr r. start (t_ok true true Hl).
  pose proof (T_is _ _ _ Htx) as HT. cbn in HT. s_bop. apply T_is in Hr. cbn in Hr. s_mov.
  assert (HX : arr_is r1 [nx g; ny g; nt g] (fun idx => match idx with [x; y; t] => let i := Bin t 0 x y 0 in
     cond_entry (par_prob g m true V_tx i / px_area) (par_prob g m true V_t i) | _ => NaN end)).
  { ents. unfold pent. pose proof (wt_pos i1 Hi1). pose proof px_area_pos.
    replace (vol g V_tx (Bin i1 0 i i0 0)) with (px_area * wid (tE g) i1)
      by (unfold vol; cbn -[px_area]; rewrite px_area_at by assumption; ring).
    replace (vol g V_t (Bin i1 0 0 0 0)) with (wid (tE g) i1) by (unfold vol; cbn; ring).
    change (par_prob g m true V_t (Bin i1 0 0 0 0)) with (par_prob g m true V_t (Bin i1 0 i i0 0)).
    apply nsub_cond_u; try assumption.
    - apply par_prob_ge0; [exact Hl|ing].
    - apply par_prob_ge0; [exact Hl|ing].
    - apply (par_prob_zero true V_x V_t); [exact Hl|ing]. }
  destruct density; [eexists; split; [reflexivity|exact HX]|].
  clear Hr0. pose proof log_dxdy_is as Hd. s_iop. eexists; split; [reflexivity|]. ents.
  rewrite nadd_cond_w; [f_equal; field|apply par_prob_ge0; [exact Hl|ing]|apply px_area_pos].
Qed.

Lemma z_tx_lw_ok density : par_lw_ok g m true false -> exists a, p_z_tx self density true = Ok a /\
  arr_is a [nz g; nt g; nx g; ny g] (fun idx => match idx with [z; t; x; y] => let i := Bin t 0 x y z in
    cond_entry (par_prob g m true V_txz i / (if density then wid (zE g) z else 1)) (par_prob g m true V_tx i) | _ => NaN end).
Proof.
  intros Hl. unfold p_z_tx. start (txz_ok true true Hl). pose proof (gg_z _ Hg).
  destruct log_dz_ok as (lz & -> & Hz). cbn [bind]. s_bop. s_lse.
  assert (Htx : arr_is r0 [nt g; nx g; ny g] (fun idx => lg (pent g m true true V_tx (rd V_tx idx)))).
  { out V_txz V_tx u_z. exact (marg_sum_z (flat g) _ V_tx _). }
  clear Hr0 Hr r.
  pose proof (T_is _ _ _ Htx) as HT. pose proof (T_is _ _ _ Ha) as HT2. cbn in HT, HT2. s_bop. apply T_is in Hr. cbn in Hr. s_mov.
  assert (HX : arr_is r1 [nz g; nt g; nx g; ny g] (fun idx => match idx with [z; t; x; y] => let i := Bin t 0 x y z in
     cond_entry (par_prob g m true V_txz i / wid (zE g) z) (par_prob g m true V_tx i) | _ => NaN end)).
  { ents. unfold pent. pose proof (wt_pos i0 Hi0). pose proof (wz_pos i Hi). pose proof px_area_pos.
    assert (Pv : 0 < vol g V_tx (Bin i0 0 i1 i2 0)) by (apply (vol_pos' g false); [assumption|ing]).
    replace (vol g (VSet true false true true) (Bin i0 0 i1 i2 i)) with (wid (zE g) i * vol g V_tx (Bin i0 0 i1 i2 0))
      by (unfold vol; cbn -[px_area]; ring).
    change (par_prob g m true V_tx (Bin i0 0 i1 i2 0)) with (par_prob g m true V_tx (Bin i0 0 i1 i2 i)).
    apply nsub_cond_u; try assumption.
    - apply par_prob_ge0; [exact Hl|ing].
    - apply par_prob_ge0; [exact Hl|ing].
    - apply (par_prob_zero true V_z V_tx); [exact Hl|ing]. }
  destruct density; [eexists; split; [reflexivity|exact HX]|].
  clear Hr0 HT HT2. pose proof (T_is _ _ _ HX) as HT. cbn in HT. s_bop. eexists; split; [reflexivity|].
  apply T_is in Hr0. cbn in Hr0. clear HX Hr. ents.
  rewrite nadd_cond_w; [f_equal; field|apply par_prob_ge0; [exact Hl|ing]|apply wz_pos; assumption].
Qed.

(** light-weighted p(v|t,x) is divided by its own sum over v *)
Lemma v_tx_lw_ok density : par_lw_ok g m true true -> exists a, p_v_tx L self density true = Ok a /\
  arr_is a [nv g; nt g; nx g; ny g] (fun idx => match idx with [v; t; x; y] => let i := Bin t v x y 0 in
    cond_entry (par_prob g m true V_tvx i / (if density then wid (vE g) v else 1))
               (Sum (nv g) (fun v' => par_prob g m true V_tvx (Bin t v' x y 0))) | _ => NaN end).
Proof.
  intros Hl. unfold p_v_tx. start (tvxz_ok false true Hl). pose proof (gg_z _ Hg). pose proof (gg_v _ Hg).
  s_lse.
  assert (Htvx : arr_is r [nt g; nv g; nx g; ny g] (fun idx => lg (par_prob g m true V_tvx (rd V_tvx idx)))).
  { assert (K : arr_is r [nt g; nv g; nx g; ny g] (fun idx => lg (pent g m false true V_tvx (rd V_tvx idx)))).
    { out all_vars V_tvx u_z. exact (marg_sum_z g _ V_tvx _). }
    eapply arr_is_ext; [exact K|]. intros; cbn -[par_prob]. f_equal. unfold pent. field. }
  clear Hr. s_lse.
  assert (Htx : arr_is r0 [nt g; nx g; ny g] (fun idx => match idx with [t; x; y] =>
      lg (Sum (nv g) (fun v' => par_prob g m true V_tvx (Bin t v' x y 0))) | _ => NaN end)).
  { eapply arr_is_ext; [exact Hr|]. intros idx Hidx; inb_inv; cbn -[par_prob].
    rewrite (lse_map_lg _ (fun sub => par_prob g m true V_tvx (Bin i (nth 0 sub 0%nat) i0 i1 0))).
    - rewrite sum_idx1. reflexivity.
    - intros sub Hs. apply in_all_idx in Hs. inb_inv. reflexivity.
    - intros sub Hs. apply in_all_idx in Hs. inb_inv. apply par_prob_ge0; [exact Hl|ing]. }
  clear Hr. s_get. s_bop. s_mov.
  assert (HX : arr_is r3 [nv g; nt g; nx g; ny g] (fun idx => match idx with [v; t; x; y] => let i := Bin t v x y 0 in
    cond_entry (par_prob g m true V_tvx i) (Sum (nv g) (fun v' => par_prob g m true V_tvx (Bin t v' x y 0))) | _ => NaN end)).
  { ents. assert (N : forall v, (v < nv g)%nat -> 0 <= par_prob g m true V_tvx (Bin i0 v i1 i2 0))
      by (intros v Hv; apply par_prob_ge0; [exact Hl|ing]).
    apply nsub_cond2; [apply N; assumption|apply Sum_nonneg; exact N|].
    intros E. apply (Sum_zero_terms _ _ N E i Hi). }
  clear Hr1. destruct density.
  - destruct log_dv_ok as (lv & -> & Hlv). cbn [bind]. pose proof (T_is _ _ _ HX) as HT. cbn in HT. s_bop.
    eexists; split; [reflexivity|]. apply T_is in Hr1. cbn in Hr1. clear HX Hr0 Hr. ents.
    rewrite nsub_cond_vol; [reflexivity|apply par_prob_ge0; [exact Hl|ing]|apply wv_pos; assumption].
  - eexists; split; [reflexivity|]. eapply arr_is_ext; [exact HX|]. intros idx Hidx; inb_inv. cbn -[par_prob].
    f_equal. field.
Qed.
End Par.
