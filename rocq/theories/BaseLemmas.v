(** * BaseLemmas: the distributions of a base component. *)
From Coq Require Import Reals Lra Lia List Bool Arith ZArith String Ascii.
From Verif Require Import Num NumLemmas Arr ArrLemmas PyStr Cube Base Spec SpecLemmas Repr CubeLemmas.
Import ListNotations.
Local Open Scope R_scope.

Global Arguments marg : simpl never.
Global Arguments vol : simpl never.

Definition at_bin (P : joint) (i : bin) : R := P (bt i) (bv i) (bx i) (by_ i) (bz i).

Section Joint.
Context (self : component) (g : grid) (f : joint).
Context (H : comp_on self g f) (Hg : good_grid g) (Hf : nonneg g f).

Let Hc := cm_cube _ _ _ H.

Let wid_x_const := wid_x_const _ _ Hc Hg.
Let wid_y_const := wid_y_const _ _ Hc Hg.
Let vol_pt := vol_pt _ _ Hc Hg.

Lemma comp_arr : arr_is (log_p_tvxz self) (dims all_vars g) (fun idx => lg (at_bin f (rd all_vars idx))).
Proof.
  apply (arr_on all_vars g _ (fun i => lg (at_bin f i)) Hg).
  - apply (cm_shp _ _ _ H).
  - intros i (Ht & Hv & Hx & Hy & Hz). apply (cm_ent _ _ _ H); assumption.
Qed.

Lemma lw_arr : arr_is (light_weights (c_ssps (comp_cube self))) [nt g; nz g]
   (fun idx => Fin (Lw g (hd 0%nat idx) (hd 0%nat (tl idx)))).
Proof.
  pose proof (co_ssps _ _ Hc) as Hs. split; [apply (so_lw_shp _ _ Hs)|].
  intros idx Hi; inb_inv. cbn. apply (so_lw _ _ Hs); assumption.
Qed.

Lemma joint_ok density lw : lw_ok g f lw ->
  exists a, log_p_tvxz_m self density lw = Ok a /\
    arr_is a (dims all_vars g) (fun idx =>
      let i := rd all_vars idx in
      lg (at_bin (prob g f lw) i / if density then vol g all_vars i else 1)).
Proof.
  intros Hl. unfold log_p_tvxz_m.
  destruct (vol_ok _ _ Hc Hg all_vars eq_refl) as (va & Ev & Hv).
  change (name all_vars) with "tvxz"%string in Ev. rewrite Ev. cbn [bind]. clear Ev.
  pose proof comp_arr as Ha. pose proof lw_arr as Hlw.
  cbn [dims all_vars has_t has_v has_x has_z opt app pt nt nv nx ny nz] in *.
  s_map. rename r into lv, Hr into Hlv.
  s_iop. rename r into lm, Hr into Hlm.
  assert (Hlm' : arr_is lm [nt g; nv g; nx g; ny g; nz g]
                   (fun idx => lg (at_bin (mass g f) (rd all_vars idx)))).
  { entries. rewrite nlog_Fin. unfold vol, at_bin, mass; cbn.
    rewrite (wid_x_const i1), (wid_y_const i2) by assumption.
    pose proof (wid_pos _ _ _ (gg_tE _ Hg) Hi). pose proof (wid_pos _ _ _ (gg_vE _ Hg) Hi0).
    pose proof (wid_pos _ _ _ (gg_xE _ Hg) (gg_x _ Hg)). pose proof (wid_pos _ _ _ (gg_yE _ Hg) (gg_y _ Hg)).
    pose proof (wid_pos _ _ _ (gg_zE _ Hg) Hi3).
    rewrite nadd_lg; [f_equal; ring|apply Hf; assumption|].
    repeat apply Rmult_le_pos; lra. }
  clear Hlm. rename Hlm' into Hlm.
  assert (HP : exists lp, (if lw then
           lw <- getitem [IAll; INew; INew; INew; IAll] (light_weights (c_ssps (comp_cube self))) ;;
           lp <- iop nadd lm (amap nlog lw) ;;
           log_normalisation <- logsumexp_all lp ;;
           iop nsub lp log_normalisation
         else Ok lm) = Ok lp /\ arr_is lp [nt g; nv g; nx g; ny g; nz g]
            (fun idx => lg (at_bin (prob g f lw) (rd all_vars idx)))).
  { destruct lw; [|eexists; split; [reflexivity|exact Hlm]].
    specialize (Hl eq_refl). step1. step1. step1.
    pose proof (lit_nonneg g _ Hg (mass_nonneg g f Hg Hf)) as Lnn.
    assert (HL : arr_is r1 [nt g; nv g; nx g; ny g; nz g]
                   (fun idx => lg (at_bin (lit g (mass g f)) (rd all_vars idx)))).
    { entries. rewrite nlog_Fin, nadd_lg; [reflexivity| |].
      - apply mass_nonneg; assumption.
      - apply (gg_L _ Hg); assumption. }
    clear Hr1.
    pose proof (gg_t _ Hg). pose proof (gg_v _ Hg). pose proof (gg_x _ Hg).
    pose proof (gg_y _ Hg). pose proof (gg_z _ Hg).
    step1.
    assert (HT : arr_is r2 [] (fun _ => lg (total g (lit g (mass g f))))).
    { eapply arr_is_ext; [eassumption|]. intros ? ?.
      rewrite (lse_map_lg _ (fun idx => at_bin (lit g (mass g f)) (rd all_vars idx))).
      - f_equal. repeat (rewrite sum_all_idx_cons; apply Sum_ext; intros). apply sum_all_idx_nil.
      - reflexivity.
      - intros ix Hix. apply in_all_idx in Hix. inb_inv. cbn. apply Lnn; assumption. }
    step1. eexists; split; [reflexivity|]. entries.
    rewrite nsub_lg; [reflexivity| |assumption]. apply Lnn; assumption. }
  destruct HP as (lp & Elp & Hlp). rewrite Elp. cbn [bind].
  pose proof (prob_nonneg g f lw Hg Hf Hl) as Pnn.
  destruct density; [step1|]; (eexists; split; [reflexivity|]; entries).
  - rewrite nlog_Fin, nsub_lg.
    + f_equal. f_equal. apply (vol_pt all_vars (Bin i i0 i1 i2 i3)).
      unfold in_grid; cbn; auto.
    + apply Pnn; assumption.
    + apply vol_pos; [assumption|]. destruct Hg; unfold in_grid; cbn; auto.
  - f_equal. field.
Qed.

(** ** marginals *)
Definition dens (density : bool) (S : vset) (i : bin) : R := if density then vol g S i else 1.

Lemma dens_pos density S i : in_grid g i -> 0 < dens density S i.
Proof. destruct density; cbn; [apply vol_pos; assumption|lra]. Qed.

Lemma marginal_ok S density lw : nonempty S = true -> lw_ok g f lw ->
  exists a, get_log_marginal (base_table self) (name S) density lw = Ok a /\
    arr_is a (dims S g) (fun idx =>
      lg (marg g (prob g f lw) S (rd S idx) / dens density S (rd S idx))).
Proof.
  intros HS Hl. destruct (joint_ok density lw Hl) as (a1 & E1 & Ha1).
  destruct (joint_ok false lw Hl) as (a0 & E0 & Ha0').
  assert (Ha0 : arr_is a0 (dims all_vars g) (fun idx => lg (at_bin (prob g f lw) (rd all_vars idx)))).
  { eapply arr_is_ext; [exact Ha0'|]. intros; cbn. f_equal. field. }
  clear Ha0'.
  pose proof (prob_nonneg g f lw Hg Hf Hl) as Pnn.
  pose proof (gg_t _ Hg). pose proof (gg_v _ Hg). pose proof (gg_x _ Hg).
  pose proof (gg_y _ Hg). pose proof (gg_z _ Hg).
  destruct (vol_ok _ _ Hc Hg S HS) as (va & Ev & Hva).
  unfold get_log_marginal.
  destruct S as [[] [] [] []]; try discriminate HS; clear HS;
    cbn [name has_t has_v has_x has_z append] in Ev |- *.
  1: { eexists; split; [exact E1|]. eapply arr_is_ext; [exact Ha1|]. intros; reflexivity. }
  all: cbn [base_table lookup String.eqb Ascii.eqb Bool.eqb getattr_log_p bind];
       unfold log_p_t_m, log_p_tv_m, log_p_tx_m, log_p_tz_m, log_p_tvx_m, log_p_tvz_m, log_p_txz_m,
         log_p_v_m, log_p_vx_m, log_p_vz_m, log_p_vxz_m, log_p_x_m, log_p_xz_m, log_p_z_m, marginal_m, vol_el;
       rewrite E0; cbn [bind]; clear E0 E1 Ha1 a1;
       cbn [dims all_vars has_t has_v has_x has_z opt app pt nt nv nx ny nz] in *;
       s_lse;
       match goal with |- context [marg g _ ?S] =>
         assert (HM : arr_is r (dims S g) (fun idx => lg (marg g (prob g f lw) S (rd S idx))));
         [ eapply arr_is_ext; [exact Hr|]; intros idx Hidx; cbn in Hidx; inb_inv; cbn;
           erewrite lse_map_lg; [|intros ? ?; reflexivity
                                 |intros sub Hsub; apply in_all_idx in Hsub; inb_inv; cbn; apply Pnn; assumption];
           f_equal; repeat (rewrite sum_all_idx_cons; apply Sum_ext; intros); rewrite sum_all_idx_nil; reflexivity
         | assert (Hmn : forall i, in_grid g i -> 0 <= marg g (prob g f lw) S i)
              by (intros; apply marg_nonneg; assumption);
           pose proof (vol_pt S) as Hvp; pose proof (fun i => vol_pos g S i Hg) as Hvpos
         ]
       end; clear Hr;
       cbn [dims all_vars has_t has_v has_x has_z opt app pt nt nv nx ny nz] in HM;
       [destruct density];
       [ (* density: subtract the log volume *)
         first [rewrite Ev; cbn [bind] | clear Hva; pose proof (vec_is _ _ _ (so_dt _ _ (co_ssps _ _ Hc))) as Hva];
         s_map; s_iop; eexists; split; [reflexivity|]; entries;
         match goal with |- nsub (lg (marg _ _ ?S ?b)) (nlog (Fin ?V)) = _ =>
           assert (Hb : in_grid g b) by (unfold in_grid; cbn; auto);
           assert (EV : V = vol g S b) by
             (unfold vol; cbn;
              repeat match goal with
                | |- context [wid (xE g) ?k] => is_var k; rewrite (wid_x_const k) by assumption
                | |- context [wid (yE g) ?k] => is_var k; rewrite (wid_y_const k) by assumption
                end; ring);
           try rewrite EV; rewrite nlog_Fin, nsub_lg by auto; reflexivity
         end
       | eexists; split; [reflexivity|]; eapply arr_is_ext; [exact HM|]; intros; cbn; f_equal; field ].
Qed.
End Joint.
