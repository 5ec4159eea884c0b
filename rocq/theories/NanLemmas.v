(** * NanLemmas: a component whose stored density is nan everywhere. *)
From Coq Require Import Reals Lra Lia List Bool Arith ZArith String Ascii.
From Verif Require Import Num NumLemmas Arr ArrLemmas PyStr Cube Base Spec SpecLemmas Repr CubeLemmas BaseLemmas
  CondLemmas DistLemmas.
Import ListNotations.
Local Open Scope R_scope.

Lemma nadd_nan_l b : nadd NaN b = NaN. Proof. destruct b; reflexivity. Qed.
Lemma nsub_nan_l b : nsub NaN b = NaN. Proof. destruct b; reflexivity. Qed.

Lemma lse_all_nan {A} (f : A -> num) (l : list A) x : In x l -> f x = NaN -> lse (map f l) = NaN.
Proof. intros Hx Hf. apply lse_nan. apply in_map_iff. exists x. split; assumption. Qed.

Definition zeros (s : list nat) : list nat := map (fun _ => 0%nat) s.
Lemma zeros_in s : (forall n, In n s -> (0 < n)%nat) -> In (zeros s) (all_idx s).
Proof.
  intros H. apply in_all_idx. induction s as [|n s IH]; [constructor|]. constructor.
  - apply H; left; reflexivity.
  - apply IH. intros k Hk. apply H; right; exact Hk.
Qed.

Section Nan.
Context (self : component) (g : grid).
Context (Hc : cube_on (comp_cube self) g) (Hg : good_grid g).
Context (Hn : arr_is (log_p_tvxz self) (dims all_vars g) (fun _ => NaN)).

Lemma nan_joint density lw : exists a, log_p_tvxz_m self density lw = Ok a /\ arr_is a (dims all_vars g) (fun _ => NaN).
Proof.
  unfold log_p_tvxz_m.
  destruct (vol_ok _ _ Hc Hg all_vars eq_refl) as (va & Ev & Hv).
  change (name all_vars) with "tvxz"%string in Ev. rewrite Ev. cbn [bind]. clear Ev.
  assert (Hlw : arr_is (light_weights (c_ssps (comp_cube self))) [nt g; nz g]
     (fun idx => Fin (Lw g (hd 0%nat idx) (hd 0%nat (tl idx))))).
  { pose proof (co_ssps _ _ Hc) as Hs. split; [apply (so_lw_shp _ _ Hs)|].
    intros idx Hi; inb_inv. cbn. apply (so_lw _ _ Hs); assumption. }
  cbn [dims all_vars has_t has_v has_x has_z opt app pt nt nv nx ny nz] in *.
  s_map. rename r into lv, Hr into Hlv.
  s_iop. rename r into lm, Hr into Hlm.
  pose proof (gg_t _ Hg). pose proof (gg_v _ Hg). pose proof (gg_x _ Hg). pose proof (gg_y _ Hg). pose proof (gg_z _ Hg).
  assert (HP : exists lp, (if lw then
           lw <- getitem [IAll; INew; INew; INew; IAll] (light_weights (c_ssps (comp_cube self))) ;;
           lp <- iop nadd lm (amap nlog lw) ;;
           log_normalisation <- logsumexp_all lp ;;
           iop nsub lp log_normalisation
         else Ok lm) = Ok lp /\ arr_is lp [nt g; nv g; nx g; ny g; nz g] (fun idx => NaN)).
  { destruct lw.
    - step1. step1. step1. step1. step1. eexists; split; [reflexivity|].
      eapply arr_is_ext; [eassumption|]. intros; cbv beta. rewrite ?nadd_nan_l, ?nsub_nan_l. reflexivity.
    - eexists; split; [reflexivity|]. eapply arr_is_ext; [exact Hlm|]. intros; cbv beta; apply nadd_nan_l. }
  destruct HP as (lp & Elp & Hlp). rewrite Elp. cbn [bind].
  destruct density; [step1|]; (eexists; split; [reflexivity|]).
  - eapply arr_is_ext; [eassumption|]. intros; cbv beta; apply nsub_nan_l.
  - exact Hlp.
Qed.

Lemma nan_marg S density lw : nonempty S = true ->
  exists a, get_log_marginal (base_table self) (name S) density lw = Ok a /\ arr_is a (dims S g) (fun _ => NaN).
Proof.
  intros HS. destruct (nan_joint density lw) as (a1 & E1 & Ha1).
  destruct (nan_joint false lw) as (a0 & E0 & Ha0).
  pose proof (gg_t _ Hg). pose proof (gg_v _ Hg). pose proof (gg_x _ Hg). pose proof (gg_y _ Hg). pose proof (gg_z _ Hg).
  destruct (vol_ok _ _ Hc Hg S HS) as (va & Ev & Hva).
  unfold get_log_marginal.
  destruct S as [[] [] [] []]; try discriminate HS; clear HS;
    cbn [name has_t has_v has_x has_z append] in Ev |- *.
  1: { eexists; split; [exact E1|]. exact Ha1. }
  all: cbn [base_table lookup String.eqb Ascii.eqb Bool.eqb getattr_log_p bind];
       unfold log_p_t_m, log_p_tv_m, log_p_tx_m, log_p_tz_m, log_p_tvx_m, log_p_tvz_m, log_p_txz_m,
         log_p_v_m, log_p_vx_m, log_p_vz_m, log_p_vxz_m, log_p_x_m, log_p_xz_m, log_p_z_m, marginal_m, vol_el;
       rewrite E0; cbn [bind]; clear E0 E1 Ha1 a1;
       cbn [dims all_vars has_t has_v has_x has_z opt app pt nt nv nx ny nz] in *;
       s_lse.
  all: match goal with Hr : arr_is ?r ?s (fun idx => lse (map _ (all_idx ?k))) |- _ =>
         assert (HM : arr_is r s (fun _ => NaN));
         [ eapply arr_is_ext; [exact Hr|]; intros idx Hidx; cbv beta;
           apply (lse_all_nan _ _ (zeros k)); [apply zeros_in; cbn; intuition subst; assumption|reflexivity]
         | clear Hr ] end.
  all: destruct density;
       [ first [rewrite Ev; cbn [bind] | clear Hva; pose proof (vec_is _ _ _ (so_dt _ _ (co_ssps _ _ Hc))) as Hva];
         s_map; s_iop; eexists; split; [reflexivity|]; eapply arr_is_ext; [eassumption|]; intros; cbv beta; apply nsub_nan_l
       | eexists; split; [reflexivity|exact HM] ].
Qed.

Lemma nan_cond A C density lw : nonempty A = true -> nonempty C = true -> disjoint A C = true ->
  exists a, get_log_conditional (comp_cube self) (base_table self) (cname A C) density lw = Ok a /\
    arr_is a (dims A g ++ dims C g) (fun _ => NaN).
Proof.
  intros HA HC HD.
  destruct (nan_marg (union A C) false lw (nonempty_union _ _ HA)) as (aj & Ej & Haj).
  destruct (nan_marg C false lw HC) as (am & Em & Ham).
  destruct (vol_cond_ok _ g Hc Hg A C HA HC HD) as (va & Ev & Hva).
  assert (Hno := base_table_cname self A C).
  unfold get_log_conditional. unfold getattr_log_p at 1. rewrite Hno. cbn [bind]. clear Hno.
  pose proof (gg_t _ Hg). pose proof (gg_v _ Hg). pose proof (gg_x _ Hg). pose proof (gg_y _ Hg). pose proof (gg_z _ Hg).
  destruct A as [[] [] [] []]; try discriminate HA; clear HA;
  destruct C as [[] [] [] []]; try discriminate HD; try discriminate HC; clear HC HD.
  all: cbn [name cname has_t has_v has_x has_z append union orb] in Ev, Ej, Em |- *.
  all: str_compute; cbn [py_assert bind]; rewrite Ej, Em; cbn [bind]; clear Ej Em.
  all: cbn [dims unit_dims all_vars has_t has_v has_x has_z opt app pt nt nv nx ny nz union orb] in *.
  all: s_mov; s_bop.
  all: destruct density;
   [ rewrite Ev; cbn [bind]; s_map; s_bop | ]; (eexists; split; [reflexivity|]).
  all: eapply arr_is_ext; [eassumption|]; intros idx Hidx; cbv beta; rewrite ?nsub_nan_l; reflexivity.
Qed.

(** every distribution is nan *)
Lemma nan_claim_marg S density lw : nonempty S = true ->
  exists p, get_p self (name S) density lw = Ok p /\ shp p = dims S g /\
    forall i, in_grid g i -> ent p (coords S i) = NaN.
Proof.
  intros HS. destruct (nan_marg S density lw HS) as (a & E & Hs & He).
  exists (amap nexp a). unfold get_p, get_p_of, get_log_p_of. rewrite name_no_sep, E. cbn [bind].
  split; [reflexivity|]. split; [exact Hs|]. intros i Hi. cbn [amap ent].
  rewrite He by (apply coords_inb; assumption). reflexivity.
Qed.
Lemma nan_claim_cond A C density lw : nonempty A = true -> nonempty C = true -> disjoint A C = true ->
  exists p, get_p self (cname A C) density lw = Ok p /\ shp p = (dims A g ++ dims C g)%list /\
    forall i, in_grid g i -> ent p (coords A i ++ coords C i) = NaN.
Proof.
  intros HA HC HD. destruct (nan_cond A C density lw HA HC HD) as (a & E & Hs & He).
  exists (amap nexp a). unfold get_p, get_p_of, get_log_p_of. rewrite cname_sep, E. cbn [bind].
  split; [reflexivity|]. split; [exact Hs|]. intros i Hi. cbn [amap ent].
  rewrite He; [reflexivity|]. apply inb_app; apply coords_inb; assumption.
Qed.
End Nan.
