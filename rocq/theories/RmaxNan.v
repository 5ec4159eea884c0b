(** * RmaxNan: what nan mean velocities do to the distributions (claim C108). *)
From Coq Require Import Reals Lra Lia List Bool Arith ZArith String Ascii.
From Verif Require Import Num NumLemmas Arr ArrLemmas PyStr Cube Base Parametric GrowingDisk Spec SpecLemmas Repr
  ParSpec ParRepr ParSetSpec CubeLemmas VecLemmas CubeGeom BaseLemmas CondLemmas ParLemmas ParSetLemmas ParEnrich DiskLemmas
  ParClaims RmaxClaims.
Import ListNotations.
Local Open Scope R_scope.

Section NanMu.
Context (L : stats_lib) (self0 : par) (g : grid) (m : par_model).
Context (H : par_on L self0 g m) (Hg : good_grid g) (Hm : good_par g m).
Context (mu : arr num) (f : nat -> nat -> nat -> num) (bad : nat -> Prop).
Context (Hmu : arr_is mu [nt g; nx g; ny g] (fun idx => match idx with [t; x; y] => f t x y | _ => NaN end)).
Context (Hbad : forall t x y, (t < nt g)%nat -> bad t -> f t x y = NaN).
Let self := put_mu_v self0 mu.
Let Hc : cube_on (pa_cube self0) g := po_cube _ _ _ _ H.

Definition nan_at (a : arr num) (s : list nat) (p : list nat -> nat) : Prop :=
  exists h, arr_is a s h /\ forall idx, inb idx s -> bad (p idx) -> h idx = NaN.

Lemma nan_v_tx density : exists a, v_tx_mw L self density = Ok a /\ nan_at a [nv g; nt g; nx g; ny g] (fun idx => nth 1 idx 0%nat).
Proof.
  unfold v_tx_mw. change (pa_cube self) with (pa_cube self0). change (pa_mu_v self) with (Some mu).
  change (pa_sig_v self) with (pa_sig_v self0). change (log_vol self "v") with (log_vol self0 "v").
  pose proof (vec_is _ _ _ (co_v _ _ Hc)) as Hv.
  destruct (po_sig _ _ _ _ H) as (sig & -> & Hss & Hes).
  assert (Hsig : arr_is sig [nt g; nx g; ny g] (fun idx => match idx with [t; x; y] => Fin (pm_sig m t x y) | _ => NaN end)).
  { split; [exact Hss|]. intros idx Hi; inb_inv. apply Hes; assumption. }
  clear Hss Hes. cbn [attr bind]. s_get. unfold norm_logcdf, logdiffexp.
  pose proof (tail0_is _ _ _ _ Hr ltac:(lia)) as H1. pose proof (init0_is _ _ _ _ Hr) as H0.
  replace (nv g + 1 - 1)%nat with (nv g) in * by lia. cbn in H1, H0.
  assert (Hms : exists ms, bop pair mu sig = Ok ms /\ arr_is ms [nt g; nx g; ny g]
     (fun idx => match idx with [t; x; y] => (f t x y, Fin (pm_sig m t x y)) | _ => (NaN, NaN) end)).
  { destruct (bop_is pair mu sig _ _ _ _ _ Hmu Hsig (bshape_same _)) as (ms & E & Hms).
    exists ms; split; [exact E|]. eapply arr_is_ext; [exact Hms|]. intros idx Hi; inb_inv. cbn. picks. reflexivity. }
  destruct Hms as (ms & -> & Hms). cbn [bind].
  assert (K : forall (e : arr num) off, arr_is e [nv g; 1; 1; 1]%nat (fun idx => Fin (vE g (off + hd 0 idx)%nat)) ->
     exists a, bop (fun x ls => norm_logcdf1 L (fst ls) (snd ls) x) e ms = Ok a /\
       arr_is a [nv g; nt g; nx g; ny g] (fun idx => match idx with [v; t; x; y] =>
         norm_logcdf1 L (f t x y) (Fin (pm_sig m t x y)) (Fin (vE g (off + v)%nat)) | _ => NaN end)).
  { intros e off He. s_bop. eexists; split; [reflexivity|]. entries. reflexivity. }
  destruct (K (init0 r) 0%nat) as (lo & -> & Hlo).
  { eapply arr_is_ext; [exact H0|]. intros idx Hi; inb_inv; ones; reflexivity. }
  destruct (K (tail0 r) 1%nat) as (hi & -> & Hhi).
  { eapply arr_is_ext; [exact H1|]. intros idx Hi; inb_inv; ones; reflexivity. }
  cbn [bind]. clear K H0 H1.
  assert (Hd : exists a h, bop (fun h l => lse_b [(h, Fin 1); (l, Fin (-1))]) hi lo = Ok a /\
     arr_is a [nv g; nt g; nx g; ny g] (fun idx => match idx with [v; t; x; y] => h v t x y | _ => NaN end) /\
     forall v t x y, (t < nt g)%nat -> bad t -> h v t x y = NaN).
  { s_bop. eexists _, (fun v t x y => lse_b [(norm_logcdf1 L (f t x y) (Fin (pm_sig m t x y)) (Fin (vE g (1 + v)%nat)), Fin 1);
                                             (norm_logcdf1 L (f t x y) (Fin (pm_sig m t x y)) (Fin (vE g (0 + v)%nat)), Fin (-1))]).
    split; [reflexivity|]. split; [entries; reflexivity|]. intros v t x y Ht Hb. rewrite (Hbad t x y Ht Hb). apply lse_b_nan. }
  destruct Hd as (d & h & -> & Hd & Hn). cbn [bind]. destruct density.
  - destruct (log_dv_ok L self0 g m H Hg) as (lv & -> & Hlv). cbn [bind]. pose proof (T_is _ _ _ Hd) as Ht. cbn in Ht. s_bop.
    eexists; split; [reflexivity|]. apply T_is in Hr0. cbn in Hr0.
    exists (fun idx => match idx with [v; t; x; y] => nsub (h v t x y) (lg (wid (vE g) v)) | _ => NaN end). split.
    + eapply arr_is_ext; [exact Hr0|]. intros idx Hidx; inb_inv; cbn; picks; reflexivity.
    + intros idx Hidx Hb; inb_inv. cbn in Hb. cbv beta iota. rewrite Hn by assumption. reflexivity.
  - eexists; split; [reflexivity|]. eexists. split; [exact Hd|]. intros idx Hidx Hb; inb_inv. cbn in Hb. apply Hn; assumption.
Qed.

Lemma nan_tvx density : exists a, p_tvx L self density false = Ok a /\ nan_at a [nt g; nv g; nx g; ny g] (fun idx => nth 0 idx 0%nat).
Proof.
  unfold p_tvx. change (tx_mw self density) with (tx_mw self0 density).
  destruct (tx_mw_ok L self0 g m H Hg Hm density) as (a & -> & Ha). cbn [bind].
  destruct (nan_v_tx density) as (b & -> & h & Hb & Hn). cbn [bind]. s_get. s_mov. s_bop.
  eexists; split; [reflexivity|]. eexists. split; [eassumption|]. intros idx Hidx Hbd; inb_inv. cbn in Hbd. cbn. picks.
  rewrite (Hn [i0; i; i1; i2]) by (inbs || exact Hbd). apply nadd_nan_r.
Qed.

(** one such age is enough for every entry of p(v) *)
Lemma nan_v density t0 : (t0 < nt g)%nat -> bad t0 ->
  exists a, p_v L self density false = Ok a /\ arr_is a [nv g] (fun _ => NaN).
Proof.
  intros Ht0 Hb0. unfold p_v. destruct (nan_tvx density) as (a & -> & h & Ha & Hn). cbn [bind].
  pose proof (gg_t _ Hg). pose proof (gg_x _ Hg). pose proof (gg_y _ Hg).
  assert (S : exists b h', (if density then lp <- add_log_dt self a ;; iop nadd lp (log_dxdy self) else Ok a) = Ok b /\
     arr_is b [nt g; nv g; nx g; ny g] h' /\ forall v x y, (v < nv g)%nat -> (x < nx g)%nat -> (y < ny g)%nat -> h' [t0; v; x; y] = NaN).
  { destruct density.
    - unfold add_log_dt. change (log_vol self "t") with (log_vol self0 "t"). change (log_dxdy self) with (log_dxdy self0).
      destruct (log_dt_ok L self0 g m H Hg) as (lt & -> & Hlt). pose proof (T_is _ _ _ Ha) as HT. cbn in HT.
      pose proof (log_dxdy_is L self0 g m H Hg) as Hd. cbn [bind]. s_bop. apply T_is in Hr. cbn in Hr. s_iop.
      eexists _, _. split; [reflexivity|]. split; [eassumption|]. intros v x y Hv Hx Hy. cbn. picks.
      rewrite (Hn [t0; v; x; y]) by (inbs || exact Hb0). reflexivity.
    - exists a, h. split; [reflexivity|]. split; [exact Ha|]. intros v x y Hv Hx Hy. apply Hn; [inbs|exact Hb0]. }
  destruct S as (b & h' & -> & Hb & Hn'). cbn [bind]. s_lse. eexists; split; [reflexivity|].
  eapply arr_is_ext; [eassumption|]. intros idx Hidx; inb_inv. cbn.
  apply lse_nan. apply in_map_iff. exists [t0; 0; 0]%nat. split; [cbn; apply Hn'; assumption|]. apply in_all_idx. inbs.
Qed.
End NanMu.

(** a disk is rebuilt with another rotation curve *)
Section Zero.
Context (L : stats_lib) (self : par) (g : grid) (m : par_model) (X Y : map2d) (s e : R).
Context (H : par_on L self g m) (Hg : good_grid g) (Hm : good_par g m) (Hxy : xy_on self g X Y) (Ht : t_pars_on self s e).
Context (q rmax vmax : R * R) (Hq : posl q) (Hv : one_sign vmax).

Lemma zero_radius_claim t0 : (t0 < nt g)%nat -> at_age s e rmax (mid (tE g) t0) = 0 ->
  exists self', disk_set_mu_v self q rmax vmax = Ok self' /\
    (forall density, exists a, p_v_tx L self' density false = Ok a /\ shp a = [nv g; nt g; nx g; ny g] /\
       forall v x y, (v < nv g)%nat -> (x < nx g)%nat -> (y < ny g)%nat -> ent a [v; t0; x; y] = NaN) /\
    (forall density, exists a, p_tvx L self' density false = Ok a /\ shp a = [nt g; nv g; nx g; ny g] /\
       forall v x y, (v < nv g)%nat -> (x < nx g)%nat -> (y < ny g)%nat -> ent a [t0; v; x; y] = NaN) /\
    (forall density, exists a, p_v L self' density false = Ok a /\ shp a = [nv g] /\ forall v, (v < nv g)%nat -> ent a [v] = NaN) /\
    (forall n, In n ["t"; "x"; "z"; "tx"; "tz"; "xz"; "txz"; "x_t"; "z_tx"]%string -> par_table L self' n = par_table L self n).
Proof.
  intros Ht0 HR. destruct (mu_any self g X Y s e (po_cube _ _ _ _ H) Hxy Ht q rmax vmax Hq Hv) as (a & E & Ha).
  exists (put_mu_v self a). split; [exact E|].
  set (f := fun t x y => mu_entry (at_bin g s e q t) (at_bin g s e rmax t) (at_bin g s e vmax t) (X x y) (Y x y)) in *.
  set (bad := fun t => at_bin g s e rmax t = 0).
  assert (Hbad : forall t x y, (t < nt g)%nat -> bad t -> f t x y = NaN) by (intros t x y _ B; unfold f; rewrite B; apply entry_zero).
  assert (B0 : bad t0) by exact HR.
  split; [|split; [|split]].
  - intros d. destruct (nan_v_tx L self g m H Hg a f bad Ha Hbad d) as (b & Eb & h & (Sb & Hb) & Hn). exists b.
    split; [exact Eb|]. split; [exact Sb|]. intros v x y Hv' Hx Hy. rewrite Hb by inbs. apply Hn; [inbs|exact B0].
  - intros d. destruct (nan_tvx L self g m H Hg Hm a f bad Ha Hbad d) as (b & Eb & h & (Sb & Hb) & Hn). exists b.
    split; [exact Eb|]. split; [exact Sb|]. intros v x y Hv' Hx Hy. rewrite Hb by inbs. apply Hn; [inbs|exact B0].
  - intros d. destruct (nan_v L self g m H Hg Hm a f bad Ha Hbad d t0 Ht0 B0) as (b & Eb & Sb & Hb). exists b.
    split; [exact Eb|]. split; [exact Sb|]. intros v Hv'. apply Hb. inbs.
  - intros n Hn. cbn in Hn. repeat (destruct Hn as [<-|Hn]; [reflexivity|]). destruct Hn.
Qed.
End Zero.
