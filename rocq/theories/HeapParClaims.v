(** * HeapParClaims: the distributions of a parametric component on the heap. *)
From Coq Require Import Reals String Ascii List Bool Arith ZArith Lia.
From Verif Require Import Num Arr ArrLemmas PyStr Cube Base Parametric Heap HeapLemmas HeapClaims HeapPar.
Import ListNotations.
Local Open Scope nat_scope.

(** [s] is the parametric component [self] in the heap [h] *)
Definition par_in (h : heap) (s : hpar) (self : par) : Prop :=
  cube_in h (hp_cube s) (pa_cube self) /\
  oref h (hp_log_p_t s) (pa_log_p_t self) /\
  oref h (hp_log_p_x_t s) (pa_log_p_x_t self) /\
  oref h (hp_log_p_z_tx s) (pa_log_p_z_tx self) /\
  oref h (hp_mu_v s) (pa_mu_v self) /\
  oref h (hp_sig_v s) (pa_sig_v self).
Lemma par_keeps h h' s self : keeps (length h) h h' -> par_in h s self -> par_in h' s self.
Proof.
  intros K (H1 & H2 & H3 & H4 & H5 & H6). split; [eapply cube_keeps; eassumption|].
  repeat (split; [eapply oref_keeps; eassumption|]). eapply oref_keeps; eassumption.
Qed.

(** *** steps, with all intermediate arrays in buffers not older than [n] *)
Section steps.
Context {A B : Type} (n : nat) (h : heap).
Hypothesis N : n <= length h.
Variables (f : nda -> prog A) (R : heap -> A -> B -> Prop).

Lemma st_good m p (g : arr num -> res B) :
  good h m p ->
  (forall h' r v, n <= length h' -> keeps (length h) h h' -> ref n h' r v -> sp n h' (f r) (g v) R) ->
  sp n h (bnd m f) (bind p g) R.
Proof.
  intros H1 H2. eapply sp_bind; [exact N|exact H1|]. intros h' r v K Hr. apply H2; [destruct K; lia|exact K|].
  eapply ref_weak; [exact N|exact Hr].
Qed.
Lemma st_ok m v q :
  good h m (Ok v) ->
  (forall h' r, n <= length h' -> keeps (length h) h h' -> ref n h' r v -> sp n h' (f r) q R) ->
  sp n h (bnd m f) q R.
Proof.
  intros H1 H2. eapply sp_bind_ok; [exact N|exact H1|]. intros h' r K Hr. apply H2; [destruct K; lia|exact K|].
  eapply ref_weak; [exact N|exact Hr].
Qed.
Lemma st_get k spec r v (g : arr num -> res B) :
  ref k h r v -> (forall r' v', ref k h r' v' -> sp n h (f r') (g v') R) ->
  sp n h (bnd (h_getitem spec r) f) (bind (getitem spec v) g) R.
Proof. intros H1 H2. eapply sp_bind; [reflexivity|eapply sp_getitem; exact H1|]. intros h' r' v' _ [-> Hr]. auto. Qed.
Lemma st_mov k s d r v (g : arr num -> res B) :
  ref k h r v -> (forall r' v', ref k h r' v' -> sp n h (f r') (g v') R) ->
  sp n h (bnd (h_moveaxis r s d) f) (bind (moveaxis v s d) g) R.
Proof. intros H1 H2. eapply sp_bind; [reflexivity|eapply sp_moveaxis; exact H1|]. intros h' r' v' _ [-> Hr]. auto. Qed.
Lemma st_attr o o' (g : arr num -> res B) :
  oref h o o' -> (forall r' v', ref 0 h r' v' -> sp n h (f r') (g v') R) ->
  sp n h (bnd (lift (attr o)) f) (bind (attr o') g) R.
Proof.
  intros H1 H2. eapply (sp_bind _ n _ _ _ (fun h' a b => h' = h /\ ref 0 h a b)); [reflexivity|apply sp_lift|intros h' a b _ [-> Hr]; auto].
  destruct o, o'; cbn in *; auto; contradiction.
Qed.
End steps.
(** the last step *)
Section last.
Context (n : nat) (h : heap).
Hypothesis N : n <= length h.
Lemma la_good m p : good h m p -> sp n h m p (fun h' r v => ref n h' r v).
Proof.
  intros H. eapply sp_conseq; [|eapply sp_weak; [exact N|exact H]]. intros h' r v _ Hr. eapply ref_weak; [exact N|exact Hr].
Qed.
Lemma la_ret r v : ref n h r v -> sp n h (ret r) (Ok v) (fun h' r v => ref n h' r v).
Proof. apply sp_ret. Qed.
Lemma la_mov s d r v : ref n h r v -> sp n h (h_moveaxis r s d) (moveaxis v s d) (fun h' r v => ref n h' r v).
Proof. intros H. eapply sp_conseq; [|eapply sp_moveaxis; exact H]. intros h' r' v' _ [-> Hr]; exact Hr. Qed.
Lemma la_iop k f a b va vb :
  ref n h a va -> ref k h b vb -> sp n h (h_iop f a b) (iop f va vb) (fun h' r v => ref n h' r v).
Proof.
  intros H1 H2. eapply sp_conseq; [|eapply sp_iop; [exact H1|exact H2]]. intros h' r v _ (-> & Hr & _). exact Hr.
Qed.
End last.
Lemma good_norm L n1 n2 n3 h a b c va vb vc :
  ref n1 h a va -> ref n2 h b vb -> ref n3 h c vc -> good h (h_norm_logcdf L a b c) (norm_logcdf L va vb vc).
Proof.
  intros Ha Hb Hc. apply good_new. unfold norm_logcdf.
  pose proof (same_bop pair _ _ _ _ (proj2 (proj2 Ha)) (proj2 (proj2 Hb))) as H.
  destruct (bop pair (value h a) (value h b)), (bop pair va vb); cbn in *; try contradiction; [|exact H].
  apply same_bop; [apply Hc|exact H].
Qed.
Lemma good_diff n1 n2 h a b va vb :
  ref n1 h a va -> ref n2 h b vb -> good h (h_logdiffexp a b) (logdiffexp va vb).
Proof. intros Ha Hb. apply good_new. apply same_bop; [apply Ha|apply Hb]. Qed.

(** transport everything to the new heap *)
Ltac mv K :=
  match type of K with
  | keeps (length ?h) ?h ?h' =>
    repeat match goal with
    | H : ref ?n h ?r ?v |- _ => apply (ref_keeps n h h' r v K) in H
    | H : par_in h ?s ?self |- _ => apply (par_keeps h h' s self K) in H
    end; clear K
  end.
Ltac aref := repeat first [eassumption | apply ref_T | apply ref_init0 | apply ref_tail0].

Section par.
Variables (L : stats_lib) (s : hpar) (self : par).
Let P := fun h => par_in h s self.

Lemma lv_good w h : par_in h s self -> good h (h_log_vol s w) (log_vol self w).
Proof.
  intros H. unfold h_log_vol, log_vol, good. eapply st_good; [lia|apply volume_good; apply H|].
  intros h' r v N K Hr. apply la_good; [exact N|]. eapply good_map; exact Hr.
Qed.
Lemma dxdy_good h : par_in h s self -> good h (h_log_dxdy s) (Ok (log_dxdy self)).
Proof.
  intros [(_ & _ & _ & _ & Ex & Ey) _]. unfold h_log_dxdy, log_dxdy. rewrite <- Ex, <- Ey. apply good_alloc.
Qed.
Lemma x_t_mw_good h d : par_in h s self -> good h (h_x_t_mw s d) (x_t_mw self d).
Proof.
  intros H. unfold h_x_t_mw, x_t_mw, good.
  eapply st_attr; [apply H|]. intros a va Ha.
  eapply st_ok; [lia|eapply good_copy; exact Ha|]. intros h1 lp N K Hlp. mv K.
  destruct d; [apply la_ret; exact Hlp|].
  eapply st_ok; [lia|apply dxdy_good; exact H|]. intros h2 e N2 K He. mv K.
  eapply la_iop; aref.
Qed.
Lemma t_mw_good h d : par_in h s self -> good h (h_t_mw s d) (t_mw self d).
Proof.
  intros H. unfold h_t_mw, t_mw, good.
  eapply st_attr; [apply H|]. intros a va Ha.
  eapply st_ok; [lia|eapply good_copy; exact Ha|]. intros h1 lp N K Hlp. mv K.
  destruct d; [apply la_ret; exact Hlp|].
  eapply st_good; [lia|apply lv_good; exact H|]. intros h2 e ve N2 K He. mv K.
  eapply la_iop; aref.
Qed.

(** one step of straight-line code *)
Ltac sg lem := eapply st_good; [lia|first [eapply lem; eassumption | eapply lem; aref]|];
  let h := fresh "h" in let r := fresh "r" in let v := fresh "v" in let N := fresh "N" in let K := fresh "K" in let H := fresh "H" in
  intros h r v N K H; mv K.
Ltac so lem := eapply st_ok; [lia|first [eapply lem; eassumption | eapply lem; aref]|];
  let h := fresh "h" in let r := fresh "r" in let N := fresh "N" in let K := fresh "K" in let H := fresh "H" in
  intros h r N K H; mv K.
Ltac sget := eapply st_get; [aref|];
  let r := fresh "r" in let v := fresh "v" in let H := fresh "H" in intros r v H.
Ltac smov := eapply st_mov; [aref|];
  let r := fresh "r" in let v := fresh "v" in let H := fresh "H" in intros r v H.
Ltac lg lem := apply la_good; [lia|first [eapply lem; eassumption | eapply lem; aref]].
Ltac lr := apply la_ret; aref.

Lemma tx_mw_good h d : par_in h s self -> good h (h_tx_mw s d) (tx_mw self d).
Proof.
  intros H. unfold h_tx_mw, tx_mw, good. sg x_t_mw_good. sg t_mw_good. sg good_bop. apply la_mov; aref.
Qed.
Lemma z_tx_mw_good h d : par_in h s self -> good h (h_z_tx_mw s d) (z_tx_mw self d).
Proof.
  intros H. unfold h_z_tx_mw, z_tx_mw, good. eapply st_attr; [apply H|]. intros a va Ha.
  so good_copy. destruct d; [lr|]. sg lv_good. sg good_bop. lr.
Qed.
Lemma txz_mw_good h d : par_in h s self -> good h (h_txz_mw s d) (txz_mw self d).
Proof.
  intros H. unfold h_txz_mw, txz_mw, good. sg tx_mw_good. sg z_tx_mw_good. sget. smov. lg good_bop.
Qed.
Lemma p_txz_good h d lw : par_in h s self -> good h (h_p_txz s d lw) (p_txz self d lw).
Proof.
  intros H. unfold h_p_txz, p_txz, good. sg txz_mw_good. destruct lw; [|lr].
  sg txz_mw_good. eapply st_get; [apply H|]. intros lw vlw Hlw. cbv zeta. so good_map.
  sg good_bop. sg good_lse_all. sg good_bop. lg good_bop.
Qed.

(** conditional in-place steps *)
Section cond.
Context (n : nat) (h : heap) (d : bool) (lp : nda) (v : arr num).
Hypotheses (N : n <= length h) (H : par_in h s self) (Hlp : ref n h lp v).
Let R := fun h' r v => ref n h' r v.
Lemma add_dxdy_sp : sp n h (h_add_dxdy s d lp) (if d then iop nadd v (log_dxdy self) else Ok v) R.
Proof. unfold h_add_dxdy, R. destruct d; [|lr]. so dxdy_good. eapply la_iop; aref. Qed.
Lemma add_vol_sp w : sp n h (h_add_vol s w d lp) (if d then l <- log_vol self w ;; iop nadd v l else Ok v) R.
Proof. unfold h_add_vol, R. destruct d; [|lr]. sg lv_good. eapply la_iop; aref. Qed.
Lemma add_dt_sp : sp n h (h_add_dt s d lp) (if d then add_log_dt self v else Ok v) R.
Proof. unfold h_add_dt, h_add_log_dt, add_log_dt, R. destruct d; [|lr]. sg lv_good. sg good_bop. lr. Qed.
Lemma sub_dv_sp :
  sp n h (h_sub_dv s d lp)
     (if d then ldv <- log_vol self "v" ;; r <- bop nsub (T v) ldv ;; Ok (T r) else Ok v) R.
Proof. unfold h_sub_dv, R. destruct d; [|lr]. sg lv_good. sg good_bop. lr. Qed.
End cond.
Lemma add_log_dt_good k h lp v : par_in h s self -> ref k h lp v -> good h (h_add_log_dt s lp) (add_log_dt self v).
Proof. intros H Hlp. unfold h_add_log_dt, add_log_dt, good. sg lv_good. sg good_bop. lr. Qed.
(** a step after which only its result is used *)
Lemma st_sp n h (m : prog nda) p (f : nda -> prog nda) (g : arr num -> res (arr num)) R :
  n <= length h ->
  sp n h m p (fun h' r v => ref n h' r v) ->
  (forall h' r v, n <= length h' -> ref n h' r v -> sp n h' (f r) (g v) R) ->
  sp n h (bnd m f) (bind p g) R.
Proof.
  intros N H1 H2. eapply sp_bind; [reflexivity|exact H1|]. intros h' r v [K _] Hr. apply H2; [lia|exact Hr].
Qed.
Ltac ss lem := eapply st_sp; [lia|eapply lem; [lia|eassumption|aref]|];
  let h := fresh "h" in let r := fresh "r" in let v := fresh "v" in let N := fresh "N" in let H := fresh "H" in
  intros h r v N H.

Lemma p_tz_good h d lw : par_in h s self -> good h (h_p_tz s d lw) (p_tz self d lw).
Proof. intros H. unfold h_p_tz, p_tz, good. sg p_txz_good. ss add_dxdy_sp. lg good_lse. Qed.
Lemma p_t_good h d lw : par_in h s self -> good h (h_p_t s d lw) (p_t self d lw).
Proof.
  intros H. unfold h_p_t, p_t, good. destruct lw; [|apply t_mw_good; exact H].
  sg p_tz_good. sg lv_good. sg good_bop. sg good_lse. destruct d; [lr|]. sg lv_good. eapply la_iop; aref.
Qed.
Lemma p_x_t_good h d lw : par_in h s self -> good h (h_p_x_t s d lw) (p_x_t self d lw).
Proof.
  intros H. unfold h_p_x_t, p_x_t, good. destruct lw; [|apply x_t_mw_good; exact H].
  sg p_txz_good. sg lv_good. sg good_bop. sg good_lse. sg p_t_good. sg good_bop. smov.
  destruct d; [lr|]. so dxdy_good. eapply la_iop; aref.
Qed.
Lemma p_tx_good h d lw : par_in h s self -> good h (h_p_tx s d lw) (p_tx self d lw).
Proof.
  intros H. unfold h_p_tx, p_tx, good. destruct lw; [|apply tx_mw_good; exact H].
  sg p_txz_good. ss add_vol_sp. lg good_lse.
Qed.
Lemma p_z_tx_good h d lw : par_in h s self -> good h (h_p_z_tx s d lw) (p_z_tx self d lw).
Proof.
  intros H. unfold h_p_z_tx, p_z_tx, good. destruct lw; [|apply z_tx_mw_good; exact H].
  sg p_txz_good. sg lv_good. sg good_bop. sg good_lse. sg good_bop. smov.
  destruct d; [lr|]. sg lv_good. sg good_bop. lr.
Qed.
Lemma v_tx_mw_good h d : par_in h s self -> good h (h_v_tx_mw L s d) (v_tx_mw L self d).
Proof.
  intros H. unfold h_v_tx_mw, v_tx_mw, good. eapply st_get; [apply H|]. intros e ve He.
  eapply st_attr; [apply H|]. intros mu vmu Hmu. eapply st_attr; [apply H|]. intros sig vsig Hsig.
  sg good_norm. sg good_norm. sg good_diff. apply sub_dv_sp; [lia|assumption|aref].
Qed.
Lemma tvxz_mw_good h d : par_in h s self -> good h (h_tvxz_mw L s d) (tvxz_mw L self d).
Proof.
  intros H. unfold h_tvxz_mw, tvxz_mw, good. sg txz_mw_good. sg v_tx_mw_good. sget. smov. sget. lg good_bop.
Qed.
Lemma p_tvxz_good h d lw : par_in h s self -> good h (h_p_tvxz L s d lw) (p_tvxz L self d lw).
Proof.
  intros H. unfold h_p_tvxz, p_tvxz, good. sg tvxz_mw_good. destruct lw; [|lr].
  sg tvxz_mw_good. eapply st_get; [apply H|]. intros lw vlw Hlw. cbv zeta. so good_map.
  sg good_bop. sg good_lse_all. sg good_bop. lg good_bop.
Qed.
Lemma p_v_tx_good h d lw : par_in h s self -> good h (h_p_v_tx L s d lw) (p_v_tx L self d lw).
Proof.
  intros H. unfold h_p_v_tx, p_v_tx, good. destruct lw; [|apply v_tx_mw_good; exact H].
  sg p_tvxz_good. sg good_lse. sg good_lse. sget. sg good_bop. smov. apply sub_dv_sp; [lia|assumption|aref].
Qed.
Lemma p_tvx_good h d lw : par_in h s self -> good h (h_p_tvx L s d lw) (p_tvx L self d lw).
Proof.
  intros H. unfold h_p_tvx, p_tvx, good. destruct lw.
  - sg p_tvxz_good. ss add_vol_sp. lg good_lse.
  - sg tx_mw_good. sg v_tx_mw_good. sget. smov. lg good_bop.
Qed.
Lemma p_tv_good h d lw : par_in h s self -> good h (h_p_tv L s d lw) (p_tv L self d lw).
Proof. intros H. unfold h_p_tv, p_tv, good. sg p_tvx_good. ss add_dxdy_sp. lg good_lse. Qed.
Lemma p_tvz_good h d lw : par_in h s self -> good h (h_p_tvz L s d lw) (p_tvz L self d lw).
Proof. intros H. unfold h_p_tvz, p_tvz, good. sg p_tvxz_good. ss add_dxdy_sp. lg good_lse. Qed.
Lemma p_v_good h d lw : par_in h s self -> good h (h_p_v L s d lw) (p_v L self d lw).
Proof.
  intros H. unfold h_p_v, p_v, good. sg p_tvx_good. eapply st_sp; [lia| |].
  - destruct d; [|lr]. sg add_log_dt_good. apply (add_dxdy_sp _ _ true); [lia|assumption|aref].
  - intros h1 r1 v1 N1 H1. lg good_lse.
Qed.
Lemma p_vx_good h d lw : par_in h s self -> good h (h_p_vx L s d lw) (p_vx L self d lw).
Proof. intros H. unfold h_p_vx, p_vx, good. sg p_tvx_good. ss add_dt_sp. lg good_lse. Qed.
Lemma p_vxz_good h d lw : par_in h s self -> good h (h_p_vxz L s d lw) (p_vxz L self d lw).
Proof. intros H. unfold h_p_vxz, p_vxz, good. sg p_tvxz_good. ss add_dt_sp. lg good_lse. Qed.
Lemma p_vz_good h d lw : par_in h s self -> good h (h_p_vz L s d lw) (p_vz L self d lw).
Proof. intros H. unfold h_p_vz, p_vz, good. sg p_vxz_good. ss add_dxdy_sp. lg good_lse. Qed.
Lemma p_x_good h d lw : par_in h s self -> good h (h_p_x s d lw) (p_x self d lw).
Proof.
  intros H. unfold h_p_x, p_x, good. destruct lw.
  - sg p_txz_good. eapply st_sp; [lia| |].
    + destruct d; [|lr]. sg lv_good. sget. eapply la_iop; aref.
    + intros h1 r1 v1 N1 H1. lg good_lse.
  - sg x_t_mw_good. sg t_mw_good. sg good_bop. lg good_lse.
Qed.
Lemma p_xz_good h d lw : par_in h s self -> good h (h_p_xz s d lw) (p_xz self d lw).
Proof. intros H. unfold h_p_xz, p_xz, good. sg p_txz_good. ss add_dt_sp. lg good_lse. Qed.
Lemma p_z_good h d lw : par_in h s self -> good h (h_p_z s d lw) (p_z self d lw).
Proof. intros H. unfold h_p_z, p_z, good. sg p_tz_good. ss add_dt_sp. lg good_lse. Qed.

Lemma par_table_ok : table_ok (fun h => par_in h s self) (h_par_table L s) (par_table L self).
Proof.
  intros key. unfold h_par_table, par_table, lookup. cbv zeta.
  repeat match goal with
  | |- context [String.eqb key ?k] => destruct (String.eqb key k)
  end; try exact I; intros h d lw H;
  first [apply p_t_good|apply p_tv_good|apply p_tx_good|apply p_tz_good|apply p_tvx_good|apply p_tvz_good
        |apply p_txz_good|apply p_tvxz_good|apply p_v_good|apply p_vx_good|apply p_vz_good|apply p_vxz_good
        |apply p_x_good|apply p_xz_good|apply p_z_good|apply p_x_t_good|apply p_v_tx_good|apply p_z_tx_good]; exact H.
Qed.
Lemma par_log_good w h density lw :
  par_in h s self -> good h (h_par_get_log_p L s w density lw) (par_get_log_p L self w density lw).
Proof.
  apply (get_log_p_good (fun h => par_in h s self)).
  - intros h1 h2; apply par_keeps.
  - intros h1 H; apply H.
  - apply par_table_ok.
Qed.
Lemma par_good w h density lw :
  par_in h s self -> good h (h_par_get_p L s w density lw) (par_get_p L self w density lw).
Proof.
  apply (get_p_good (fun h => par_in h s self)).
  - intros h1 h2; apply par_keeps.
  - intros h1 H; apply H.
  - apply par_table_ok.
Qed.
End par.
