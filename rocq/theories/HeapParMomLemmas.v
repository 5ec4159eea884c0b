(** * HeapParMomLemmas: parametric velocity moments on the heap against those on
    values. *)
From Coq Require Import Reals String Ascii List Bool Arith ZArith Lia.
From Verif Require Import Num Arr ArrLemmas PyStr Cube Base Moments Parametric ParMoments Heap HeapLemmas HeapClaims
  HeapPar HeapParClaims HeapMom HeapMomLemmas HeapParMom.
Import ListNotations.
Local Open Scope nat_scope.

Ltac pmv :=
  match goal with
  | K : keeps (length ?h) ?h ?h' |- _ =>
      repeat match goal with S : sees h _ _ |- _ => apply (sees_keeps _ _ _ _ K) in S end;
      repeat match goal with S : par_in h _ _ |- _ => apply (par_keeps _ _ _ _ K) in S end;
      repeat match goal with N : ?n <= length h |- _ => apply (fun x => Nat.le_trans _ _ _ x (proj1 K)) in N end;
      clear K
  end.
#[local] Hint Resolve sees_T sees_tail sees_init Nat.le_0_l Nat.le_refl : sees.
Ltac op :=
  first [ eapply mk_bop; eauto with sees | eapply mk_map; eauto with sees | eapply mk_sum; eauto with sees
        | eapply mk_sum_all; eauto with sees | apply mk_alloc; eauto with sees ].
Ltac st r := let h := fresh "h" in let K := fresh "K" in let v := fresh "val_" r in
  eapply g_step; [op|]; intros h r v K [_ ?S]; pmv.
Ltac vi r := let v := fresh "val_" r in
  eapply v_step; [first [eapply sees_getitem | eapply sees_moveaxis | eapply sees_broadcast]; eauto with sees|]; intros r v _ ?S.

Lemma attr_sees {A B} h o o' (f : nda -> prog A) (g : arr num -> res B) R :
  oref h o o' -> (forall r v, o = Some r -> sees h r v -> sp (length h) h (f r) (g v) R) ->
  sp (length h) h (bnd (lift (attr o)) f) (bind (attr o') g) R.
Proof.
  intros H1 H2. destruct o as [r|], o' as [v|]; cbn in H1; try contradiction.
  - exact (H2 r v eq_refl (ref_sees _ _ _ _ H1)).
  - split; [apply keeps_refl|reflexivity].
Qed.
Section par.
Variables (L : stats_lib) (f2m1 : num) (s : hpar) (self : par).

Lemma central_tx_makes n h j : par_in h s self -> n <= length h -> makes n h (h_central_v_tx f2m1 s j) (central_v_tx f2m1 self j).
Proof.
  intros P N. unfold h_central_v_tx, central_v_tx. apply attr_sees; [apply P|]. intros r v _ S.
  destruct (Nat.even j); [op|]. rewrite (sees_shp _ _ _ S). op.
Qed.
(** the result is a view of [a] *)
Lemma add_z_sp h a va : par_in h s self -> sees h a va ->
  sp (length h) h (h_add_z_axis s a) (add_z_axis self va) (fun h' r v => sees h' r v /\ na_addr r = na_addr a /\ h' = h).
Proof.
  intros P S. unfold h_add_z_axis, add_z_axis. cbv zeta.
  assert (E : na_shp (hq_delta_z (hp_cube s)) = shp (delta_z (c_ssps (pa_cube self)))).
  { destruct P as [(_ & (_ & _ & E & _) & _) _]. exact E. }
  rewrite E, (sees_shp _ _ _ S).
  eapply v_step; [eapply sees_broadcast; exact S|]. intros b vb Eb Sb.
  pose proof (sees_moveaxis h [0]%Z [-1]%Z b vb Sb) as V. split; [apply keeps_refl|].
  destruct (v_moveaxis b [0]%Z [-1]%Z), (moveaxis vb [0]%Z [-1]%Z); cbn in V; auto. destruct V as [E1 E2].
  split; [exact E2|]. split; [congruence|reflexivity].
Qed.
Lemma add_z_makes n h a va : par_in h s self -> sees h a va -> n <= na_addr a -> makes n h (h_add_z_axis s a) (add_z_axis self va).
Proof.
  intros P S N. eapply sp_conseq; [|apply add_z_sp; eassumption]. intros h' r v _ (S' & E & _). split; [lia|exact S'].
Qed.
Lemma central_txz_makes n h j : par_in h s self -> n <= length h -> makes n h (h_central_v_txz f2m1 s j) (central_v_txz f2m1 self j).
Proof.
  intros P N. unfold h_central_v_txz, central_v_txz.
  eapply g_step; [apply (central_tx_makes n); assumption|]. intros h1 r v K [A S]. pmv. apply add_z_makes; assumption.
Qed.
(** these share memory with mu_v *)
Lemma mean_tx_sp h : par_in h s self ->
  sp (length h) h (h_mean_v_tx s) (mean_v_tx self) (fun h' r v => sees h' r v /\ hp_mu_v s = Some r /\ h' = h).
Proof.
  intros (_ & _ & _ & _ & H & _). unfold h_mean_v_tx, mean_v_tx. split; [apply keeps_refl|].
  destruct (hp_mu_v s), (pa_mu_v self); cbn in *; try contradiction; auto. split; [eapply ref_sees; exact H|auto].
Qed.
Lemma mean_txz_sp h : par_in h s self ->
  sp (length h) h (h_mean_v_txz s) (mean_v_txz self)
    (fun h' r v => sees h' r v /\ (exists r0, hp_mu_v s = Some r0 /\ na_addr r = na_addr r0) /\ h' = h).
Proof.
  intros P. unfold h_mean_v_txz, mean_v_txz. eapply g_step; [apply mean_tx_sp; exact P|]. intros h1 r v K (S & E & ->).
  eapply sp_conseq; [|apply add_z_sp; eassumption]. intros h' r' v' _ (S' & E' & ->). eauto.
Qed.
Lemma mean_any_sp h (z : bool) : par_in h s self ->
  sp (length h) h (if z then h_mean_v_txz s else h_mean_v_tx s) (if z then mean_v_txz self else mean_v_tx self) sees.
Proof.
  intros P. destruct z; [eapply sp_conseq; [|apply mean_txz_sp; exact P]|eapply sp_conseq; [|apply mean_tx_sp; exact P]]; intros ? ? ? _ (S & _); exact S.
Qed.
Lemma moment_v_makes n h axes z P vP j mu vmu : par_in h s self -> n <= length h -> sees h P vP -> sees h mu vmu ->
  makes n h (h_moment_v f2m1 s axes z P j mu) (moment_v f2m1 self axes z vP j vmu).
Proof.
  intros H N SP Sm. unfold h_moment_v, moment_v, makes. cbv zeta.
  set (k := seq 0 (S j)). set (ck := arr1 (map (fun i => Fin (INR (binom j i))) k) NaN).
  eapply g_step_ok; [apply (mk_alloc 0 h ck); lia|]. intros h1 c K [_ Sc]. pmv.
  eapply g_step; [apply mean_any_sp; exact H|]. intros h2 E vE K SE. pmv.
  rewrite (sees_shp _ _ _ SE). apply l_step. intros jk _.
  st d.
  set (add := if z then [IAll; IAll; IAll; IAll; INew] else [IAll; IAll; IAll; INew]).
  vi d'. vi P'.
  eapply g_step.
  { apply (list_sp h0) with (l := k) (l' := k); [|apply keeps_refl].
    clear - H. clearbody k. induction k as [|i k IH]; constructor; [|exact IH].
    intros h K. apply (par_keeps _ _ _ _ K) in H. eapply makes_sees.
    destruct z; [apply (central_txz_makes 0)|apply (central_tx_makes 0)]; auto; lia. }
  intros h3 l vl K Sl. pmv.
  eapply g_step; [apply (mk_stack 0); [lia|exact Sl]|]. intros h4 cm vcm K [_ Scm]. clear Sl. pmv.
  vi cm'.
  eapply g_step; [apply (mk_new 0); [lia|apply same_bop; [apply S0|apply same_refl]]|]. intros h5 pw vpw K [_ Spw]. pmv.
  st i1. st i2. st it. st a. op.
Qed.
Lemma parp_makes n h w d lw : par_in h s self -> n <= length h -> makes n h (h_par_get_p L s w d lw) (par_get_p L self w d lw).
Proof. intros P N. apply good_makes; [exact N|]. apply par_good; exact P. Qed.
Ltac gp r := let h := fresh "h" in let K := fresh "K" in let v := fresh "val_" r in
  eapply g_step; [eapply (parp_makes 0); eauto with sees|]; intros h r v K [_ ?S]; pmv.
Lemma noncentral_tx_makes n h j mu vmu lw : par_in h s self -> n <= length h -> sees h mu vmu ->
  makes n h (h_noncentral_v_tx f2m1 s j mu lw) (noncentral_v_tx f2m1 self j vmu lw).
Proof.
  intros H N Sm. unfold h_noncentral_v_tx, noncentral_v_tx, makes.
  eapply g_step; [apply volume_good; apply H|]. intros h1 d vd K Sd. pose proof (sees_shp _ _ _ (ref_sees _ _ _ _ Sd)) as E. rewrite E. clear Sd. pmv.
  cbv zeta. eapply g_step_ok; [apply (mk_alloc 0); lia|]. intros h2 P K [_ SP]. pmv. apply moment_v_makes; assumption.
Qed.
Lemma moments_makes n h w j mu vmu lw : par_in h s self -> n <= length h -> sees h mu vmu ->
  match h_par_moments L f2m1 s w, par_moments L f2m1 self w with
  | Some f, Some g => makes n h (f j mu lw) (g j vmu lw)
  | None, None => True
  | _, _ => False
  end.
Proof.
  intros H N Sm. unfold h_par_moments, par_moments, lookup.
  repeat match goal with |- context [if String.eqb ?a ?b then _ else _] => destruct (String.eqb a b) end; cbv beta iota.
  - apply noncentral_tx_makes; assumption.
  - unfold h_noncentral_v_x, noncentral_v_x, makes. gp P. apply moment_v_makes; assumption.
  - unfold h_noncentral_v_t, noncentral_v_t, makes. gp P. vi P'. vi mu'. apply moment_v_makes; assumption.
  - unfold h_noncentral_v, noncentral_v, makes. gp P. apply moment_v_makes; assumption.
  - unfold h_noncentral_v_txz, noncentral_v_txz, makes. vi mu'.
    eapply g_step; [apply (noncentral_tx_makes n); assumption|]. intros h1 r v K [A S1]. pmv. apply add_z_makes; assumption.
  - unfold h_noncentral_v_tz, noncentral_v_tz, makes. gp P. vi P'. vi mu'. apply moment_v_makes; assumption.
  - unfold h_noncentral_v_xz, noncentral_v_xz, makes. gp P. vi mu'. apply moment_v_makes; assumption.
  - unfold h_noncentral_v_z, noncentral_v_z, makes. gp P. vi mu'. apply moment_v_makes; assumption.
  - exact I.
Qed.
Ltac mt := eapply g_step; [apply mean_tx_sp; eassumption|]; intros h1 E vE K (SE & _ & ->); clear K.
Ltac mz := eapply g_step; [apply mean_txz_sp; eassumption|]; intros h1 E vE K (SE & _ & ->); clear K.
Lemma means_sp n h w lw : par_in h s self -> n <= length h ->
  match h_par_means L s w, par_means L self w with
  | Some f, Some g => w = "v_tx"%string \/ w = "v_txz"%string \/ makes n h (f lw) (g lw)
  | None, None => True
  | _, _ => False
  end.
Proof.
  intros H N. unfold h_par_means, par_means, lookup.
  repeat match goal with |- context [if String.eqb ?a ?b then _ else _] => destruct (String.eqb_spec a b) end; subst; cbv beta iota.
  - left; reflexivity.
  - right; right. unfold h_mean_v_x, mean_v_x, makes. mt. gp P. st a. op.
  - right; right. unfold h_mean_v_t, mean_v_t, makes. mt. gp P. vi E'. st a. op.
  - right; right. unfold h_mean_v, mean_v, makes. mt. gp P. st a. op.
  - right; left; reflexivity.
  - right; right. unfold h_mean_v_tz, mean_v_tz, makes. mz. gp P. vi E'. st a. op.
  - right; right. unfold h_mean_v_xz, mean_v_xz, makes. mz. gp P. st a. op.
  - right; right. unfold h_mean_v_z, mean_v_z, makes. mz. gp P. st a. op.
  - exact I.
Qed.
Lemma par_obj_in h g : par_in h s self -> grid_in h g (pa_cube self) ->
  obj_in h (h_par_obj L f2m1 s g) (par_obj L f2m1 self).
Proof.
  intros H G. split; [exact G|]. split.
  { intros h' w d lw K. cbn. apply par_good. eapply par_keeps; eassumption. }
  split.
  - intros h' w lw K. apply (par_keeps _ _ _ _ K) in H. cbn [hb_mean o_mean h_par_obj par_obj].
    pose proof (means_sp 0 h' w lw H (Nat.le_0_l _)) as M.
    destruct (h_par_means L s w) as [f|] eqn:E1, (par_means L self w) as [q|] eqn:E2; try contradiction; [|exact I].
    destruct M as [->|[->|M]].
    + injection E1 as <-. injection E2 as <-. exact (mean_any_sp h' false H).
    + injection E1 as <-. injection E2 as <-. exact (mean_any_sp h' true H).
    + eapply makes_sees; exact M.
  - intros h' w j mu vmu lw K S. apply (par_keeps _ _ _ _ K) in H. apply moments_makes; auto.
Qed.
End par.
