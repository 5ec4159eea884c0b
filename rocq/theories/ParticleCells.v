(** * ParticleCells: distributions of binned particles, in terms of particles. *)
From Coq Require Import Reals Lra Lia String Ascii List Bool Arith ZArith FunctionalExtensionality.
From Verif Require Import Num NumLemmas Arr ArrLemmas Cube Base Spec SpecLemmas Repr Moments MomSpec MomLemmas MomLemmas3 MomClaims CubeLemmas CubeGeom VecLemmas SspLemmas BaseLemmas CondLemmas DistLemmas NanLemmas LMom
  Stat Particle ParticleSpec ParticleLemmas ParticleClaims ParticleMix.
Import ListNotations.
Local Open Scope R_scope.

(** ** specification *)
(** in bin [k] of the axis, or anywhere on it *)
Definition on_axis (b : bool) (n : nat) (E : nat -> R) (k : nat) (x : num) : bool :=
  if b then in_bin n E k x else in_range n E x.
(** on the grid and, in the variables of [S], in the same bin as [i] *)
Definition in_cell (g : grid) (S : vset) (i : bin) (p : particle) : bool :=
  on_axis (has_t S) (nt g) (tE g) (bt i) (p_t p) && on_axis (has_v S) (nv g) (vE g) (bv i) (p_v p) &&
  on_axis (has_x S) (nx g) (xE g) (bx i) (p_x1 p) && on_axis (has_x S) (ny g) (yE g) (by_ i) (p_x2 p) &&
  on_axis (has_z S) (nz g) (zE g) (bz i) (p_z p).
(** light per unit mass of the age and metallicity bin that holds the particle *)
Definition its_light (g : grid) (p : particle) : R :=
  Sum (nt g) (fun t => Sum (nz g) (fun z =>
    if in_bin (nt g) (tE g) t (p_t p) && in_bin (nz g) (zE g) z (p_z p) then Lw g t z else 0)).
(** luminosities in place of masses *)
Definition relit (g : grid) (pw : list (particle * R)) : list (particle * R) :=
  map (fun q => (fst q, snd q * its_light g (fst q))) pw.
Definition weighed (g : grid) (lw : bool) (pw : list (particle * R)) : list (particle * R) :=
  if lw then relit g pw else pw.
(** value of a coordinate of a particle *)
Definition pcoord (k : coord) (p : particle) : R :=
  match (match k with Ct => p_t p | Cv => p_v p | Cx1 => p_x1 p | Cx2 => p_x2 p | Cz => p_z p end) with
  | Fin r => r | _ => 0 end.
(** weighted mean and variance of the unbinned values of the particles in a cell *)
Definition pmean (g : grid) (C : vset) (i : bin) (h : particle -> R) (pw : list (particle * R)) : R :=
  sumR (map (fun q => if in_cell g C i (fst q) then h (fst q) * snd q else 0) pw) / weight (in_cell g C i) pw.
Definition pvar (g : grid) (C : vset) (i : bin) (h : particle -> R) (pw : list (particle * R)) : R :=
  pmean g C i (fun p => (h p - pmean g C i h pw) ^ 2) pw.

(** ** weights of cells *)
Lemma over_if b n i (c : bool) F : over b n i (fun k => if c then F k else 0) = (if c then over b n i F else 0).
Proof. destruct c; [reflexivity|]. destruct b; cbn; [reflexivity|]. apply Sum_all_0. reflexivity. Qed.
Lemma over_sel b n E i x w : increasing n E -> (0 < n)%nat ->
  over b n i (fun k => if in_bin n E k x then w else 0) = if on_axis b n E i x then w else 0.
Proof. intros HE Hn. destruct b; cbn; [reflexivity|]. apply sel_sum; assumption. Qed.

Section Cells.
Context (g : grid) (Hg : good_grid g).

Lemma marg_one S i p w :
  marg g (fun t v x y z => if inside g (Bin t v x y z) p then w else 0) S i = if in_cell g S i p then w else 0.
Proof.
  unfold marg. destruct Hg.
  transitivity (over (has_t S) (nt g) (bt i) (fun t => if in_bin (nt g) (tE g) t (p_t p) then
    over (has_v S) (nv g) (bv i) (fun v => if in_bin (nv g) (vE g) v (p_v p) then
    over (has_x S) (nx g) (bx i) (fun x => if in_bin (nx g) (xE g) x (p_x1 p) then
    over (has_x S) (ny g) (by_ i) (fun y => if in_bin (ny g) (yE g) y (p_x2 p) then
    over (has_z S) (nz g) (bz i) (fun z => if in_bin (nz g) (zE g) z (p_z p) then w else 0) else 0) else 0) else 0) else 0)).
  - apply over_ext_all; intros t. rewrite <- over_if. apply over_ext_all; intros v.
    transitivity (over (has_x S) (nx g) (bx i) (fun x => if in_bin (nt g) (tE g) t (p_t p) then
      (if in_bin (nv g) (vE g) v (p_v p) then (if in_bin (nx g) (xE g) x (p_x1 p) then
       over (has_x S) (ny g) (by_ i) (fun y => if in_bin (ny g) (yE g) y (p_x2 p) then
       over (has_z S) (nz g) (bz i) (fun z => if in_bin (nz g) (zE g) z (p_z p) then w else 0) else 0) else 0) else 0) else 0)).
    + apply over_ext_all; intros x.
      transitivity (over (has_x S) (ny g) (by_ i) (fun y => if in_bin (nt g) (tE g) t (p_t p) then
        (if in_bin (nv g) (vE g) v (p_v p) then (if in_bin (nx g) (xE g) x (p_x1 p) then (if in_bin (ny g) (yE g) y (p_x2 p) then
         over (has_z S) (nz g) (bz i) (fun z => if in_bin (nz g) (zE g) z (p_z p) then w else 0) else 0) else 0) else 0) else 0)).
      * apply over_ext_all; intros y. unfold inside; cbn [bt bv bx by_ bz].
        destruct (in_bin (nt g) (tE g) t (p_t p)), (in_bin (nv g) (vE g) v (p_v p)), (in_bin (nx g) (xE g) x (p_x1 p)), (in_bin (ny g) (yE g) y (p_x2 p));
          cbn [andb]; try reflexivity; destruct (has_z S); cbn; try reflexivity; apply Sum_all_0; reflexivity.
      * rewrite !over_if. reflexivity.
    + rewrite !over_if. reflexivity.
  - do 5 (rewrite over_sel by assumption). unfold in_cell.
    destruct (on_axis (has_t S) _ _ _ _), (on_axis (has_v S) _ _ _ _), (on_axis (has_x S) (nx g) _ _ _),
      (on_axis (has_x S) (ny g) _ _ _), (on_axis (has_z S) _ _ _ _); reflexivity.
Qed.

Lemma marg_plus P Q S i : marg g (fun t v x y z => P t v x y z + Q t v x y z) S i = marg g P S i + marg g Q S i.
Proof.
  unfold marg. rewrite <- over_plus. apply over_ext_all; intros t. rewrite <- over_plus. apply over_ext_all; intros v.
  rewrite <- over_plus. apply over_ext_all; intros x. rewrite <- over_plus. apply over_ext_all; intros y.
  rewrite <- over_plus. reflexivity.
Qed.
Lemma marg_weight pw S i :
  marg g (fun t v x y z => weight (inside g (Bin t v x y z)) pw) S i = weight (in_cell g S i) pw.
Proof.
  induction pw as [|[p w] l IH].
  - change (marg g (fun t v x y z => 0) S i = 0).
    pose proof (marg_scal g (fun t v x y z => 1) S i 0) as X. rewrite Rmult_0_l in X.
    etransitivity; [|exact X]. unfold marg. do 5 (apply over_ext_all; intros). ring.
  - rewrite weight_cons, <- IH. cbn [fst snd]. rewrite <- marg_one. rewrite <- marg_plus.
    unfold marg. do 5 (apply over_ext_all; intros). rewrite weight_cons. reflexivity.
Qed.
Lemma cell_none i p : in_cell g no_vars i p = in_bounds g p.
Proof. reflexivity. Qed.
Lemma cell_sub S i p : in_grid g i -> in_cell g S i p = true -> in_bounds g p = true.
Proof.
  intros (H1 & H2 & H3 & H4 & H5). unfold in_cell, in_bounds. rewrite !andb_true_iff. destruct Hg.
  assert (X : forall b n E k x, increasing n E -> (k < n)%nat -> on_axis b n E k x = true -> in_range n E x = true).
  { intros [] n E k x HE Hk; cbn; [|auto]. apply in_bin_range; [exact HE|lia|exact Hk]. }
  intros ((((A1 & A2) & A3) & A4) & A5).
  repeat split; [eapply X; [| |exact A1]|eapply X; [| |exact A2]|eapply X; [| |exact A3]|eapply X; [| |exact A4]|eapply X; [| |exact A5]];
    eassumption.
Qed.

(** ** light *)
Lemma its_light_in t z p : (t < nt g)%nat -> (z < nz g)%nat ->
  in_bin (nt g) (tE g) t (p_t p) = true -> in_bin (nz g) (zE g) z (p_z p) = true -> its_light g p = Lw g t z.
Proof.
  intros Ht Hz Bt Bz. destruct Hg.
  destruct (in_range_bin _ _ gg_tE gg_t _ (in_bin_range _ _ gg_tE gg_t t _ Ht Bt)) as (t' & _ & _ & Ut).
  destruct (in_range_bin _ _ gg_zE gg_z _ (in_bin_range _ _ gg_zE gg_z z _ Hz Bz)) as (z' & _ & _ & Uz).
  pose proof (Ut t Ht Bt). pose proof (Uz z Hz Bz). subst t' z'.
  unfold its_light. rewrite (Sum_single _ _ t Ht).
  - rewrite (Sum_single _ _ z Hz).
    + rewrite Bt, Bz. reflexivity.
    + intros j Hj Hne. destruct (in_bin (nz g) (zE g) j (p_z p)) eqn:B; [elim Hne; auto|]. rewrite andb_false_r. reflexivity.
  - intros j Hj Hne. destruct (in_bin (nt g) (tE g) j (p_t p)) eqn:B; [elim Hne; auto|]. apply Sum_all_0. reflexivity.
Qed.
Lemma its_light_nonneg p : 0 <= its_light g p.
Proof.
  unfold its_light. apply Sum_nonneg; intros t Ht. apply Sum_nonneg; intros z Hz. destruct (_ && _); [|lra].
  apply (gg_L _ Hg); assumption.
Qed.
Lemma relit_inside pw i : in_grid g i -> weight (inside g i) (relit g pw) = Lw g (bt i) (bz i) * weight (inside g i) pw.
Proof.
  intros (H1 & H2 & H3 & H4 & H5). induction pw as [|[p w] l IH]; [unfold weight; cbn; ring|].
  unfold relit. cbn [map fst snd]. fold (relit g l). rewrite !weight_cons, IH. cbn [fst snd].
  destruct (inside g i p) eqn:B; [|ring]. unfold inside in B. rewrite !andb_true_iff in B. destruct B as ((((B1 & _) & _) & _) & B5).
  rewrite (its_light_in (bt i) (bz i)) by assumption. ring.
Qed.
Lemma weighed_nonneg lw pw : (forall q, In q pw -> 0 <= snd q) -> forall q, In q (weighed g lw pw) -> 0 <= snd q.
Proof.
  intros H q. destruct lw; cbn; [|apply H]. unfold relit. rewrite in_map_iff. intros (r & <- & Hr). cbn.
  apply Rmult_le_pos; [apply H; exact Hr|apply its_light_nonneg].
Qed.

Lemma mass_weight pw : 0 < weight (in_bounds g) pw ->
  joint_eq g (mass g (particle_density g pw))
    (fun t v x y z => / weight (in_bounds g) pw * weight (inside g (Bin t v x y z)) pw).
Proof.
  intros Hw t v x y z H1 H2 H3 H4 H5. unfold mass, particle_density.
  pose proof (wid_pos _ _ _ (gg_tE _ Hg) H1). pose proof (wid_pos _ _ _ (gg_vE _ Hg) H2).
  pose proof (wid_pos _ _ _ (gg_xE _ Hg) H3). pose proof (wid_pos _ _ _ (gg_yE _ Hg) H4).
  pose proof (wid_pos _ _ _ (gg_zE _ Hg) H5). field. repeat split; lra.
Qed.
Lemma lit_weight pw : 0 < weight (in_bounds g) pw ->
  joint_eq g (lit g (mass g (particle_density g pw)))
    (fun t v x y z => / weight (in_bounds g) pw * weight (inside g (Bin t v x y z)) (relit g pw)).
Proof.
  intros Hw t v x y z H1 H2 H3 H4 H5. unfold lit. rewrite mass_weight by assumption.
  rewrite relit_inside by (unfold in_grid; cbn; auto). cbn [bt bz]. ring.
Qed.
Lemma total_lit pw : 0 < weight (in_bounds g) pw ->
  total g (lit g (mass g (particle_density g pw))) = weight (in_bounds g) (relit g pw) / weight (in_bounds g) pw.
Proof.
  intros Hw. rewrite (total_ext _ _ _ (lit_weight pw Hw)), total_scal. unfold total. rewrite weight_total by exact Hg.
  unfold Rdiv. ring.
Qed.
Lemma lw_ok_weighed pw lw : 0 < weight (in_bounds g) pw -> 0 < weight (in_bounds g) (weighed g lw pw) ->
  lw_ok g (particle_density g pw) lw.
Proof.
  intros Hw Hl ->. rewrite total_lit by exact Hw. apply Rmult_lt_0_compat; [exact Hl|apply Rinv_0_lt_compat; exact Hw].
Qed.
Lemma prob_weight pw lw : 0 < weight (in_bounds g) pw -> 0 < weight (in_bounds g) (weighed g lw pw) ->
  joint_eq g (prob g (particle_density g pw) lw)
    (fun t v x y z => / weight (in_bounds g) (weighed g lw pw) * weight (inside g (Bin t v x y z)) (weighed g lw pw)).
Proof.
  intros Hw Hl. destruct lw; cbn [prob weighed] in *; [|apply mass_weight; exact Hw].
  intros t v x y z H1 H2 H3 H4 H5. unfold light. rewrite total_lit by exact Hw. rewrite lit_weight by assumption.
  field. lra.
Qed.
Lemma marg_cells pw lw S i : 0 < weight (in_bounds g) pw -> 0 < weight (in_bounds g) (weighed g lw pw) -> in_grid g i ->
  marg g (prob g (particle_density g pw) lw) S i =
  weight (in_cell g S i) (weighed g lw pw) / weight (in_bounds g) (weighed g lw pw).
Proof.
  intros Hw Hl Hi. rewrite (marg_ext _ _ _ S i Hi (prob_weight pw lw Hw Hl)).
  pose proof (marg_scal g (fun t v x y z => weight (inside g (Bin t v x y z)) (weighed g lw pw)) S i (/ weight (in_bounds g) (weighed g lw pw))) as X.
  cbv beta in X. rewrite X, marg_weight. unfold Rdiv. ring.
Qed.
End Cells.

(** ** sums over pairs *)
Lemma sumR_prod {A B} (h : A * B -> R) a b :
  sumR (map h (list_prod a b)) = sumR (map (fun x => sumR (map (fun y => h (x, y)) b)) a).
Proof.
  induction a as [|x a IH]; [reflexivity|]. cbn [list_prod map]. rewrite map_app, sumR_app, IH, map_map. reflexivity.
Qed.
Lemma sumR_swap {A B} (h : A -> B -> R) a b :
  sumR (map (fun x => sumR (map (fun y => h x y) b)) a) = sumR (map (fun y => sumR (map (fun x => h x y) a)) b).
Proof.
  induction a as [|x a IH].
  - cbn. induction b as [|y b IH]; [reflexivity|]. cbn. unfold sumR in *. cbn. rewrite <- IH. ring.
  - cbn [map]. unfold sumR at 1. cbn [fold_right]. fold (sumR (map (fun x0 => sumR (map (fun y => h x0 y) b)) a)). rewrite IH.
    rewrite <- sumR_map_plus. apply sumR_map_ext. reflexivity.
Qed.

Lemma abs_le_inv x e : Rabs x <= e -> - e <= x <= e.
Proof. unfold Rabs. destruct (Rcase_abs x); lra. Qed.
(** the weighted averages of nearby functions are near, and so are their spreads *)
Section Near.
Context {A : Type} (l : list A) (w : A -> R) (Hw : forall j, In j l -> 0 <= w j) (H1 : sumR (map w l) = 1).
Lemma E_near0 a b e : (forall j, In j l -> w j <> 0 -> Rabs (a j - b j) <= e) -> Rabs (E l w a - E l w b) <= e.
Proof.
  intros H. rewrite <- E_minus.
  assert (X : forall s, s = 1 \/ s = -1 -> s * E l w (fun j => a j - b j) <= e).
  { intros s Hs. rewrite <- E_scal. rewrite <- (E_const l w H1 e). unfold E.
    assert (Y : forall l', (forall j, In j l' -> In j l) ->
      sumR (map (fun j => s * (a j - b j) * w j) l') <= sumR (map (fun j => e * w j) l')).
    { induction l' as [|j l' IH]; intros Hin; [cbn; lra|]. cbn [map]. unfold sumR; cbn [fold_right].
      specialize (IH (fun j h => Hin j (or_intror h))). unfold sumR in IH. apply Rplus_le_compat; [|exact IH].
      specialize (Hin j (or_introl eq_refl)). pose proof (Hw j Hin).
      destruct (Req_dec (w j) 0) as [E0|E0]; [rewrite E0; lra|]. specialize (H j Hin E0).
      apply Rmult_le_compat_r; [assumption|]. apply abs_le_inv in H. destruct Hs as [-> | ->]; lra. }
    apply Y; auto. }
  apply Rabs_le. pose proof (X 1 (or_introl eq_refl)). pose proof (X (-1) (or_intror eq_refl)). lra.
Qed.
Lemma sd_near a b e : (forall j, In j l -> w j <> 0 -> Rabs (a j - b j) <= e) -> 0 <= e ->
  Rabs (sqrt (Var l w a) - sqrt (Var l w b)) <= e.
Proof.
  intros H He. set (d := fun j => a j - b j).
  assert (Vd : Var l w d <= e ^ 2).
  { rewrite Var_eq by assumption. pose proof (pow2_ge_0 (E l w d)).
    assert (E l w (fun j => d j ^ 2) <= e ^ 2); [|lra].
    pose proof (E_near0 (fun j => d j ^ 2) (fun _ => 0) (e ^ 2)) as X.
    assert (E0 : E l w (fun _ => 0) = 0) by (apply E_const; exact H1). rewrite E0 in X.
    assert (X' : Rabs (E l w (fun j => d j ^ 2) - 0) <= e ^ 2).
    { apply X. intros j Hj Hn. specialize (H j Hj Hn). fold (d j) in H. rewrite Rminus_0_r, <- RPow_abs.
      apply pow_incr. split; [apply Rabs_pos|exact H]. }
    apply abs_le_inv in X'. lra. }
  set (ca := fun j => a j - E l w a). set (cb := fun j => b j - E l w b).
  assert (Da : Var l w a = E l w (fun j => ca j ^ 2)) by reflexivity.
  assert (Db : Var l w b = E l w (fun j => cb j ^ 2)) by reflexivity.
  assert (Dd : Var l w d = Var l w a + Var l w b - 2 * E l w (fun j => ca j * cb j)).
  { rewrite Da, Db. rewrite <- E_scal, <- E_plus, <- E_minus. unfold Var. apply E_ext. intros j _.
    unfold ca, cb, d. rewrite E_minus. ring. }
  pose proof (cauchy l w Hw ca cb) as K. cbv beta in K. rewrite <- Da, <- Db in K.
  pose proof (Var_nonneg l w Hw a) as Na. pose proof (Var_nonneg l w Hw b) as Nb.
  set (A0 := Var l w a) in *. set (B0 := Var l w b) in *. set (K0 := E l w (fun j => ca j * cb j)) in *.
  assert (K1 : K0 <= sqrt A0 * sqrt B0).
  { rewrite <- sqrt_mult by assumption. destruct (Rle_dec K0 0); [pose proof (sqrt_pos (A0 * B0)); lra|].
    apply Rsqr_incr_0_var; [|apply sqrt_pos]. rewrite Rsqr_sqrt by (apply Rmult_le_pos; assumption). unfold Rsqr.
    replace (K0 * K0) with (K0 ^ 2) by ring. exact K. }
  assert ((sqrt A0 - sqrt B0) ^ 2 <= e ^ 2).
  { replace ((sqrt A0 - sqrt B0) ^ 2) with (sqrt A0 * sqrt A0 + sqrt B0 * sqrt B0 - 2 * (sqrt A0 * sqrt B0)) by ring.
    rewrite !sqrt_sqrt by assumption. lra. }
  rewrite <- (Rabs_pos_eq e He). apply Rsqr_le_abs_0. unfold Rsqr. cbn [pow] in *. lra.
Qed.
End Near.

(** ** particles of a cell and the bins that hold them *)
Section Pairs.
Context (g : grid) (Hg : good_grid g) (pw : list (particle * R)) (Hp : forall q, In q pw -> 0 <= snd q).
Context (k : coord) (C : vset) (i : bin) (HD : disjoint (cvar k) C = true) (Hi : in_grid g i).
Context (HW : 0 < weight (in_cell g C i) pw).
Let U := union (cvar k) C.
Let Bs := bins_over g (cvar k) i.
Let W := weight (in_cell g C i) pw.
Definition prs : list ((particle * R) * bin) := list_prod pw (bins_over g (cvar k) i).
Definition om (e : (particle * R) * bin) : R :=
  (if in_cell g (union (cvar k) C) (snd e) (fst (fst e)) then snd (fst e) else 0) / weight (in_cell g C i) pw.

Lemma one_sum p w : sumR (map (fun j => if in_cell g U j p then w else 0) Bs) = if in_cell g C i p then w else 0.
Proof.
  rewrite <- (marg_one g Hg C i p w), <- (sum_over_marg g _ (cvar k) C i HD), <- sum_bins_over.
  apply sumR_map_ext. intros j _. rewrite marg_one by exact Hg. reflexivity.
Qed.
Lemma om_nonneg e : In e prs -> 0 <= om e.
Proof.
  destruct e as [q j]. unfold prs. rewrite in_prod_iff. intros [Hq _]. unfold om. cbn [fst snd].
  apply Rmult_le_pos; [|left; apply Rinv_0_lt_compat; exact HW]. destruct (in_cell _ _ _ _); [apply Hp; exact Hq|lra].
Qed.
Lemma E_parts (X : particle -> R) : E prs om (fun e => X (fst (fst e))) = pmean g C i X pw.
Proof.
  unfold E, prs. rewrite sumR_prod. unfold pmean, Rdiv. rewrite Rmult_comm, <- sumR_map_scal. apply sumR_map_ext.
  intros [p w] _. cbn [fst snd].
  transitivity (X p * / W * sumR (map (fun j => if in_cell g U j p then w else 0) Bs)).
  - rewrite <- sumR_map_scal. apply sumR_map_ext. intros j _. unfold om. cbn [fst snd]. fold U W. unfold Rdiv. ring.
  - rewrite one_sum. fold W. destruct (in_cell g C i p); ring.
Qed.
Lemma om_sum : sumR (map om prs) = 1.
Proof.
  transitivity (E prs om (fun _ => 1)); [unfold E; apply sumR_map_ext; intros; ring|].
  rewrite (E_parts (fun _ => 1)). unfold pmean.
  replace (sumR _) with (weight (in_cell g C i) pw); [field; lra|]. unfold weight. apply sumR_map_ext. intros q _.
  destruct (in_cell g C i (fst q)); ring.
Qed.
Lemma E_bins (F : bin -> R) : E prs om (fun e => F (snd e)) =
  E Bs (fun j => weight (in_cell g U j) pw / W) F.
Proof.
  unfold E, prs. rewrite sumR_prod, sumR_swap. apply sumR_map_ext. intros j _.
  unfold weight at 1. transitivity (F j * / W * sumR (map (fun q => if in_cell g U j (fst q) then snd q else 0) pw)).
  - rewrite <- sumR_map_scal. apply sumR_map_ext. intros q _. unfold om. cbn [fst snd]. fold U W. unfold Rdiv. ring.
  - unfold Rdiv. ring.
Qed.
Lemma in_cell_coord j p : in_cell g U j p = true -> in_grid g j ->
  cedge g k (cidx k j) <= pcoord k p <= cedge g k (S (cidx k j)).
Proof.
  intros H (H1 & H2 & H3 & H4 & H5). unfold in_cell in H. rewrite !andb_true_iff in H. destruct H as ((((A1 & A2) & A3) & A4) & A5).
  assert (X : forall n E m x, in_bin n E m x = true -> increasing n E -> (m < n)%nat ->
    E m <= match x with Fin r => r | _ => 0 end <= E (S m)).
  { intros n E m [r| | |] B HE Hm; cbn [in_bin] in B; try discriminate. rewrite orb_true_iff, !andb_true_iff, Rleb_iff, Rltb_iff, Nat.eqb_eq, Reqb_iff in B.
    destruct B as [[? ?]|[E1 ->]]; [lra|]. rewrite E1. pose proof (HE m Hm). rewrite E1 in *. lra. }
  destruct Hg. unfold pcoord, U in *. destruct k; cbn [cvar union has_t has_v has_x has_z orb on_axis cedge cidx] in *;
    [eapply X; [exact A1| |]|eapply X; [exact A2| |]|eapply X; [exact A3| |]|eapply X; [exact A4| |]|eapply X; [exact A5| |]]; assumption.
Qed.
Lemma near e : In e prs -> om e <> 0 -> forall h, (forall n, (n < cn g k)%nat -> wid (cedge g k) n <= 2 * h) ->
  Rabs (cmid g k (snd e) - pcoord k (fst (fst e))) <= h.
Proof.
  destruct e as [q j]. unfold prs, om. rewrite in_prod_iff. cbn [fst snd]. intros [_ Hj] Ho h Hh.
  apply bins_over_in in Hj as [Hj _]; [|exact Hi].
  destruct (in_cell g (union (cvar k) C) j (fst q)) eqn:B; [|elim Ho; unfold Rdiv; ring].
  pose proof (in_cell_coord j (fst q) B Hj).
  assert (Hn : (cidx k j < cn g k)%nat) by (destruct Hj as (? & ? & ? & ? & ?); destruct k; assumption).
  specialize (Hh _ Hn). unfold cmid, mid, wid in *. apply Rabs_le. lra.
Qed.
End Pairs.

(** ** queries of the component made of the particles *)
Section Made.
Context (c : cube) (g : grid) (pw : list (particle * R)) (note : report) (comp : component).
Context (Hc : cube_on c g) (Hg : good_grid g) (Hp : forall q, In q pw -> 0 <= snd q) (Hw : 0 < weight (in_bounds g) pw).
Context (HE : from_particle c (map fst pw) (Some (map Fin (map snd pw))) = Ok (note, comp)).

Lemma made_on : comp_on comp g (particle_density g pw).
Proof. destruct (density_claim c g Hc Hg pw Hw) as (comp' & E & H). rewrite HE in E. injection E as _ <-. exact H. Qed.
Let nn : nonneg g (particle_density g pw) := particle_density_nonneg g Hg pw Hp Hw.
Lemma cells_marg_claim lw : 0 < weight (in_bounds g) (weighed g lw pw) ->
  forall S density, nonempty S = true ->
  exists p, get_p comp (name S) density lw = Ok p /\ shp p = dims S g /\
    forall i, in_grid g i -> ent p (coords S i) =
      Fin (weight (in_cell g S i) (weighed g lw pw) / weight (in_bounds g) (weighed g lw pw) / (if density then vol g S i else 1)).
Proof.
  intros Hl S density HS.
  destruct (get_p_marg comp g _ made_on Hg nn S density lw HS (lw_ok_weighed g Hg pw lw Hw Hl)) as (p & Ep & Sp & Hv).
  exists p. split; [exact Ep|]. split; [exact Sp|]. intros i Hi. rewrite Hv by exact Hi. rewrite marg_cells by assumption.
  reflexivity.
Qed.
Lemma cell_pos lw S i : 0 < weight (in_bounds g) (weighed g lw pw) -> in_grid g i ->
  (0 < weight (in_cell g S i) (weighed g lw pw) <-> 0 < marg g (prob g (particle_density g pw) lw) S i) /\
  (weight (in_cell g S i) (weighed g lw pw) = 0 <-> marg g (prob g (particle_density g pw) lw) S i = 0).
Proof.
  intros Hl Hi. rewrite marg_cells by assumption. set (a := weight (in_cell g S i) _). set (b := weight (in_bounds g) (weighed g lw pw)) in *.
  assert (Hib : 0 < / b) by (apply Rinv_0_lt_compat; exact Hl). unfold Rdiv. split; split; intros X.
  - apply Rmult_lt_0_compat; assumption.
  - apply (Rmult_lt_reg_r (/ b)); [exact Hib|]. rewrite Rmult_0_l. exact X.
  - rewrite X. ring.
  - apply Rmult_integral in X. destruct X; lra.
Qed.
Lemma cells_cond_claim lw : 0 < weight (in_bounds g) (weighed g lw pw) ->
  forall A C density, nonempty A = true -> nonempty C = true -> disjoint A C = true ->
  exists p, get_p comp (cname A C) density lw = Ok p /\ shp p = (dims A g ++ dims C g)%list /\
    forall i, in_grid g i ->
      (0 < weight (in_cell g C i) (weighed g lw pw) -> ent p (coords A i ++ coords C i) =
         Fin (weight (in_cell g (union A C) i) (weighed g lw pw) / weight (in_cell g C i) (weighed g lw pw) / (if density then vol g A i else 1))) /\
      (weight (in_cell g C i) (weighed g lw pw) = 0 -> ent p (coords A i ++ coords C i) = NaN).
Proof.
  intros Hl A C density HA HC HD.
  destruct (get_p_cond comp g _ made_on Hg nn A C density lw HA HC HD (lw_ok_weighed g Hg pw lw Hw Hl)) as (p & Ep & Sp & Hv).
  exists p. split; [exact Ep|]. split; [exact Sp|]. intros i Hi. destruct (Hv i Hi) as [V1 V2].
  destruct (cell_pos lw C i Hl Hi) as [P1 P2]. split.
  - intros X. rewrite (V1 (proj1 P1 X)). rewrite !marg_cells by assumption. f_equal. f_equal. field. lra.
  - intros X. apply V2, P2, X.
Qed.
Lemma weighed_total lw : 0 < weight (in_bounds g) (weighed g lw pw) -> total g (prob g (particle_density g pw) lw) = 1.
Proof.
  intros Hl. rewrite <- (marg_none g _ (Bin 0 0 0 0 0)). rewrite marg_cells; [|assumption..|].
  - change (in_cell g no_vars (Bin 0 0 0 0 0)) with (in_bounds g). field. lra.
  - destruct Hg. unfold in_grid; cbn; auto.
Qed.
Lemma cw_om lw k C i h : 0 < weight (in_bounds g) (weighed g lw pw) -> in_grid g i ->
  0 < weight (in_cell g C i) (weighed g lw pw) -> disjoint (cvar k) C = true ->
  Ex g (prob g (particle_density g pw) lw) (cvar k) C h i =
  E (prs g (weighed g lw pw) k i) (om g (weighed g lw pw) k C i) (fun e => h (snd e)).
Proof.
  intros Hl Hi HC HD. rewrite Ex_E, (E_bins g (weighed g lw pw) k C i h). unfold E. apply sumR_map_ext. intros j Hj.
  apply bins_over_in in Hj as [Hj _]; [|exact Hi]. f_equal. unfold cw. rewrite !marg_cells by assumption. field. lra.
Qed.
Lemma cells_moment_claim lw : 0 < weight (in_bounds g) (weighed g lw pw) ->
  forall k C h, disjoint (cvar k) C = true -> (forall n, (n < cn g k)%nat -> wid (cedge g k) n <= 2 * h) ->
  exists m s, get_mean (base_obj comp) (dname (cvar k) C) lw = Ok m /\ get_dispersion (base_obj comp) (dname (cvar k) C) lw = Ok s /\
    shp m = mdims k C g /\ shp s = mdims k C g /\
    forall i, in_grid g i -> 0 < weight (in_cell g C i) (weighed g lw pw) ->
      exists a b, ent m (mcoords k C i) = Fin a /\ ent s (mcoords k C i) = Fin b /\
        Rabs (a - pmean g C i (pcoord k) (weighed g lw pw)) <= h /\
        Rabs (b - sqrt (pvar g C i (pcoord k) (weighed g lw pw))) <= h.
Proof.
  intros Hl k C h HD Hh. pose proof (lw_ok_weighed g Hg pw lw Hw Hl) as Hlw.
  assert (HT : nonempty C = false -> total g (prob g (particle_density g pw) lw) = 1) by (intros; apply weighed_total; exact Hl).
  destruct (mean_claim comp g _ lw made_on Hg nn Hlw k C HD HT) as (m & Em & Sm & Hm).
  destruct (variance_claim comp g _ lw made_on Hg nn Hlw k C HD HT) as (v & s & _ & Es & _ & Ss & Hs).
  exists m, s. do 4 (split; [assumption|]). intros i Hi HC.
  pose proof (proj1 (proj1 (cell_pos lw C i Hl Hi)) HC) as Hm0.
  destruct (Hs i Hi Hm0) as (V & _ & EV & V2 & _). destruct (proj1 (Hm i Hi) Hm0) as [EM _].
  rewrite <- Variance_eq in V2 by (try assumption; apply prob_nonneg; assumption). subst V.
  exists (Mean g (prob g (particle_density g pw) lw) k C i), (sqrt (Variance g (prob g (particle_density g pw) lw) k C i)).
  split; [exact EM|]. split; [exact EV|].
  set (pw' := weighed g lw pw) in *. assert (Hp' : forall q, In q pw' -> 0 <= snd q) by (apply weighed_nonneg; assumption).
  set (L := prs g pw' k i). set (w := om g pw' k C i).
  assert (W0 : forall e, In e L -> 0 <= w e) by (intros e He; apply om_nonneg; assumption).
  assert (W1 : sumR (map w L) = 1) by (apply om_sum; assumption).
  assert (N : forall e, In e L -> w e <> 0 -> Rabs (cmid g k (snd e) - pcoord k (fst (fst e))) <= h).
  { intros e He Hn. eapply near; eassumption. }
  assert (H0 : 0 <= h).
  { destruct Hg. assert (P : exists n, (n < cn g k)%nat /\ 0 < wid (cedge g k) n).
    { exists 0%nat. destruct k; cbn; split; try assumption; eapply wid_pos; eassumption. }
    destruct P as (n & Hn & Pn). specialize (Hh n Hn). lra. }
  assert (Mx : Mean g (prob g (particle_density g pw) lw) k C i = E L w (fun e => cmid g k (snd e))) by (apply cw_om; assumption).
  assert (Mp : pmean g C i (pcoord k) pw' = E L w (fun e => pcoord k (fst (fst e)))) by (symmetry; apply E_parts; assumption).
  split.
  - rewrite Mx, Mp. apply E_near0; assumption.
  - replace (Variance g (prob g (particle_density g pw) lw) k C i) with (Var L w (fun e => cmid g k (snd e))).
    2:{ unfold Variance, Moment. rewrite Mx. unfold Var. symmetry.
        apply (cw_om lw k C i (fun b => (cmid g k b - E L w (fun e => cmid g k (snd e))) ^ 2)); assumption. }
    replace (pvar g C i (pcoord k) pw') with (Var L w (fun e => pcoord k (fst (fst e)))).
    2:{ unfold pvar. rewrite Mp. unfold Var.
        apply (E_parts g Hg pw' k C i HD (fun p => (pcoord k p - E L w (fun e => pcoord k (fst (fst e)))) ^ 2)); assumption. }
    apply sd_near; assumption.
Qed.
End Made.

(** ** masses replaced by luminosities *)
Section Relit.
Context (c : cube) (g : grid) (pw : list (particle * R)) (note note' : report) (comp comp' : component).
Context (Hc : cube_on c g) (Hg : good_grid g) (Hp : forall q, In q pw -> 0 <= snd q) (Hw : 0 < weight (in_bounds g) pw).
Context (Hl : 0 < weight (in_bounds g) (relit g pw)).
Context (HE : from_particle c (map fst pw) (Some (map Fin (map snd pw))) = Ok (note, comp)).
Context (HE' : from_particle c (map fst (relit g pw)) (Some (map Fin (map snd (relit g pw)))) = Ok (note', comp')).

Lemma relit_joint : joint_eq g (prob g (particle_density g pw) true) (prob g (particle_density g (relit g pw)) false).
Proof.
  intros t v x y z H1 H2 H3 H4 H5. rewrite (prob_weight g Hg pw true Hw Hl) by assumption.
  rewrite (prob_weight g Hg (relit g pw) false Hl Hl) by assumption. reflexivity.
Qed.
Lemma Ex_joint P Q A C h i : joint_eq g P Q -> in_grid g i -> Ex g P A C h i = Ex g Q A C h i.
Proof.
  intros H Hi. unfold Ex. rewrite (marg_ext g P Q C i Hi H). f_equal.
  apply sum_over_ext; [exact Hi|]. intros j Hj. rewrite (marg_ext g P Q _ j Hj H). reflexivity.
Qed.
Let nn' : nonneg g (particle_density g (relit g pw)) :=
  particle_density_nonneg g Hg (relit g pw) (weighed_nonneg g Hg true pw Hp) Hl.
Let on : comp_on comp g (particle_density g pw) := made_on c g pw note comp Hc Hg Hw HE.
Let on' : comp_on comp' g (particle_density g (relit g pw)) := made_on c g (relit g pw) note' comp' Hc Hg Hl HE'.
Let nn : nonneg g (particle_density g pw) := particle_density_nonneg g Hg pw Hp Hw.
Let lwt : lw_ok g (particle_density g pw) true := lw_ok_weighed g Hg pw true Hw Hl.
Let lwf : lw_ok g (particle_density g (relit g pw)) false.
Proof. intros X. discriminate X. Qed.

Lemma relit_marg_claim S density : nonempty S = true ->
  exists a b, get_p comp (name S) density true = Ok a /\ get_p comp' (name S) density false = Ok b /\
    shp a = dims S g /\ shp b = dims S g /\
    forall i, in_grid g i -> ent a (coords S i) = ent b (coords S i) /\ ent a (coords S i) <> NaN.
Proof.
  intros HS. destruct (get_p_marg comp g _ on Hg nn S density true HS lwt) as (a & Ea & Sa & Ha).
  destruct (get_p_marg comp' g _ on' Hg nn' S density false HS lwf) as (b & Eb & Sb & Hb).
  exists a, b. do 4 (split; [assumption|]). intros i Hi. rewrite Ha, Hb by exact Hi.
  rewrite (marg_ext g _ _ S i Hi relit_joint). split; [reflexivity|discriminate].
Qed.
Lemma relit_cond_claim A C density : nonempty A = true -> nonempty C = true -> disjoint A C = true ->
  exists a b, get_p comp (cname A C) density true = Ok a /\ get_p comp' (cname A C) density false = Ok b /\
    shp a = (dims A g ++ dims C g)%list /\ shp b = (dims A g ++ dims C g)%list /\
    forall i, in_grid g i -> ent a (coords A i ++ coords C i) = ent b (coords A i ++ coords C i).
Proof.
  intros HA HC HD. destruct (get_p_cond comp g _ on Hg nn A C density true HA HC HD lwt) as (a & Ea & Sa & Ha).
  destruct (get_p_cond comp' g _ on' Hg nn' A C density false HA HC HD lwf) as (b & Eb & Sb & Hb).
  exists a, b. do 4 (split; [assumption|]). intros i Hi. destruct (Ha i Hi) as [A1 A2], (Hb i Hi) as [B1 B2].
  rewrite (marg_ext g _ _ C i Hi relit_joint) in A1, A2. rewrite (marg_ext g _ _ (union A C) i Hi relit_joint) in A1.
  pose proof (marg_nonneg g _ C i Hi (prob_nonneg g _ false Hg nn' lwf)) as [P|P].
  - rewrite A1, B1 by exact P. reflexivity.
  - symmetry in P. rewrite A2, B2 by exact P. reflexivity.
Qed.
Lemma relit_moment_claim k C j : disjoint (cvar k) C = true ->
  exists m m' q q', get_mean (base_obj comp) (dname (cvar k) C) true = Ok m /\ get_mean (base_obj comp') (dname (cvar k) C) false = Ok m' /\
    get_central_moment (base_obj comp) (dname (cvar k) C) j true = Ok q /\
    get_central_moment (base_obj comp') (dname (cvar k) C) j false = Ok q' /\
    shp m = mdims k C g /\ shp m' = mdims k C g /\ shp q = mdims k C g /\ shp q' = mdims k C g /\
    forall i, in_grid g i -> ent m (mcoords k C i) = ent m' (mcoords k C i) /\ ent q (mcoords k C i) = ent q' (mcoords k C i).
Proof.
  intros HD.
  assert (HT : nonempty C = false -> total g (prob g (particle_density g pw) true) = 1) by (intros; apply weighed_total; try assumption; apply (weighed_nonneg g Hg true pw Hp)).
  assert (HT' : nonempty C = false -> total g (prob g (particle_density g (relit g pw)) false) = 1) by (intros; apply weighed_total; try assumption; apply (weighed_nonneg g Hg true pw Hp)).
  destruct (mean_claim comp g _ true on Hg nn lwt k C HD HT) as (m & Em & Sm & Hm).
  destruct (mean_claim comp' g _ false on' Hg nn' lwf k C HD HT') as (m' & Em' & Sm' & Hm').
  destruct (central_claim comp g _ true on Hg nn lwt k C HD HT j) as (q & Eq & Sq & Hq).
  destruct (central_claim comp' g _ false on' Hg nn' lwf k C HD HT' j) as (q' & Eq' & Sq' & Hq').
  exists m, m', q, q'. do 8 (split; [assumption|]). intros i Hi.
  destruct (Hm i Hi) as [M1 M2], (Hm' i Hi) as [M1' M2'], (Hq i Hi) as [Q1 Q2], (Hq' i Hi) as [Q1' Q2'].
  rewrite (marg_ext g _ _ C i Hi relit_joint) in M1, M2, Q1, Q2.
  unfold Mean, Moment in *. rewrite (Ex_joint _ _ _ _ (cmid g k) i relit_joint Hi) in M1, Q1. rewrite (Ex_joint _ _ _ _ _ i relit_joint Hi) in Q1.
  pose proof (marg_nonneg g _ C i Hi (prob_nonneg g _ false Hg nn' lwf)) as [P|P].
  - destruct (M1 P) as [-> _]. destruct (M1' P) as [-> _]. rewrite (Q1 P), (Q1' P). split; reflexivity.
  - symmetry in P. rewrite (M2 P), (M2' P), (Q2 P), (Q2' P). split; reflexivity.
Qed.
End Relit.
