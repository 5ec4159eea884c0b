(** * Mirror: mirror images of components. *)
From Coq Require Import Reals Lra Lia List Bool Arith ZArith String Ascii.
From Verif Require Import Num NumLemmas Arr ArrLemmas PyStr Cube Base Spec SpecLemmas Repr DistLemmas Moments MomSpec MomArr MomLemmas MomLemmas2 MomLemmas3
  MomLemmas4 MomLemmas5 MomLemmas6 Stat MomClaims MirrorSpec.
Import ListNotations.
Local Open Scope R_scope.

Lemma Sum_front n (F : nat -> R) : Sum (S n) F = F 0%nat + Sum n (fun k => F (S k)).
Proof. induction n as [|n IH]; [cbn; lra|]. change (Sum (S (S n)) F) with (Sum (S n) F + F (S n)). rewrite IH. cbn [Sum]. lra. Qed.
Lemma Sum_rev n (F : nat -> R) : Sum n F = Sum n (fun k => F (n - 1 - k)%nat).
Proof.
  revert F. induction n as [|n IH]; intros F; [reflexivity|].
  rewrite Sum_front. cbn [Sum]. rewrite (IH (fun k => F (S k))), Rplus_comm. f_equal; [|f_equal; lia].
  apply Sum_ext. intros k Hk. f_equal. lia.
Qed.
Lemma Sum_end b n (F : nat -> R) : Sum n (fun k => F (other_end b n k)) = Sum n F.
Proof. destruct b; [symmetry; apply Sum_rev|reflexivity]. Qed.
Lemma end_lt b n k : (k < n)%nat -> (other_end b n k < n)%nat.
Proof. destruct b; cbn; lia. Qed.
Lemma end_end b n k : (k < n)%nat -> other_end b n (other_end b n k) = k.
Proof. destruct b; cbn; lia. Qed.
Lemma over_end b kept n i (F : nat -> R) : over kept n (other_end b n i) F = over kept n i (fun k => F (other_end b n k)).
Proof. destruct kept; cbn [over]; [reflexivity|]. symmetry. apply Sum_end. Qed.
Lemma sum_if_end b s n i (F : nat -> R) : sum_if s n (other_end b n i) F = sum_if s n i (fun k => F (other_end b n k)).
Proof. destruct s; cbn [sum_if]; [|reflexivity]. symmetry. apply Sum_end. Qed.

Section Mirror.
Context (g : grid) (fl : flips).
Lemma mirror_in i : in_grid g i -> in_grid g (mirror g fl i).
Proof. intros (H1 & H2 & H3 & H4 & H5). unfold in_grid, mirror. cbn [bt bv bx by_ bz]. repeat split; try apply end_lt; assumption. Qed.
Lemma mirror_mirror i : in_grid g i -> mirror g fl (mirror g fl i) = i.
Proof. destruct i as [t v x y z]. intros (H1 & H2 & H3 & H4 & H5). cbn [bt bv bx by_ bz] in *. unfold mirror; cbn [bt bv bx by_ bz]. rewrite !end_end by assumption. reflexivity. Qed.

Lemma over_ext' kept n i (F G : nat -> R) : (forall k, F k = G k) -> over kept n i F = over kept n i G.
Proof. intros H. destruct kept; cbn; [apply H|]. apply Sum_ext. intros; apply H. Qed.
Lemma sum_if_ext' s n i (F G : nat -> R) : (forall k, F k = G k) -> sum_if s n i F = sum_if s n i G.
Proof. intros H. destruct s; cbn; [|apply H]. apply Sum_ext. intros; apply H. Qed.
Lemma marg_at_mirror P S i : marg g P S (mirror g fl i) =
  marg g (fun t v x y z => P t (other_end (fl_v fl) (nv g) v) (other_end (fl_x1 fl) (nx g) x) (other_end (fl_x2 fl) (ny g) y) z) S i.
Proof.
  unfold marg, mirror. cbn [bt bv bx by_ bz]. apply over_ext'. intros t. rewrite over_end. apply over_ext'. intros v.
  rewrite over_end. apply over_ext'. intros x. rewrite over_end. reflexivity.
Qed.
Lemma sum_over_mirror A i F : sum_over g A (mirror g fl i) F = sum_over g A i (fun b => F (mirror g fl b)).
Proof.
  unfold sum_over, mirror. cbn [bt bv bx by_ bz]. apply sum_if_ext'. intros t. rewrite sum_if_end. apply sum_if_ext'. intros v.
  rewrite sum_if_end. apply sum_if_ext'. intros x. rewrite sum_if_end. reflexivity.
Qed.

Section Joint.
Context (P P' : joint) (HI : image g fl P P').
Lemma image_eq t v x y z : (t < nt g)%nat -> (v < nv g)%nat -> (x < nx g)%nat -> (y < ny g)%nat -> (z < nz g)%nat ->
  P' t v x y z = P t (other_end (fl_v fl) (nv g) v) (other_end (fl_x1 fl) (nx g) x) (other_end (fl_x2 fl) (ny g) y) z.
Proof. intros H1 H2 H3 H4 H5. apply (HI (Bin t v x y z)). unfold in_grid; cbn; auto. Qed.
Lemma marg_mirror S i : in_grid g i -> marg g P' S i = marg g P S (mirror g fl i).
Proof. intros Hi. rewrite marg_at_mirror. apply marg_ext; [exact Hi|]. intros t v x y z H1 H2 H3 H4 H5. apply image_eq; assumption. Qed.
Lemma total_mirror : total g P' = total g P.
Proof.
  unfold total. apply Sum_ext. intros t Ht. rewrite <- (Sum_end (fl_v fl) (nv g)). apply Sum_ext. intros v Hv.
  rewrite <- (Sum_end (fl_x1 fl) (nx g)). apply Sum_ext. intros x Hx. rewrite <- (Sum_end (fl_x2 fl) (ny g)).
  apply Sum_ext. intros y Hy. apply Sum_ext. intros z Hz. rewrite image_eq by (try apply end_lt; assumption).
  rewrite !end_end by assumption. reflexivity.
Qed.
Lemma lit_image : image g fl (lit g P) (lit g P').
Proof. intros i Hi. cbv zeta. unfold lit. pose proof (HI i Hi) as E. cbv zeta in E. rewrite E. reflexivity. Qed.
Lemma Ex_mirror A C h h' i : in_grid g i -> (forall b, in_grid g b -> h' b = h (mirror g fl b)) ->
  Ex g P' A C h' i = Ex g P A C h (mirror g fl i).
Proof.
  intros Hi Hh. unfold Ex. rewrite sum_over_mirror, marg_mirror by assumption. f_equal. apply sum_over_ext; [exact Hi|].
  intros b Hb. rewrite Hh, marg_mirror by assumption. reflexivity.
Qed.
End Joint.
Lemma light_image P P' : image g fl P P' -> image g fl (light g P) (light g P').
Proof.
  intros HI i Hi. cbv zeta. unfold light. rewrite (total_mirror _ _ (lit_image P P' HI)).
  pose proof (lit_image P P' HI i Hi) as E. cbv zeta in E. rewrite E. reflexivity.
Qed.

Context (ctr : coord -> R) (Hc : centred g fl ctr).
Lemma edge_end k n : (n <= cn g k)%nat -> flipped fl k = true -> cedge g k (cn g k - n) = 2 * ctr k - cedge g k n.
Proof. intros Hn Hk. apply Hc; assumption. Qed.
Lemma wid_end k n : (n < cn g k)%nat -> wid (cedge g k) (other_end (flipped fl k) (cn g k) n) = wid (cedge g k) n.
Proof.
  intros Hn. destruct (flipped fl k) eqn:E; cbn [other_end]; [|reflexivity]. unfold wid.
  replace (S (cn g k - 1 - n)) with (cn g k - n)%nat by lia. replace (cn g k - 1 - n)%nat with (cn g k - S n)%nat by lia.
  rewrite !edge_end by (assumption || lia). ring.
Qed.
Lemma mid_end k n : (n < cn g k)%nat -> mid (cedge g k) (other_end (flipped fl k) (cn g k) n) = mirrored fl ctr k (mid (cedge g k) n).
Proof.
  intros Hn. unfold mirrored. destruct (flipped fl k) eqn:E; cbn [other_end]; [|reflexivity]. unfold mid.
  replace (S (cn g k - 1 - n)) with (cn g k - n)%nat by lia. replace (cn g k - 1 - n)%nat with (cn g k - S n)%nat by lia.
  rewrite !edge_end by (assumption || lia). field.
Qed.
Lemma cmid_mirror k i : in_grid g i -> cmid g k (mirror g fl i) = mirrored fl ctr k (cmid g k i).
Proof.
  intros (H1 & H2 & H3 & H4 & H5). unfold cmid. destruct k; [reflexivity| | | |reflexivity].
  - exact (mid_end Cv _ H2).
  - exact (mid_end Cx1 _ H3).
  - exact (mid_end Cx2 _ H4).
Qed.
Lemma vol_mirror S i : in_grid g i -> vol g S (mirror g fl i) = vol g S i.
Proof.
  intros (H1 & H2 & H3 & H4 & H5). unfold vol, mirror. cbn [bt bv bx by_ bz].
  pose proof (wid_end Cv _ H2) as A. pose proof (wid_end Cx1 _ H3) as B. pose proof (wid_end Cx2 _ H4) as D.
  cbn [cedge cn flipped] in *. rewrite A, B, D. reflexivity.
Qed.
Lemma mass_image f f' : image g fl f f' -> image g fl (mass g f) (mass g f').
Proof.
  intros HI i Hi. cbv zeta. unfold mass. pose proof (HI i Hi) as E. cbv zeta in E. rewrite E. f_equal.
  destruct Hi as (H1 & H2 & H3 & H4 & H5). unfold mirror. cbn [bt bv bx by_ bz].
  pose proof (wid_end Cv _ H2) as A. pose proof (wid_end Cx1 _ H3) as B. pose proof (wid_end Cx2 _ H4) as D.
  cbn [cedge cn flipped] in *. rewrite A, B, D. reflexivity.
Qed.
Lemma prob_image f f' lw : image g fl f f' -> image g fl (prob g f lw) (prob g f' lw).
Proof. intros HI. destruct lw; cbn [prob]; [apply light_image|]; apply mass_image; exact HI. Qed.
Lemma nonneg_image f f' : image g fl f f' -> nonneg g f -> nonneg g f'.
Proof. intros HI H t v x y z H1 H2 H3 H4 H5. rewrite (image_eq f f' HI) by assumption. apply H; auto using end_lt. Qed.
Lemma lw_ok_image f f' lw : image g fl f f' -> lw_ok g f lw -> lw_ok g f' lw.
Proof. intros HI H E. rewrite (total_mirror _ _ (lit_image _ _ (mass_image f f' HI))). exact (H E). Qed.

(** expectations *)
Lemma mirrored_sub k a b : mirrored fl ctr k a - mirrored fl ctr k b = sign fl k * (a - b).
Proof. unfold mirrored, sign. destruct (flipped fl k); ring. Qed.
Lemma mirrored_twice k a : mirrored fl ctr k (mirrored fl ctr k a) = a.
Proof. unfold mirrored. destruct (flipped fl k); ring. Qed.
Lemma sign2 k : sign fl k * sign fl k = 1.
Proof. unfold sign. destruct (flipped fl k); ring. Qed.
Lemma num_mirrored_Fin k a : num_mirrored fl ctr k (Fin a) = Fin (mirrored fl ctr k a).
Proof. unfold num_mirrored, mirrored. destruct (flipped fl k); [apply nsub_Fin|reflexivity]. Qed.
Lemma num_mirrored_NaN k : num_mirrored fl ctr k NaN = NaN.
Proof. unfold num_mirrored. destruct (flipped fl k); reflexivity. Qed.
Section Ex.
Context (P P' : joint) (HI : image g fl P P') (C : vset).
Lemma Mean_mirror k i : disjoint (cvar k) C = true -> in_grid g i -> 0 < marg g P' C i ->
  Mean g P' k C i = mirrored fl ctr k (Mean g P k C (mirror g fl i)).
Proof.
  intros HD Hi Hp. pose proof (mirror_in i Hi) as Hj. unfold Mean.
  rewrite (Ex_mirror P P' HI (cvar k) C (fun b => mirrored fl ctr k (cmid g k b)) (cmid g k) i Hi)
    by (intros b Hb; rewrite cmid_mirror, mirrored_twice by assumption; reflexivity).
  rewrite (marg_mirror P P' HI) in Hp by assumption. unfold mirrored. destruct (flipped fl k); [|reflexivity].
  rewrite (Ex_ext g P _ _ _ (fun b => 2 * ctr k + (-1) * cmid g k b) _ Hj) by (intros; cbv beta; ring).
  rewrite !Ex_E, E_plus, E_const, E_scal by (apply cw_sum; assumption). ring.
Qed.
Lemma Moment_mirror k j c i : in_grid g i -> Moment g P' k C j (mirrored fl ctr k c) i = sign fl k ^ j * Moment g P k C j c (mirror g fl i).
Proof.
  intros Hi. pose proof (mirror_in i Hi) as Hj. unfold Moment.
  rewrite (Ex_mirror P P' HI (cvar k) C (fun b => sign fl k ^ j * (cmid g k b - c) ^ j) _ i Hi).
  - rewrite !Ex_E, E_scal. reflexivity.
  - intros b Hb. rewrite cmid_mirror, <- Rpow_mult_distr by assumption. f_equal.
    rewrite <- (mirrored_twice k (cmid g k b)) at 1. apply mirrored_sub.
Qed.
Lemma sign_sq k : sign fl k ^ 2 = 1. Proof. cbn. rewrite Rmult_1_r. apply sign2. Qed.
Lemma Variance_mirror k i : disjoint (cvar k) C = true -> in_grid g i -> 0 < marg g P' C i ->
  Variance g P' k C i = Variance g P k C (mirror g fl i).
Proof. intros HD Hi Hp. unfold Variance. rewrite Mean_mirror, Moment_mirror, sign_sq by assumption. ring. Qed.
Lemma Covar_mirror a b i : disjoint (cvar a) C = true -> disjoint (cvar b) C = true -> in_grid g i -> 0 < marg g P' C i ->
  Covar g P' a b C i = sign fl a * sign fl b * Covar g P a b C (mirror g fl i).
Proof.
  intros Ha Hb Hi Hp. pose proof (mirror_in i Hi) as Hj. unfold Covar.
  rewrite (Ex_mirror P P' HI (union (cvar a) (cvar b)) C (fun j => sign fl a * sign fl b *
    ((cmid g a j - Mean g P a C (mirror g fl i)) * (cmid g b j - Mean g P b C (mirror g fl i)))) _ i Hi).
  - rewrite !Ex_E, E_scal. reflexivity.
  - intros j Hjj. rewrite !cmid_mirror, !Mean_mirror by assumption.
    rewrite <- (mirrored_twice a (cmid g a j)) at 1. rewrite <- (mirrored_twice b (cmid g b j)) at 1. rewrite !mirrored_sub. ring.
Qed.
End Ex.
End Mirror.
