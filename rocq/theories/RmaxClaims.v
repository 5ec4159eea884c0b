(** * RmaxClaims: rotation curves with any radius of maximum (claim C108). *)
From Coq Require Import Reals Lra Lia List Bool Arith ZArith String Ascii.
From Verif Require Import Num NumLemmas Arr ArrLemmas PyStr Cube Base Parametric GrowingDisk Spec SpecLemmas Repr
  ParSpec ParRepr ParSetSpec CubeLemmas VecLemmas CubeGeom BaseLemmas CondLemmas ParLemmas ParSetLemmas ParEnrich DiskLemmas.
Import ListNotations.
Local Open Scope R_scope.

Section Rmax.
Context (self : par) (g : grid) (X Y : map2d) (s e : R).
Context (Hc : cube_on (pa_cube self) g) (Hxy : xy_on self g X Y) (Ht : t_pars_on self s e).
Context (q rmax vmax : R * R) (Hq : posl q) (Hv : one_sign vmax).

Definition mu_entry (q0 R0 v0 x y : R) : num :=
  nmul (ndiv (nmul (ndiv (Fin (v0 * (R0 + 2 * R0) ^ 3)) (Fin R0)) (Fin (ell q0 x y))) (Fin ((ell q0 x y + 2 * R0) ^ 3)))
       (Fin (cos (arctan2 (y / q0) x))).
Lemma mu_any : exists a, disk_set_mu_v self q rmax vmax = Ok (put_mu_v self a) /\
  arr_is a [nt g; nx g; ny g] (fun idx => match idx with [t; x; y] =>
    mu_entry (at_bin g s e q t) (at_bin g s e rmax t) (at_bin g s e vmax t) (X x y) (Y x y) | _ => NaN end).
Proof.
  unfold disk_set_mu_v. rewrite (all_pos_true q), (one_sign_true vmax) by assumption. cbn [py_assert bind].
  destruct (interp3_ok self g s e Hc Ht q) as (qa & -> & Hqa), (interp3_ok self g s e Hc Ht rmax) as (ra & -> & Hra), (interp3_ok self g s e Hc Ht vmax) as (va & -> & Hva). cbn [bind].
  pose proof (proj1 Hxy) as HX. pose proof (proj2 Hxy) as HY.
  pose proof (amap_is (nmul (Fin 2)) _ _ _ Hra) as Hrc.
  assert (Hqp : forall t, (t < nt g)%nat -> 0 < at_bin g s e q t) by (intros; apply (at_bin_pos self g s e Ht); assumption).
  destruct (radius3_ok self g X Y Hxy qa (at_bin g s e q) Hqa Hqp) as (rr & Err & Hrr).
  s_bop. s_bop. s_bop. s_bop. s_bop. rewrite Err. cbn [bind]. s_bop. s_bop. s_bop. s_map. s_bop.
  eexists; split; [reflexivity|]. eapply arr_is_ext; [eassumption|]. at_idx. cbn [hd]. pk.
  unfold mu_entry. rewrite (ndiv_Fin (Y _ _)) by (apply Rgt_not_eq, Hqp; assumption).
  rewrite !nmul_Fin, !nadd_Fin, !npow_Fin, !nmul_Fin. reflexivity.
Qed.

Lemma entry_fin q0 R0 v0 x y : R0 <> 0 -> ell q0 x y + 2 * R0 <> 0 -> mu_entry q0 R0 v0 x y = Fin (disk_mu q0 R0 v0 x y).
Proof.
  intros H1 H2. unfold mu_entry. rewrite ndiv_Fin, nmul_Fin by assumption.
  pose proof (pow_nonzero _ 3 H2). rewrite ndiv_Fin, nmul_Fin by assumption. f_equal. unfold disk_mu.
  rewrite <- (cos_ell q0 x y) at 4. field. split; assumption.
Qed.
Lemma entry_zero q0 v0 x y : mu_entry q0 0 v0 x y = NaN.
Proof.
  unfold mu_entry. replace (v0 * (0 + 2 * 0) ^ 3) with 0 by ring.
  assert (E : ndiv (Fin 0) (Fin 0) = NaN).
  { unfold ndiv, inf_of_sign. destruct (Req_EM_T 0 0); [|lra]. destruct (Rlt_dec 0 0); [lra|reflexivity]. }
  rewrite E. reflexivity.
Qed.
Lemma entry_pole q0 R0 v0 x y : R0 <> 0 -> ell q0 x y + 2 * R0 = 0 ->
  (0 < v0 * x -> mu_entry q0 R0 v0 x y = PInf) /\ (v0 * x < 0 -> mu_entry q0 R0 v0 x y = NInf) /\ (v0 * x = 0 -> mu_entry q0 R0 v0 x y = NaN).
Proof.
  intros H1 H2. pose proof (ell_nonneg q0 x y) as He. assert (Hr : 0 < ell q0 x y) by lra.
  unfold mu_entry. rewrite ndiv_Fin, nmul_Fin by assumption. rewrite H2. replace (0 ^ 3) with 0 by ring.
  replace (v0 * (R0 + 2 * R0) ^ 3 / R0 * ell q0 x y) with (v0 * (27 * R0 ^ 2 * ell q0 x y)) by (field; assumption).
  pose proof (cos_ell q0 x y) as C. set (c := cos (arctan2 (y / q0) x)) in *. set (r := ell q0 x y) in *.
  assert (P : 0 < 27 * R0 ^ 2 * r).
  { apply Rmult_lt_0_compat; [|exact Hr]. apply Rmult_lt_0_compat; [lra|]. rewrite <- Rsqr_pow2. apply Rsqr_pos_lt, H1. }
  set (k := 27 * R0 ^ 2 * r) in *.
  assert (E : ndiv (Fin (v0 * k)) (Fin 0) = inf_of_sign (v0 * k)) by (unfold ndiv; destruct (Req_EM_T 0 0); [reflexivity|lra]).
  rewrite E, <- C. unfold inf_of_sign at 1 2 3. clear E.
  assert (Sg : forall u w, 0 < w -> (0 < u * w <-> 0 < u) /\ (u * w < 0 <-> u < 0)) by (intros; split; split; nra).
  destruct (Sg v0 k P) as (A1 & A2). destruct (Sg c r Hr) as (B1 & B2).
  destruct (Rlt_dec 0 (v0 * k)) as [K|K]; [|destruct (Rlt_dec (v0 * k) 0) as [K'|K']]; unfold nmul, inf_of_sign.
  - apply A1 in K. repeat split; intros D.
    + assert (0 < c) by (apply B1; nra). destruct (Rlt_dec 0 c); [reflexivity|lra].
    + assert (c < 0) by (apply B2; nra). destruct (Rlt_dec 0 c); [lra|]. destruct (Rlt_dec c 0); [reflexivity|lra].
    + assert (c * r = 0) by (apply Rmult_integral in D as [D|D]; [lra|exact D]). assert (c = 0) by (apply Rmult_integral in H as [D'|D']; [exact D'|lra]).
      destruct (Rlt_dec 0 c); [lra|]. destruct (Rlt_dec c 0); [lra|reflexivity].
  - apply A2 in K'. repeat split; intros D.
    + assert (c < 0) by (apply B2; nra). destruct (Rlt_dec 0 (- c)); [reflexivity|lra].
    + assert (0 < c) by (apply B1; nra). destruct (Rlt_dec 0 (- c)); [lra|]. destruct (Rlt_dec (- c) 0); [reflexivity|lra].
    + assert (c * r = 0) by (apply Rmult_integral in D as [D|D]; [lra|exact D]). assert (c = 0) by (apply Rmult_integral in H as [D'|D']; [exact D'|lra]).
      destruct (Rlt_dec 0 (- c)); [lra|]. destruct (Rlt_dec (- c) 0); [lra|reflexivity].
  - assert (v0 = 0). { destruct (Rtotal_order v0 0) as [D|[D|D]]; [apply A2 in D; lra|exact D|apply A1 in D; lra]. }
    subst v0. repeat split; intros D; try lra.
Qed.

Lemma rmax_claim : exists self' a, disk_set_mu_v self q rmax vmax = Ok self' /\ pa_mu_v self' = Some a /\ shp a = [nt g; nx g; ny g] /\
  forall t x y, (t < nt g)%nat -> (x < nx g)%nat -> (y < ny g)%nat ->
    let at_t l := at_age s e l (mid (tE g) t) in let r := ell (at_t q) (X x y) (Y x y) in
    (at_t rmax <> 0 -> r <> - (2 * at_t rmax) ->
       ent a [t; x; y] = Fin (at_t vmax * (27 * at_t rmax ^ 2 * X x y / (r + 2 * at_t rmax) ^ 3))) /\
    (at_t rmax = 0 -> ent a [t; x; y] = NaN) /\
    (at_t rmax <> 0 -> r = - (2 * at_t rmax) ->
       (0 < at_t vmax * X x y -> ent a [t; x; y] = PInf) /\ (at_t vmax * X x y < 0 -> ent a [t; x; y] = NInf) /\
       (at_t vmax * X x y = 0 -> ent a [t; x; y] = NaN)).
Proof.
  destruct mu_any as (a & E & Sa & Ha). exists (put_mu_v self a), a. split; [exact E|]. split; [reflexivity|]. split; [exact Sa|].
  intros t x y Ht' Hx Hy. cbv zeta. rewrite (Ha [t; x; y]) by (repeat constructor; assumption).
  unfold at_bin. split; [|split].
  - intros H1 H2. rewrite entry_fin; [reflexivity|exact H1|lra].
  - intros ->. apply entry_zero.
  - intros H1 H2. apply entry_pole; [exact H1|lra].
Qed.

(** negative radii: turning the other way within twice the radius, and faster than vmax *)
Lemma negative_turns q0 R0 v0 x y : R0 < 0 -> ell q0 x y < - (2 * R0) -> 0 < v0 -> 0 < x -> disk_mu q0 R0 v0 x y < 0.
Proof.
  intros HR Hr H1 H2. unfold disk_mu, Rdiv.
  assert (D : (ell q0 x y + 2 * R0) ^ 3 < 0).
  { replace ((ell q0 x y + 2 * R0) ^ 3) with (- (- (ell q0 x y + 2 * R0)) ^ 3) by ring.
    assert (0 < (- (ell q0 x y + 2 * R0)) ^ 3) by (apply pow_lt; lra). lra. }
  assert (P : 0 < 27 * R0 ^ 2 * x).
  { apply Rmult_lt_0_compat; [|exact H2]. apply Rmult_lt_0_compat; [lra|]. rewrite <- Rsqr_pow2. apply Rsqr_pos_lt. lra. }
  apply Rinv_lt_0_compat in D. set (k := 27 * R0 ^ 2 * x) in *. set (d := / (ell q0 x y + 2 * R0) ^ 3) in *.
  assert (K : 0 < v0 * k) by (apply Rmult_lt_0_compat; assumption). assert (0 < v0 * k * - d) by (apply Rmult_lt_0_compat; lra). lra.
Qed.
Lemma negative_speed q0 R0 v0 : R0 < 0 -> disk_mu q0 R0 v0 (- R0) 0 = - (27 * v0).
Proof. intros H. unfold disk_mu. rewrite ell_major, Rabs_right by lra. field. lra. Qed.

Lemma negative_claim : exists self' a, disk_set_mu_v self q rmax vmax = Ok self' /\ pa_mu_v self' = Some a /\
  forall t x y, (t < nt g)%nat -> (x < nx g)%nat -> (y < ny g)%nat ->
    let at_t l := at_age s e l (mid (tE g) t) in at_t rmax < 0 ->
    (ell (at_t q) (X x y) (Y x y) < - (2 * at_t rmax) -> 0 < at_t vmax -> 0 < X x y ->
       exists u, ent a [t; x; y] = Fin u /\ u < 0) /\
    (X x y = - at_t rmax -> Y x y = 0 -> ent a [t; x; y] = Fin (- (27 * at_t vmax))).
Proof.
  destruct mu_any as (a & E & Sa & Ha). exists (put_mu_v self a), a. split; [exact E|]. split; [reflexivity|].
  intros t x y Ht' Hx Hy. cbv zeta. intros HR. rewrite (Ha [t; x; y]) by (repeat constructor; assumption).
  unfold at_bin. split.
  - intros Hr H1 H2. rewrite entry_fin by lra. eexists; split; [reflexivity|]. apply negative_turns; assumption.
  - intros -> ->. rewrite entry_fin; [rewrite negative_speed by exact HR; reflexivity|lra|rewrite ell_major, Rabs_right by lra; lra].
Qed.
End Rmax.
