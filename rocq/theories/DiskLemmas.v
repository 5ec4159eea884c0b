(** * DiskLemmas: the setters of GrowingDisk (claims C44, C45). *)
From Coq Require Import Reals Lra Lia List Bool Arith ZArith String Ascii.
From Verif Require Import Num NumLemmas Arr ArrLemmas PyStr Cube Base Parametric GrowingDisk Spec SpecLemmas Repr
  ParSpec ParRepr ParSetSpec CubeLemmas VecLemmas CubeGeom BaseLemmas CondLemmas ParLemmas ParSetLemmas ParEnrich.
Import ListNotations.
Local Open Scope R_scope.

Ltac pk := repeat match goal with |- context [pick ?n ?k] => first [rewrite (pick_1 k) | rewrite (pick_lt n k) by (assumption || lia)] end.
Ltac at_idx := intros idx Hidx; inb_inv; cbn [bidx map2 skipn List.length Nat.sub hd tl gi_idx fst snd rev app]; pk.

Lemma ell_arg q x y : 0 <= x * x + y / q * (y / q).
Proof. nra. Qed.
Lemma ell_nonneg q x y : 0 <= ell q x y.
Proof. apply sqrt_pos. Qed.
Lemma ell_sq q x y : ell q x y * ell q x y = x * x + y / q * (y / q).
Proof. apply sqrt_sqrt, ell_arg. Qed.
Lemma ell_ge q x y : Rabs x <= ell q x y.
Proof.
  pose proof (ell_nonneg q x y). pose proof (ell_sq q x y). apply Rabs_le. nra.
Qed.
Lemma ell_major q x : ell q x 0 = Rabs x.
Proof. unfold ell, Rdiv. rewrite !Rmult_0_l, Rplus_0_r. apply sqrt_Rsqr_abs. Qed.
Lemma ell_sym q x y x' y' : Rabs x = Rabs x' -> Rabs y = Rabs y' -> ell q x y = ell q x' y'.
Proof.
  intros Hx Hy. assert (x * x = x' * x') by (unfold Rabs in Hx; destruct (Rcase_abs x), (Rcase_abs x'); nra).
  assert (y * y = y' * y') by (unfold Rabs in Hy; destruct (Rcase_abs y), (Rcase_abs y'); nra).
  unfold ell. f_equal. transitivity (x * x + y * y * (/ q * / q)); [unfold Rdiv; ring|]. rewrite H, H0. unfold Rdiv; ring.
Qed.

(** polar angle *)
Lemma cos_arctan2 y x : cos (arctan2 y x) * sqrt (x * x + y * y) = x.
Proof.
  assert (K : forall k, 0 < k -> (k = x \/ k = - x) -> sqrt (x * x + y * y) = k * sqrt (1 + (y / x)²)).
  { intros k Hk E. assert (Hx : x <> 0) by (destruct E; lra).
    rewrite <- (sqrt_Rsqr k) at 1 by lra. rewrite <- sqrt_mult_alt by apply Rle_0_sqr.
    f_equal. unfold Rsqr. replace (k * k) with (x * x) by (destruct E as [->| ->]; ring). field; assumption. }
  assert (P : 0 < sqrt (1 + (y / x)²)).
  { apply sqrt_lt_R0. pose proof (Rle_0_sqr (y / x)). lra. }
  unfold arctan2. destruct (Rlt_dec 0 x) as [Hx|Hx].
  - rewrite cos_atan, (K x) by auto. field. lra.
  - destruct (Rlt_dec x 0) as [Hx'|Hx'].
    + assert (E : cos (atan (y / x)) * sqrt (x * x + y * y) = - x).
      { rewrite cos_atan, (K (- x)) by (auto || lra). field. lra. }
      destruct (Rle_dec 0 y).
      * rewrite neg_cos. lra.
      * replace (atan (y / x) - PI) with (- (PI - atan (y / x))) by ring. rewrite cos_neg, Rtrigo_facts.cos_pi_minus. lra.
    + assert (x = 0) by lra. subst x. destruct (Rlt_dec 0 y); [rewrite cos_PI2; ring|].
      destruct (Rlt_dec y 0); [rewrite cos_neg, cos_PI2; ring|]. replace y with 0 by lra.
      replace (0 * 0 + 0 * 0) with 0 by ring. rewrite sqrt_0. ring.
Qed.
Lemma cos_ell q x y : cos (arctan2 (y / q) x) * ell q x y = x.
Proof. apply cos_arctan2. Qed.

(** a sum over all pixels, as np reductions produce it *)
Lemma sum_pixels n m (F : list nat -> R) : sumR (map F (all_idx [n; m])) = Sum n (fun x => Sum m (fun y => F [x; y])).
Proof.
  rewrite sum_all_idx_cons. apply Sum_ext. intros x Hx. rewrite sum_all_idx_cons. apply Sum_ext. intros y Hy.
  apply sum_all_idx_nil.
Qed.

Lemma area_at c g x y : cube_on c g -> good_grid g -> (x < nx g)%nat -> (y < ny g)%nat ->
  wid (xE g) x * wid (yE g) y = wid (xE g) 0 * wid (yE g) 0.
Proof.
  intros Hc Hg Hx Hy. rewrite (wid_x_const _ _ Hc Hg x), (wid_y_const _ _ Hc Hg y) by assumption. reflexivity.
Qed.
Definition area (g : grid) : R := wid (xE g) 0 * wid (yE g) 0.
Lemma area_pos g : good_grid g -> 0 < area g.
Proof.
  intros Hg. apply Rmult_lt_0_compat; [apply (wid_pos _ _ _ (gg_xE _ Hg) (gg_x _ Hg))|apply (wid_pos _ _ _ (gg_yE _ Hg) (gg_y _ Hg))].
Qed.
Lemma log_area_is self g : cube_on (pa_cube self) g -> good_grid g ->
  arr_is (log_dxdy self) [] (fun _ => lg (area g)).
Proof.
  intros Hc Hg. unfold log_dxdy. pose proof (gg_x _ Hg). pose proof (gg_y _ Hg).
  destruct (co_dx _ _ Hc) as (dx & -> & Hdx), (co_dy _ _ Hc) as (dy & -> & Hdy).
  pose proof (wid_pos _ _ _ (gg_xE _ Hg) (gg_x _ Hg)). pose proof (wid_pos _ _ _ (gg_yE _ Hg) (gg_y _ Hg)).
  rewrite <- (Hdx 0%nat), <- (Hdy 0%nat) by assumption. rewrite !nlog_Fin, nadd_lg by lra. apply scal_is.
Qed.

Section Disk.
Context (self : par) (g : grid) (X Y : map2d) (s e : R).
Context (Hc : cube_on (pa_cube self) g) (Hg : good_grid g) (Hxy : xy_on self g X Y) (Hp : t_pars_on self s e).
Let Hse := proj2 Hp.

Definition at_bin (yo : R * R) (t : nat) : R := at_age s e yo (mid (tE g) t).

Lemma interp3_ok l : exists a, interp_t3 self l = Ok a /\
  arr_is a [nt g; 1%nat; 1%nat] (fun idx => Fin (at_bin l (hd 0%nat idx))).
Proof.
  unfold interp_t3. destruct (interp_ok self g s e (fst l) (snd l) Hc Hp) as (a & -> & Ha). cbn [bind].
  apply vec_is in Ha. s_get. eexists; split; [reflexivity|]. eapply arr_is_ext; [eassumption|]. at_idx.
  unfold at_bin. destruct l; reflexivity.
Qed.
Lemma radius3_ok q (qf : nat -> R) : arr_is q [nt g; 1%nat; 1%nat] (fun idx => Fin (qf (hd 0%nat idx))) ->
  (forall t, (t < nt g)%nat -> 0 < qf t) ->
  exists a, ell_radius self q = Ok a /\ arr_is a [nt g; nx g; ny g]
    (fun idx => match idx with [t; x; y] => Fin (ell (qf t) (X x y) (Y x y)) | _ => NaN end).
Proof.
  intros Hq Hpos. destruct Hxy as [HX HY]. unfold ell_radius. s_bop. s_map. s_map. s_bop. s_map.
  eexists; split; [reflexivity|]. eapply arr_is_ext; [eassumption|]. at_idx.
  rewrite ndiv_Fin by (apply Rgt_not_eq, Hpos; assumption). rewrite !npow_Fin, nadd_Fin.
  rewrite nsqrt_Fin by nra. unfold ell. do 2 f_equal. ring.
Qed.
Lemma radius_ok q : 0 < q ->
  exists a, ell_radius self (scal (Fin q)) = Ok a /\ arr_is a [nx g; ny g]
    (fun idx => match idx with [x; y] => Fin (ell q (X x y) (Y x y)) | _ => NaN end).
Proof.
  intros Hq. destruct Hxy as [HX HY]. unfold ell_radius. pose proof (scal_is (Fin q)) as Hs. s_bop. s_map. s_map. s_bop. s_map.
  eexists; split; [reflexivity|]. eapply arr_is_ext; [eassumption|]. at_idx.
  rewrite ndiv_Fin by lra. rewrite !npow_Fin, nadd_Fin.
  rewrite nsqrt_Fin by nra. unfold ell. do 2 f_equal. ring.
Qed.

(** ** spatial density *)
Definition rho (q rc al : R * R) (t x y : nat) : R := cored (at_bin q t) (at_bin rc t) (at_bin al t) (X x y) (Y x y).
Definition disk_px (q rc al : R * R) (t x y : nat) : R := rho q rc al t x y / over_image g (rho q rc al t).

Lemma rho_pos q rc al t x y : 0 < rho q rc al t x y.
Proof. apply exp_pos. Qed.
Lemma image_pos (f : nat -> nat -> R) : (forall x y, 0 < f x y) -> 0 < over_image g f.
Proof.
  intros H. unfold over_image. pose proof (gg_x _ Hg) as H0. pose proof (gg_y _ Hg) as H1.
  assert (P : forall x y, (x < nx g)%nat -> (y < ny g)%nat -> 0 < f x y * (wid (xE g) x * wid (yE g) y)).
  { intros. apply Rmult_lt_0_compat; [apply H|]. apply Rmult_lt_0_compat; [apply (wid_pos _ _ _ (gg_xE _ Hg))|apply (wid_pos _ _ _ (gg_yE _ Hg))]; assumption. }
  apply (Sum_pos _ _ 0); [assumption| |].
  - intros i Hi. apply Sum_nonneg. intros; left; apply P; assumption.
  - apply (Sum_pos _ _ 0); [assumption| |]; intros; [left|]; apply P; assumption.
Qed.


Lemma image_area (f : nat -> nat -> R) : over_image g f = Sum (nx g) (fun x => Sum (ny g) (fun y => f x y * area g)).
Proof.
  unfold over_image. apply Sum_ext; intros x Hx. apply Sum_ext; intros y Hy.
  rewrite (area_at _ _ x y Hc Hg Hx Hy). reflexivity.
Qed.

Definition posl (l : R * R) := 0 < fst l /\ 0 < snd l.
Definition nonnegl (l : R * R) := 0 <= fst l /\ 0 <= snd l.
Lemma all_pos_true l : posl l -> all_pos l = true.
Proof. intros [H1 H2]. unfold all_pos. rewrite !(proj2 (Rltb_true _ _)) by assumption. reflexivity. Qed.
Lemma all_nonneg_true l : nonnegl l -> all_nonneg l = true.
Proof. intros [H1 H2]. unfold all_nonneg. rewrite !(proj2 (Rleb_true _ _)) by assumption. reflexivity. Qed.
Lemma all_pos_false l : ~ posl l -> all_pos l = false.
Proof.
  intros H. destruct (all_pos l) eqn:E; [|reflexivity]. exfalso. apply H. unfold all_pos in E.
  apply andb_prop in E as [E1 E2]. apply Rltb_true in E1, E2. split; assumption.
Qed.
Lemma all_nonneg_false l : ~ nonnegl l -> all_nonneg l = false.
Proof.
  intros H. destruct (all_nonneg l) eqn:E; [|reflexivity]. exfalso. apply H. unfold all_nonneg in E.
  apply andb_prop in E as [E1 E2]. apply Rleb_true in E1, E2. split; assumption.
Qed.
Lemma at_bin_pos l t : posl l -> 0 < at_bin l t.
Proof. intros [H1 H2]. apply at_age_pos; assumption. Qed.
Lemma at_bin_nonneg l t : nonnegl l -> 0 <= at_bin l t.
Proof. intros [H1 H2]. apply at_age_nonneg; assumption. Qed.

Lemma log_rho_entry q rc al x y : 0 < rc -> 
  nmul (nneg (Fin al)) (nlog (nadd (Fin (ell q x y)) (Fin rc))) = lg (cored q rc al x y).
Proof.
  intros H. pose proof (ell_nonneg q x y). rewrite nadd_Fin, nlog_Fin, lg_pos by lra. cbn [nneg]. rewrite nmul_Fin.
  unfold cored. rewrite lg_pos by apply exp_pos. unfold Rpower. rewrite ln_exp. reflexivity.
Qed.

Lemma disk_x_t_ok q rc al : posl q -> posl rc -> nonnegl al ->
  exists a, disk_set_p_x_t self q rc al = Ok (put_log_p_x_t self a) /\ arr_is a [nx g; ny g; nt g] (fun idx => match idx with [x; y; t] => lg (disk_px q rc al t x y) | _ => NaN end).
Proof.
  intros Hq Hrc Hal. unfold disk_set_p_x_t. rewrite (all_pos_true q), (all_pos_true rc), (all_nonneg_true al) by assumption.
  cbn [py_assert bind].
  destruct (interp3_ok q) as (qa & -> & Hqa), (interp3_ok rc) as (ra & -> & Hra), (interp3_ok al) as (aa & -> & Haa). cbn [bind].
  destruct (radius3_ok qa (at_bin q) Hqa ltac:(intros; apply at_bin_pos; assumption)) as (rr & -> & Hrr). cbn [bind].
  pose proof (gg_t _ Hg). pose proof (gg_x _ Hg). pose proof (gg_y _ Hg).
  s_bop. s_bop.
  match goal with Hq' : arr_is ?a _ _ |- context [bop nadd ?a (log_dxdy self)] =>
    assert (Hlr : arr_is a [nt g; nx g; ny g] (fun idx => match idx with [t; x; y] => lg (rho q rc al t x y) | _ => NaN end));
    [eapply arr_is_ext; [exact Hq'|]|clear Hq'] end.
  { at_idx. apply log_rho_entry, at_bin_pos; assumption. }
  pose proof (log_area_is self g Hc Hg) as Hla. s_bop. s_lse.
  match goal with Hq' : arr_is ?a [nt g] _ |- _ =>
    assert (Hnorm : arr_is a [nt g] (fun idx => lg (over_image g (rho q rc al (hd 0%nat idx)))));
    [eapply arr_is_ext; [exact Hq'|]|clear Hq'] end.
  { at_idx. rewrite (lse_map_lg _ (fun sub => rho q rc al i (hd 0%nat sub) (hd 0%nat (tl sub)) * area g)).
    - rewrite sum_pixels, image_area. reflexivity.
    - intros sub Hs. apply in_all_idx in Hs. inb_inv. cbn [bidx map2 skipn List.length Nat.sub hd tl merge]. pk.
      apply nadd_lg; left; [apply rho_pos|apply area_pos; assumption].
    - intros sub Hs. apply Rmult_le_pos; left; [apply rho_pos|apply area_pos; assumption]. }
  pose proof (T_is _ _ _ Hlr) as HT. cbn [rev app] in HT. s_bop.
  match goal with Hq' : arr_is ?a _ _ |- context [T ?a] => pose proof (T_is _ _ _ Hq') as HT2; cbn [rev app] in HT2 end.
  s_mov. eexists; split; [reflexivity|]. eapply arr_is_ext; [eassumption|]. at_idx.
  cbn [nth index_of Nat.eqb rev app bidx map2 skipn List.length Nat.sub hd map seq]. pk. cbn [hd].
  rewrite nsub_lg; [reflexivity|left; apply rho_pos|apply image_pos; intros; apply rho_pos].
Qed.

(** ** mean velocity *)
Definition disk_muv (q rmax vmax : R * R) (t x y : nat) : R :=
  disk_mu (at_bin q t) (at_bin rmax t) (at_bin vmax t) (X x y) (Y x y).

Definition one_sign (l : R * R) := nonnegl l \/ (fst l <= 0 /\ snd l <= 0).
Lemma one_sign_true l : one_sign l ->
  ((Rleb 0 (fst l) && Rleb 0 (snd l)) || (Rleb (fst l) 0 && Rleb (snd l) 0))%bool = true.
Proof.
  intros [[H1 H2]|[H1 H2]]; apply Rleb_true in H1, H2; rewrite H1, H2; [reflexivity|apply Bool.orb_true_r].
Qed.
Lemma one_sign_false l : ~ one_sign l ->
  ((Rleb 0 (fst l) && Rleb 0 (snd l)) || (Rleb (fst l) 0 && Rleb (snd l) 0))%bool = false.
Proof.
  intros H. apply not_true_is_false. intros E. apply H. apply orb_prop in E as [E|E]; apply andb_prop in E as [E1 E2];
  apply Rleb_true in E1, E2; [left|right]; split; assumption.
Qed.

Lemma disk_mu_v_ok q rmax vmax : posl q -> posl rmax -> one_sign vmax ->
  exists a, disk_set_mu_v self q rmax vmax = Ok (put_mu_v self a) /\
    arr_is a [nt g; nx g; ny g] (fun idx => match idx with [t; x; y] => Fin (disk_muv q rmax vmax t x y) | _ => NaN end).
Proof.
  intros Hq Hr Hv. unfold disk_set_mu_v. rewrite (all_pos_true q), (one_sign_true vmax) by assumption. cbn [py_assert bind].
  destruct (interp3_ok q) as (qa & -> & Hqa), (interp3_ok rmax) as (ra & -> & Hra), (interp3_ok vmax) as (va & -> & Hva). cbn [bind].
  pose proof (proj1 Hxy) as HX. pose proof (proj2 Hxy) as HY.
  pose proof (amap_is (nmul (Fin 2)) _ _ _ Hra) as Hrc.
  destruct (radius3_ok qa (at_bin q) Hqa ltac:(intros; apply at_bin_pos; assumption)) as (rr & Err & Hrr).
  s_bop. s_bop. s_bop. s_bop. s_bop. rewrite Err. cbn [bind]. s_bop. s_bop. s_bop. s_map. s_bop.
  eexists; split; [reflexivity|]. eapply arr_is_ext; [eassumption|]. at_idx. cbn [hd]. pk.
  match goal with |- context [at_bin rmax ?t] => pose proof (at_bin_pos rmax t Hr) as Hrm; pose proof (at_bin_pos q t Hq) as Hqm;
    set (R0 := at_bin rmax t) in *; set (q0 := at_bin q t) in *; set (v0 := at_bin vmax t) end.
  rewrite (ndiv_Fin (Y _ _)) by lra. rewrite !nmul_Fin, !nadd_Fin, !npow_Fin, !nmul_Fin, ndiv_Fin, nmul_Fin by lra.
  pose proof (ell_nonneg q0 (X i0 i1) (Y i0 i1)) as He.
  assert (0 < (ell q0 (X i0 i1) (Y i0 i1) + 2 * R0) ^ 3) by (apply pow_lt; lra).
  rewrite ndiv_Fin by lra. cbn [narctan2 ncos]. rewrite nmul_Fin. f_equal.
  unfold disk_muv, disk_mu. fold R0 q0 v0. rewrite <- (cos_ell q0 (X i0 i1) (Y i0 i1)) at 4.
  field. lra.
Qed.

Lemma disk_mu_bound q rmax vmax x y : 0 < rmax -> Rabs (disk_mu q rmax vmax x y) <= Rabs vmax.
Proof.
  intros Hr. unfold disk_mu. rewrite Rabs_mult. rewrite <- (Rmult_1_r (Rabs vmax)) at 2.
  apply Rmult_le_compat_l; [apply Rabs_pos|].
  pose proof (ell_nonneg q x y) as He. pose proof (ell_ge q x y) as Hx. set (r := ell q x y) in *.
  assert (Hd : 0 < (r + 2 * rmax) ^ 3) by (apply pow_lt; lra).
  unfold Rdiv. rewrite !Rabs_mult, (Rabs_right 27), (Rabs_right (rmax ^ 2)), Rabs_inv, (Rabs_right ((r + 2 * rmax) ^ 3)); [|lra|apply Rle_ge, pow2_ge_0|lra].
  apply Rmult_le_reg_r with ((r + 2 * rmax) ^ 3); [assumption|]. rewrite Rmult_assoc, Rinv_l, Rmult_1_r, Rmult_1_l by lra.
  apply Rle_trans with (27 * rmax ^ 2 * r).
  - apply Rmult_le_compat_l; [|assumption]. pose proof (pow2_ge_0 rmax). lra.
  - enough (0 <= (r + 2 * rmax) ^ 3 - 27 * rmax ^ 2 * r) by lra.
    replace ((r + 2 * rmax) ^ 3 - 27 * rmax ^ 2 * r) with ((r - rmax) ^ 2 * (r + 8 * rmax)) by ring.
    apply Rmult_le_pos; [apply pow2_ge_0|lra].
Qed.
Lemma disk_mu_peak q rmax vmax : 0 < rmax -> disk_mu q rmax vmax rmax 0 = vmax.
Proof.
  intros Hr. unfold disk_mu. rewrite ell_major, Rabs_right by lra. field. lra.
Qed.
Lemma disk_mu_anti q rmax vmax x y x' y' : x' = - x -> Rabs y' = Rabs y -> disk_mu q rmax vmax x' y' = - disk_mu q rmax vmax x y.
Proof.
  intros -> Hy. unfold disk_mu. rewrite (ell_sym q (- x) y' x y) by (rewrite ?Rabs_Ropp; auto). unfold Rdiv; ring.
Qed.
Lemma disk_mu_axis q rmax vmax y : disk_mu q rmax vmax 0 y = 0.
Proof. unfold disk_mu, Rdiv. ring. Qed.
Lemma disk_mu_pos q rmax vmax x y : 0 < rmax -> 0 < vmax -> 0 < x -> 0 < disk_mu q rmax vmax x y.
Proof.
  intros Hr Hv Hx. unfold disk_mu. apply Rmult_lt_0_compat; [assumption|]. pose proof (ell_nonneg q x y).
  apply Rdiv_lt_0_compat; [|apply pow_lt; lra]. apply Rmult_lt_0_compat; [|assumption].
  apply Rmult_lt_0_compat; [lra|apply pow_lt; assumption].
Qed.

(** ** dispersions and depletion times *)
Lemma pow0_nonneg x a : 0 <= pow0 x a.
Proof. unfold pow0. destruct (Req_EM_T a 0); [lra|]. destruct (Rlt_dec 0 x); [left; apply exp_pos|lra]. Qed.
Lemma pow0_npowr x a : 0 <= x -> 0 <= a -> npowr (Fin x) (Fin a) = Fin (pow0 x a).
Proof.
  intros Hx Ha. cbn [npowr]. unfold pow0. destruct (Req_EM_T a 0) as [->|].
  - destruct (Rlt_dec 0 x); [rewrite Rpower_O by assumption; reflexivity|]. destruct (Req_EM_T x 0); [reflexivity|lra].
  - destruct (Rlt_dec 0 x); [reflexivity|]. destruct (Req_EM_T x 0); [|lra]. destruct (Rlt_dec 0 a); [reflexivity|lra].
Qed.
Lemma pow0_mono x y a : 0 <= a -> 0 <= x <= y -> pow0 x a <= pow0 y a.
Proof.
  intros Ha Hle. unfold pow0. destruct (Req_EM_T a 0); [lra|]. destruct (Rlt_dec 0 x), (Rlt_dec 0 y); try lra.
  - apply Rle_Rpower_l; lra.
  - left; apply exp_pos.
Qed.
Lemma pow0_1 a : pow0 1 a = 1.
Proof.
  unfold pow0. destruct (Req_EM_T a 0); [reflexivity|]. destruct (Rlt_dec 0 1); [|lra].
  unfold Rpower. rewrite ln_1, Rmult_0_r. apply exp_0.
Qed.
Lemma pow0_0 a : 0 < a -> pow0 0 a = 0.
Proof. intros. unfold pow0. destruct (Req_EM_T a 0); [lra|]. destruct (Rlt_dec 0 0); [lra|reflexivity]. Qed.

Lemma in_out_w a b m al r : 0 < m -> exists w, 0 <= w <= 1 /\ in_out a b m al r = a + (b - a) * w.
Proof.
  intros Hm. exists (Rmin 1 (pow0 (r / m) al)). split; [|reflexivity].
  split; [apply Rmin_glb; [lra|apply pow0_nonneg]|apply Rmin_l].
Qed.
Lemma in_out_between a b m al r : 0 < m -> Rmin a b <= in_out a b m al r <= Rmax a b.
Proof.
  intros Hm. destruct (in_out_w a b m al r Hm) as (w & Hw & ->). unfold Rmin, Rmax. destruct (Rle_dec a b); nra.
Qed.
Lemma in_out_0 a b m al : 0 < m -> 0 < al -> in_out a b m al 0 = a.
Proof.
  intros Hm Ha. unfold in_out. replace (0 / m) with 0 by (unfold Rdiv; ring). rewrite pow0_0 by assumption.
  rewrite Rmin_right by lra. ring.
Qed.
Lemma in_out_far a b m al r : 0 < m -> 0 <= al -> m <= r -> in_out a b m al r = b.
Proof.
  intros Hm Ha Hr. unfold in_out. rewrite Rmin_left; [ring|]. rewrite <- (pow0_1 al). apply pow0_mono; [assumption|].
  split; [lra|]. apply Rmult_le_reg_r with m; [assumption|]. unfold Rdiv. rewrite Rmult_assoc, Rinv_l; lra.
Qed.
(** going outwards the value moves towards the outer one *)
Lemma in_out_mono a b m al r r' : 0 < m -> 0 <= al -> 0 <= r <= r' ->
  (a <= b -> in_out a b m al r <= in_out a b m al r') /\ (b <= a -> in_out a b m al r' <= in_out a b m al r).
Proof.
  intros Hm Ha Hr. unfold in_out.
  assert (P : pow0 (r / m) al <= pow0 (r' / m) al).
  { apply pow0_mono; [assumption|]. assert (0 < / m) by (apply Rinv_0_lt_compat; assumption). split; unfold Rdiv; nra. }
  assert (M : Rmin 1 (pow0 (r / m) al) <= Rmin 1 (pow0 (r' / m) al)) by (apply Rle_min_compat_l; assumption).
  split; intros; nra.
Qed.

Lemma clamp_entry a b m al r (b1 : bool) : 0 < m -> 0 <= al -> 0 <= r ->
  (if b1 then a <= b else b <= a) ->
  (let v := power_law (Fin a) (Fin b) (Fin r) (Fin m) (Fin al) in
   if (if b1 then nlt (Fin b) v else nlt v (Fin b)) then Fin b else v) = Fin (in_out a b m al r).
Proof.
  intros Hm Hal Hr Hb. cbv zeta. unfold power_law. rewrite nsub_Fin, ndiv_Fin by lra.
  rewrite pow0_npowr; [|apply Rmult_le_pos; [assumption|left; apply Rinv_0_lt_compat; assumption]|assumption].
  rewrite nmul_Fin, nadd_Fin. unfold in_out. set (p := pow0 (r / m) al). cbn [nlt]. unfold Rltb.
  destruct b1; match goal with |- context [Rlt_dec ?u ?v] => destruct (Rlt_dec u v) end; f_equal;
    unfold Rmin; destruct (Rle_dec 1 p); try ring; nra.
Qed.

(** np.max(np.abs(...)) *)
Lemma Max_ge n f k : (k < n)%nat -> f k <= Max n f.
Proof.
  induction n as [|n IH]; [lia|]. intros Hk. cbn [Max]. destruct (Nat.eq_dec k n) as [->|]; [apply Rmax_r|].
  eapply Rle_trans; [apply IH; lia|apply Rmax_l].
Qed.
Lemma Max_nonneg n f : 0 <= Max n f.
Proof. induction n; cbn [Max]; [lra|]. eapply Rle_trans; [exact IHn|apply Rmax_l]. Qed.
Lemma Max_lub n f M : 0 <= M -> (forall k, (k < n)%nat -> f k <= M) -> Max n f <= M.
Proof. intros H0 H. induction n; cbn [Max]; [assumption|]. apply Rmax_lub; [apply IHn; intros; apply H; lia|apply H; lia]. Qed.
Lemma max_abs_ge x y : (x < nx g)%nat -> (y < ny g)%nat -> Rabs (X x y) <= max_abs g X.
Proof.
  intros Hx Hy. eapply Rle_trans; [apply (Max_ge (ny g) (fun y => Rabs (X x y)) y Hy)|].
  apply (Max_ge (nx g) (fun x => Max (ny g) (fun y => Rabs (X x y)))); assumption.
Qed.
Lemma amax_list l : l <> [] -> exists M, amax (map Fin l) = Fin M /\ In M l /\ forall a, In a l -> a <= M.
Proof.
  destruct l as [|a l]; [congruence|]. intros _. cbn [map amax].
  assert (K : forall l b, exists M, fold_left nmax (map Fin l) (Fin b) = Fin M /\ (M = b \/ In M l) /\ b <= M /\ forall a, In a l -> a <= M).
  { clear. induction l as [|a l IH]; intros b; cbn [map fold_left].
    - exists b. split; [reflexivity|]. split; [auto|]. split; [lra|]. intros a [].
    - unfold nmax at 2. cbn [nlt]. unfold Rltb. destruct (Rlt_dec b a).
      + destruct (IH a) as (M & E & HM & H1 & H2). exists M. split; [exact E|]. split; [|split; [lra|]].
        * right. destruct HM as [->|]; [left; reflexivity|right; assumption].
        * intros c [<-|Hc']; [assumption|apply H2; assumption].
      + destruct (IH b) as (M & E & HM & H1 & H2). exists M. split; [exact E|]. split; [|split; [assumption|]].
        * destruct HM as [->|]; [left; reflexivity|right; right; assumption].
        * intros c [<-|Hc']; [lra|apply H2; assumption]. }
  destruct (K l a) as (M & E & HM & H1 & H2). exists M. split; [exact E|]. split.
  - destruct HM as [->|]; [left; reflexivity|right; assumption].
  - intros c [<-|Hc']; [assumption|apply H2; assumption].
Qed.
Lemma max_abs_ok : max_abs_x1 self = Ok (Fin (max_abs g X)).
Proof.
  destruct Hxy as [[HS HX] _]. unfold max_abs_x1. rewrite HS. pose proof (gg_x _ Hg). pose proof (gg_y _ Hg).
  rewrite has_zero_false by (cbn; intuition lia). f_equal.
  set (l := map (fun idx => match idx with [x; y] => Rabs (X x y) | _ => 0 end) (all_idx [nx g; ny g])).
  replace (map (fun idx => nabs (ent (pa_xxp self) idx)) (all_idx [nx g; ny g])) with (map Fin l).
  2:{ unfold l. rewrite map_map. apply map_ext_in. intros idx Hi. apply in_all_idx in Hi.
      rewrite HX by assumption. inb_inv. reflexivity. }
  assert (Hin : forall x y, (x < nx g)%nat -> (y < ny g)%nat -> In (Rabs (X x y)) l).
  { intros x y Hx Hy. unfold l. apply in_map_iff. exists [x; y]. split; [reflexivity|]. apply in_all_idx.
    repeat (constructor; [assumption|]). constructor. }
  assert (Hne : l <> []) by (pose proof (Hin 0%nat 0%nat ltac:(assumption) ltac:(assumption)) as Q; intros E; rewrite E in Q; destruct Q).
  destruct (amax_list l Hne) as (M & -> & HM & Hge). f_equal.
  assert (HM' : exists x y, (x < nx g)%nat /\ (y < ny g)%nat /\ M = Rabs (X x y)).
  { unfold l in HM. apply in_map_iff in HM as (idx & E & Hi). apply in_all_idx in Hi. inb_inv. eexists; eexists; split; [|split]; [| |symmetry; exact E]; assumption. }
  destruct HM' as (x & y & Hx & Hy & ->). apply Rle_antisym; [apply max_abs_ge; assumption|].
  apply Max_lub; [apply Rabs_pos|]. intros x' Hx'. apply Max_lub; [apply Rabs_pos|]. intros y' Hy'. apply Hge, Hin; assumption.
Qed.

Context (Hm : 0 < max_abs g X).

Definition disk_sigv (q al vi vo : R * R) (t x y : nat) : R :=
  in_out (at_bin vi t) (at_bin vo t) (max_abs g X) (at_bin al t) (ell (at_bin q t) (X x y) (Y x y)).

Lemma disk_sig_v_ok q al vi vo smax smin : posl q -> nonnegl al -> posl vi -> posl vo ->
  exists a, disk_set_sig_v self q al vi vo smax smin = Ok (put_sig_v self a) /\
    arr_is a [nt g; nx g; ny g] (fun idx => match idx with [t; x; y] => Fin (disk_sigv q al vi vo t x y) | _ => NaN end).
Proof.
  intros Hq Hal Hi Ho. unfold disk_set_sig_v.
  rewrite (all_pos_true q), (all_nonneg_true al), (all_pos_true vi), (all_pos_true vo) by assumption. cbn [py_assert bind].
  destruct (interp3_ok q) as (qa & -> & Hqa), (interp3_ok al) as (aa & -> & Haa), (interp3_ok vi) as (ia & -> & Hia),
    (interp3_ok vo) as (oa & -> & Hoa). cbn [bind].
  destruct (radius3_ok qa (at_bin q) Hqa ltac:(intros; apply at_bin_pos; assumption)) as (rr & -> & Hrr). cbn [bind].
  rewrite max_abs_ok. cbn [bind]. s_bop. s_bop. s_bop. s_bop.
  eexists; split; [reflexivity|]. eapply arr_is_ext; [eassumption|]. at_idx. cbn [hd fst snd]. pk.
  unfold disk_sigv. cbn [nlt]. apply clamp_entry; [assumption|apply at_bin_nonneg; assumption|apply ell_nonneg|].
  unfold Rltb. destruct (Rlt_dec _ _); lra.
Qed.

Definition disk_tdep (q al a b : R) (x y : nat) : R := in_out a b (max_abs g X) al (ell q (X x y) (Y x y)).

Definition tdep_args_ok (q al a b lo hi : R) : Prop :=
  0 < q /\ 0 <= al /\ 1 / 10 <= lo /\ hi <= 13 /\ lo <= a <= hi /\ lo <= b <= hi.

Lemma disk_t_dep_ok L q al a b lo hi : zgrid_on self g -> good_norm (norm_cdf L) -> tdep_args_ok q al a b lo hi ->
  exists td lz, disk_set_t_dep L self q al a b lo hi =
      Ok (Par (pa_cube self) (pa_xxp self) (pa_yyp self) (pa_zgrid self) (pa_t_pars self) (pa_log_p_t self)
        (pa_log_p_x_t self) (Some td) (Some lz) (pa_mu_v self) (pa_sig_v self) (pa_theta_lims self)) /\
    arr_is td [nx g; ny g] (fun idx => match idx with [x; y] => Fin (disk_tdep q al a b x y) | _ => NaN end) /\
    arr_is lz [nz g; nt g; nx g; ny g] (fun idx => match idx with
      | [k; t; x; y] => lg (pz g (norm_cdf L) (zm g (disk_tdep q al a b x y) t) k) | _ => NaN end).
Proof.
  intros Hz HF (Hq & Hal & Hlo & Hhi & Ha & Hb). unfold disk_set_t_dep.
  rewrite (proj2 (Rltb_true _ _) Hq), (proj2 (Rleb_true _ _) Hal), (proj2 (Rleb_true _ _) Hlo), (proj2 (Rleb_true _ _) Hhi).
  rewrite (proj2 (Rleb_true lo a)), (proj2 (Rleb_true a hi)), (proj2 (Rleb_true lo b)), (proj2 (Rleb_true b hi)) by lra.
  cbn [py_assert bind andb]. destruct (radius_ok q Hq) as (rr & -> & Hrr). cbn [bind]. rewrite max_abs_ok. cbn [bind].
  match goal with |- context [set_p_z_tx L self ?A] => set (td := A) end.
  assert (Htd : arr_is td [nx g; ny g] (fun idx => match idx with [x; y] => Fin (disk_tdep q al a b x y) | _ => NaN end)).
  { split; [exact (proj1 Hrr)|]. intros idx Hi; inb_inv. unfold td; cbn [amap ent].
    rewrite (proj2 Hrr) by (repeat (constructor; [assumption|]); constructor).
    apply clamp_entry; [assumption|assumption|apply ell_nonneg|].
    unfold Rleb. destruct (Rle_dec a b); lra. }
  clearbody td. unfold set_p_z_tx. destruct (enrichment_ok L self g td _ Hc Hg Hz HF Htd) as (lz & -> & Hlz). cbn [bind].
  exists td, lz. split; [reflexivity|]. split; assumption.
Qed.
Lemma disk_t_dep_err L q al a b lo hi : ~ tdep_args_ok q al a b lo hi -> disk_set_t_dep L self q al a b lo hi = Err AssertionError.
Proof.
  intros H. unfold disk_set_t_dep.
  destruct (Rltb 0 q) eqn:E1; [apply Rltb_true in E1|reflexivity]. cbn [py_assert bind].
  destruct (Rleb 0 al) eqn:E2; [apply Rleb_true in E2|reflexivity]. cbn [py_assert bind].
  destruct (Rleb (1 / 10) lo) eqn:E3; [apply Rleb_true in E3|reflexivity]. cbn [py_assert bind].
  destruct (Rleb hi 13) eqn:E4; [apply Rleb_true in E4|reflexivity]. cbn [py_assert bind].
  destruct (Rleb lo a) eqn:E5; [apply Rleb_true in E5|reflexivity].
  destruct (Rleb a hi) eqn:E6; [apply Rleb_true in E6|reflexivity]. cbn [py_assert bind andb].
  destruct (Rleb lo b) eqn:E7; [apply Rleb_true in E7|reflexivity].
  destruct (Rleb b hi) eqn:E8; [apply Rleb_true in E8|reflexivity].
  exfalso. apply H. repeat split; assumption.
Qed.
End Disk.
