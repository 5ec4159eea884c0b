(** * CubeGeom: lemmas on cube construction and the variable queries (claims C21-C23). *)
From Coq Require Import Reals Lra Lia List Bool Arith ZArith String Ascii.
From Verif Require Import Num NumLemmas Arr ArrLemmas PyStr Cube Base Spec SpecLemmas Repr CubeLemmas MomArr MomSpec MomLemmas LMom.
Import ListNotations.
Local Open Scope R_scope.

(** edges of n equal bins from lo to hi *)
Definition lin (lo hi : R) (n i : nat) : R := lo + INR i * ((hi - lo) / INR n).

(** the grid of a cube: age and metallicity bins of [g], equal bins otherwise *)
Definition cube_grid (g : grid) (nx1 nx2 nvel : nat) (x1 x2 v : R * R) : grid :=
  Grid (nt g) nvel nx1 nx2 (nz g) (tE g) (lin (fst v) (snd v) nvel)
       (lin (fst x1) (snd x1) nx1) (lin (fst x2) (snd x2) nx2) (zE g) (Lw g).

Lemma lin_0 lo hi n : lin lo hi n 0 = lo. Proof. unfold lin; cbn; ring. Qed.
Lemma lin_n lo hi n : (0 < n)%nat -> lin lo hi n n = hi.
Proof. intros H. unfold lin. assert (INR n <> 0) by (apply not_0_INR; lia). field; assumption. Qed.
Lemma lin_wid lo hi n i : wid (lin lo hi n) i = (hi - lo) / INR n.
Proof. unfold wid, lin. rewrite S_INR. ring. Qed.
Lemma lin_mid lo hi n i : mid (lin lo hi n) i = lin lo hi n i + (hi - lo) / INR n / 2.
Proof. unfold mid, lin. rewrite S_INR. set (k := (hi - lo) / INR n). field. Qed.
Lemma lin_increasing lo hi n : (0 < n)%nat -> lo < hi -> increasing n (lin lo hi n).
Proof.
  intros Hn Hl i Hi. enough (0 < wid (lin lo hi n) i) by (unfold wid in *; lra).
  rewrite lin_wid. apply Rdiv_lt_0_compat; [lra|]. apply lt_0_INR; lia.
Qed.

Lemma linspace_vec lo hi n : vec (linspace lo hi (n + 1)) (n + 1) (lin lo hi n).
Proof.
  split; [reflexivity|]. intros i Hi. cbn. unfold lin. replace (n + 1 - 1)%nat with n by lia. reflexivity.
Qed.

Lemma vec_get (a : arr num) n f k : vec a n f -> (k < n)%nat ->
  exists e, getitem [IInt (Z.of_nat k)] a = Ok e /\ ent e [] = Fin (f k).
Proof.
  intros [Hs He] Hk. unfold getitem. rewrite Hs. cbn [gi_shape].
  assert (X : int_ok n (Z.of_nat k) = true) by (unfold int_ok; apply andb_true_intro; split; [apply Z.leb_le|apply Z.ltb_lt]; lia).
  rewrite X. eexists; split; [reflexivity|]. cbn [ent gi_idx hd]. unfold int_pos.
  destruct (Z.leb_spec 0 (Z.of_nat k)); [|lia]. rewrite Nat2Z.id. apply He; assumption.
Qed.
Lemma vec_last (a : arr num) n f : vec a (n + 1) f ->
  exists e, getitem [IInt (-1)] a = Ok e /\ ent e [] = Fin (f n).
Proof.
  intros [Hs He]. unfold getitem. rewrite Hs. cbn [gi_shape].
  assert (X : int_ok (n + 1) (-1) = true) by (unfold int_ok; apply andb_true_intro; split; [apply Z.leb_le|apply Z.ltb_lt]; lia).
  rewrite X. eexists; split; [reflexivity|]. cbn [ent gi_idx hd]. unfold int_pos. cbn [Z.leb Z.compare].
  replace (Z.to_nat (-1 + Z.of_nat (n + 1))) with n by lia. apply He; lia.
Qed.

Lemma centres lo hi n : (0 < n)%nat ->
  exists e1 e0 x, getitem [IInt 1] (linspace lo hi (n + 1)) = Ok e1 /\
    getitem [IInt 0] (linspace lo hi (n + 1)) = Ok e0 /\
    nsub (ent e1 []) (ent e0 []) = Fin ((hi - lo) / INR n) /\
    bop nadd (init0 (linspace lo hi (n + 1))) (scal (ndiv (nsub (ent e1 []) (ent e0 [])) (Fin 2))) = Ok x /\
    vec x n (mid (lin lo hi n)).
Proof.
  intros Hn. pose proof (linspace_vec lo hi n) as HV.
  destruct (vec_get _ _ _ 1 HV ltac:(lia)) as (e1 & E1 & V1).
  destruct (vec_get _ _ _ 0 HV ltac:(lia)) as (e0 & E0 & V0).
  assert (D : nsub (ent e1 []) (ent e0 []) = Fin ((hi - lo) / INR n)).
  { rewrite V1, V0, nsub_Fin. f_equal. rewrite <- (lin_wid lo hi n 0). reflexivity. }
  assert (I : shp (init0 (linspace lo hi (n + 1))) = [n]) by (cbn; f_equal; lia).
  exists e1, e0. unfold bop. rewrite I. change (shp (scal _)) with (@nil nat). rewrite bshape_nil_r.
  eexists; split; [exact E1|]. split; [exact E0|]. split; [exact D|]. split; [reflexivity|].
  split; [reflexivity|]. intros i Hi. cbn [ent scal]. rewrite bidx_self by (constructor; [assumption|constructor]).
  rewrite D, ndiv_Fin by lra. cbn [ent init0 slice0 linspace Nat.add]. rewrite nadd_Fin. f_equal.
  rewrite lin_mid. unfold lin. replace (n + 1 - 1)%nat with n by lia. reflexivity.
Qed.

Lemma cube_init_ok s g nx1 nx2 nvel x1 x2 v :
  ssps_on s g -> (0 < nx1)%nat -> (0 < nx2)%nat -> (0 < nvel)%nat ->
  exists c, cube_init s nx1 nx2 nvel x1 x2 v = Ok c /\ cube_on c (cube_grid g nx1 nx2 nvel x1 x2 v) /\
    shp (c_xx c) = [nx1; nx2] /\ shp (c_yy c) = [nx1; nx2] /\
    forall i j, (i < nx1)%nat -> (j < nx2)%nat ->
      ent (c_xx c) [i; j] = Fin (mid (lin (fst x1) (snd x1) nx1) i) /\
      ent (c_yy c) [i; j] = Fin (mid (lin (fst x2) (snd x2) nx2) j).
Proof.
  intros Hs H1 H2 H3.
  destruct (centres (fst x1) (snd x1) nx1 H1) as (e1 & e0 & x & E1 & E0 & Dx & Ex & Hx).
  destruct (centres (fst x2) (snd x2) nx2 H2) as (f1 & f0 & y & F1 & F0 & Dy & Ey & Hy).
  destruct (vec_get _ _ _ 1 (linspace_vec (fst v) (snd v) nvel) ltac:(lia)) as (u & U & _).
  unfold cube_init. rewrite E1; cbn [bind]. rewrite E0; cbn [bind]. rewrite Ex; cbn [bind].
  rewrite F1; cbn [bind]. rewrite F0; cbn [bind]. rewrite Ey; cbn [bind].
  change (Z.of_nat 1) with 1%Z in U. rewrite U; cbn [bind].
  eexists; split; [reflexivity|]. rewrite Dx, Dy. split.
  - constructor; cbn; auto.
    + destruct Hs; constructor; assumption.
    + eexists; split; [reflexivity|]. intros; apply lin_wid.
    + eexists; split; [reflexivity|]. intros; apply lin_wid.
    + apply linspace_vec.
    + rewrite lin_0, lin_n by assumption. reflexivity.
    + rewrite lin_0, lin_n by assumption. reflexivity.
  - cbn. split; [reflexivity|]. split; [reflexivity|]. intros i j Hi Hj.
    split; [apply (proj2 Hx)|apply (proj2 Hy)]; assumption.
Qed.
Lemma cube_grid_good g nx1 nx2 nvel x1 x2 v : good_grid g ->
  (0 < nx1)%nat -> (0 < nx2)%nat -> (0 < nvel)%nat -> fst x1 < snd x1 -> fst x2 < snd x2 -> fst v < snd v ->
  good_grid (cube_grid g nx1 nx2 nvel x1 x2 v).
Proof. intros [] **. constructor; cbn; auto using lin_increasing. Qed.

Lemma cube_init_empty s nx1 nx2 nvel x1 x2 v : (nx1 = 0 \/ nx2 = 0 \/ nvel = 0)%nat ->
  cube_init s nx1 nx2 nvel x1 x2 v = Err IndexError.
Proof.
  intros H. destruct nx1; [reflexivity|].
  destruct (centres (fst x1) (snd x1) (S nx1) ltac:(lia)) as (e1 & e0 & x & E1 & E0 & Dx & Ex & Hx).
  unfold cube_init. rewrite E1; cbn [bind]. rewrite E0; cbn [bind]. rewrite Ex; cbn [bind].
  destruct nx2; [reflexivity|].
  destruct (centres (fst x2) (snd x2) (S nx2) ltac:(lia)) as (f1 & f0 & y & F1 & F0 & Dy & Ey & Hy).
  rewrite F1; cbn [bind]. rewrite F0; cbn [bind]. rewrite Ey; cbn [bind].
  destruct nvel; [reflexivity|]. lia.
Qed.

(** ** the queries *)
(** the name a user writes for a coordinate *)
Definition vname (k : coord) : string :=
  match k with Ct => "t" | Cv => "v" | Cx1 => "x1" | Cx2 => "x2" | Cz => "z" end.

Section Queries.
Context (c : cube) (g : grid) (Hc : cube_on c g) (Hg : good_grid g).

Lemma values_query k : exists a, get_variable_values c (vname k) = Ok a /\ vec a (cn g k) (mid (cedge g k)).
Proof.
  destruct k; cbn [vname cn cedge].
  - exact (values_ok c g Ct Hc eq_refl).
  - exact (values_ok c g Cv Hc eq_refl).
  - eexists; split; [reflexivity|apply (co_x _ _ Hc)].
  - eexists; split; [reflexivity|apply (co_y _ _ Hc)].
  - exact (values_ok c g Cz Hc eq_refl).
Qed.

Lemma pixel_edges_ok (x : arr num) dx n E : (0 < n)%nat -> vec x n (mid E) -> (forall i, (i < n)%nat -> wid E i = dx) ->
  exists a, pixel_edges x (Fin dx) = Ok a /\ vec a (n + 1) E.
Proof.
  intros Hn Hx Hw. unfold pixel_edges. destruct Hx as [Hs He].
  assert (exists lo, bop nsub x (scal (ndiv (Fin dx) (Fin 2))) = Ok lo /\ vec lo n E) as (lo & El & Hls & Hle).
  { unfold bop. rewrite Hs. change (shp (scal _)) with (@nil nat). rewrite bshape_nil_r. eexists; split; [reflexivity|].
    split; [reflexivity|]. intros i Hi. cbn [ent scal]. rewrite bidx_self by (constructor; [assumption|constructor]).
    rewrite He by assumption. rewrite ndiv_Fin by lra. rewrite nsub_Fin. f_equal. rewrite <- (Hw i Hi). unfold mid, wid. field. }
  rewrite El; cbn [bind].
  destruct (vec_last x (n - 1) (mid E)) as (xl & Exl & Vxl).
  { split; [rewrite Hs; f_equal; lia|]. intros i Hi; apply He; lia. }
  rewrite Exl; cbn [bind]. unfold concat0. rewrite Hls. cbn [arr1 shp List.length natlist_eqb].
  eexists; split; [reflexivity|]. split; [reflexivity|]. intros i Hi. cbn [ent].
  destruct (Nat.ltb_spec i n); [apply Hle; assumption|].
  replace (i - n)%nat with 0%nat by lia. cbn [nth]. rewrite Vxl, ndiv_Fin, nadd_Fin by lra. cbn [ent arr1 nth]. f_equal.
  replace i with (S (n - 1)) by lia. rewrite <- (Hw (n - 1)%nat ltac:(lia)). unfold mid, wid. field.
Qed.

Lemma edges_query k : exists a, get_variable_edges c (vname k) = Ok a /\ vec a (cn g k + 1) (cedge g k).
Proof.
  destruct k; cbn [vname cn cedge].
  - eexists; split; [reflexivity|apply (so_te _ _ (co_ssps _ _ Hc))].
  - eexists; split; [reflexivity|apply (co_v _ _ Hc)].
  - destruct (co_dx _ _ Hc) as (d & Ed & Hd). change (get_variable_edges c "x1") with (pixel_edges (c_x c) (c_dx c)).
    rewrite Ed. apply pixel_edges_ok; [apply (gg_x _ Hg)|apply (co_x _ _ Hc)|assumption].
  - destruct (co_dy _ _ Hc) as (d & Ed & Hd). change (get_variable_edges c "x2") with (pixel_edges (c_y c) (c_dy c)).
    rewrite Ed. apply pixel_edges_ok; [apply (gg_y _ Hg)|apply (co_y _ _ Hc)|assumption].
  - eexists; split; [reflexivity|apply (so_ze _ _ (co_ssps _ _ Hc))].
Qed.
Lemma size_query k : get_variable_size c (vname k) = Ok (cn g k).
Proof. destruct k; [apply size_t|apply size_v|apply size_x1|apply size_x2|apply size_z]; assumption. Qed.

Lemma ends_ok (a : arr num) n E : vec a (n + 1) E -> ends a = Ok (Fin (E 0%nat), Fin (E n)).
Proof.
  intros H. unfold ends. destruct (vec_get a _ _ 0 H ltac:(lia)) as (lo & E0 & V0).
  change (Z.of_nat 0) with 0%Z in E0. rewrite E0; cbn [bind].
  destruct (vec_last a n E H) as (hi & E1 & V1). rewrite E1; cbn [bind]. rewrite V0, V1. reflexivity.
Qed.
Lemma extent_query k : get_variable_extent c (vname k) = Ok (Fin (cedge g k 0), Fin (cedge g k (cn g k))).
Proof.
  destruct k; cbn [vname cn cedge].
  - exact (ends_ok _ _ _ (so_te _ _ (co_ssps _ _ Hc))).
  - exact (ends_ok _ _ _ (co_v _ _ Hc)).
  - change (get_variable_extent c "x1") with (Ok (c_x1rng c)). rewrite (co_x1rng _ _ Hc). reflexivity.
  - change (get_variable_extent c "x2") with (Ok (c_x2rng c)). rewrite (co_x2rng _ _ Hc). reflexivity.
  - exact (ends_ok _ _ _ (so_ze _ _ (co_ssps _ _ Hc))).
Qed.
Lemma queries_claim k :
  (exists a, get_variable_values c (vname k) = Ok a /\ vec a (cn g k) (mid (cedge g k))) /\
  (exists a, get_variable_edges c (vname k) = Ok a /\ vec a (cn g k + 1) (cedge g k)) /\
  get_variable_size c (vname k) = Ok (cn g k) /\
  get_variable_extent c (vname k) = Ok (Fin (cedge g k 0), Fin (cedge g k (cn g k))).
Proof. split; [apply values_query|]. split; [apply edges_query|]. split; [apply size_query|apply extent_query]. Qed.
End Queries.

Lemma unknown_variable c w : (forall k, w <> vname k) ->
  get_variable_values c w = Err ValueError /\ get_variable_edges c w = Err ValueError /\
  get_variable_size c w = Err ValueError /\ get_variable_extent c w = Err ValueError.
Proof.
  intros H. unfold get_variable_size, get_variable_values, get_variable_edges, get_variable_extent.
  assert (X : forall k, String.eqb w (vname k) = false) by (intros k; apply String.eqb_neq, H).
  pose proof (X Ct) as Xt; pose proof (X Cv) as Xv; pose proof (X Cx1) as X1; pose proof (X Cx2) as X2; pose proof (X Cz) as Xz.
  cbn [vname] in *. rewrite Xt, Xv, X1, X2, Xz. repeat split; reflexivity.
Qed.

(** ** volume elements *)
Lemma Sum_wid n E : Sum n (wid E) = E n - E 0%nat.
Proof. apply Sum_telescope. Qed.
Lemma sum_if_scal b n i f K : sum_if b n i (fun t => f t * K) = sum_if b n i f * K.
Proof. destruct b; cbn [sum_if]; [apply Sum_scal_r|reflexivity]. Qed.
Lemma sum_if_ext b n i f f' : (forall t, f t = f' t) -> sum_if b n i f = sum_if b n i f'.
Proof. intros H. destruct b; cbn [sum_if]; [apply Sum_ext; intros; apply H|apply H]. Qed.
Lemma sum_if_fac b n i f h K : (forall t, f t = h t * K) -> sum_if b n i f = sum_if b n i h * K.
Proof. intros H. rewrite (sum_if_ext _ _ _ _ _ H). apply sum_if_scal. Qed.
Lemma sum_if_wid b n i E : sum_if b n i (fun t => ifw b (wid E t)) = ifw b (E n - E 0%nat).
Proof. destruct b; cbn [sum_if ifw]; [apply Sum_wid|reflexivity]. Qed.

Lemma vol_sum g S i : sum_over g S i (vol g S) =
  ifw (has_t S) (tE g (nt g) - tE g 0%nat) * ifw (has_v S) (vE g (nv g) - vE g 0%nat) *
  ifw (has_x S) ((xE g (nx g) - xE g 0%nat) * (yE g (ny g) - yE g 0%nat)) * ifw (has_z S) (zE g (nz g) - zE g 0%nat).
Proof.
  unfold sum_over, vol. cbn [bt bv bx by_ bz].
  set (Z := ifw (has_z S) (zE g (nz g) - zE g 0%nat)). set (Y := ifw (has_x S) (yE g (ny g) - yE g 0%nat)).
  set (X := ifw (has_x S) (xE g (nx g) - xE g 0%nat)). set (V := ifw (has_v S) (vE g (nv g) - vE g 0%nat)).
  set (T := ifw (has_t S) (tE g (nt g) - tE g 0%nat)).
  rewrite (sum_if_fac _ _ _ _ (fun t => ifw (has_t S) (wid (tE g) t)) (V * (X * (Y * Z)))).
  { rewrite sum_if_wid. fold T. unfold X, Y. destruct (has_x S); cbn [ifw]; ring. }
  intros t. rewrite (sum_if_fac _ _ _ _ (fun v => ifw (has_v S) (wid (vE g) v)) (ifw (has_t S) (wid (tE g) t) * (X * (Y * Z)))).
  { rewrite sum_if_wid. fold V. ring. }
  intros v. rewrite (sum_if_fac _ _ _ _ (fun x => ifw (has_x S) (wid (xE g) x))
    (ifw (has_t S) (wid (tE g) t) * ifw (has_v S) (wid (vE g) v) * (Y * Z))).
  { rewrite sum_if_wid. fold X. ring. }
  intros x. rewrite (sum_if_fac _ _ _ _ (fun y => ifw (has_x S) (wid (yE g) y))
    (ifw (has_t S) (wid (tE g) t) * ifw (has_v S) (wid (vE g) v) * ifw (has_x S) (wid (xE g) x) * Z)).
  { rewrite sum_if_wid. fold Y. ring. }
  intros y. rewrite (sum_if_fac _ _ _ _ (fun z => ifw (has_z S) (wid (zE g) z))
    (ifw (has_t S) (wid (tE g) t) * ifw (has_v S) (wid (vE g) v) * (ifw (has_x S) (wid (xE g) x) * ifw (has_x S) (wid (yE g) y)))).
  { rewrite sum_if_wid. fold Z. ring. }
  intros z. destruct (has_x S); cbn [ifw]; ring.
Qed.

Lemma pt_in_grid g i : good_grid g -> in_grid g i -> in_grid (pt g) (Bin (bt i) (bv i) 0 0 (bz i)).
Proof. intros [] (H1 & H2 & H3 & H4 & H5). unfold in_grid, pt; cbn. repeat split; lia || assumption. Qed.

Definition pick_xy (i : bin) : bin := Bin (bt i) (bv i) 0 0 (bz i).
(** the shape of volume elements: one entry per pixel axis *)
Lemma vol_marg_claim c g S : cube_on c g -> good_grid g -> nonempty S = true ->
  exists a, construct_volume_element c (name S) = Ok a /\ shp a = dims S (pt g) /\
    forall i, in_grid g i -> ent a (bidx (shp a) (coords S i)) = Fin (vol g S i).
Proof.
  intros Hc Hg HS. destruct (vol_ok c g Hc Hg S HS) as (a & E & Hs & He). exists a. split; [exact E|]. split; [exact Hs|].
  intros i Hi. rewrite Hs.
  assert (B : bidx (dims S (pt g)) (coords S i) = coords S (pick_xy i)).
  { destruct i as [t v x y z]. destruct Hi as (H1 & H2 & H3 & H4 & H5). cbn in H1, H2, H3, H4, H5.
    destruct S as [[] [] [] []]; try discriminate HS; unfold dims, coords, bidx, pt, pick_xy; cbn;
    rewrite ?(pick_lt (nt g) t), ?(pick_lt (nv g) v), ?(pick_lt (nz g) z) by assumption; reflexivity. }
  rewrite B, He by (apply coords_inb, pt_in_grid; assumption).
  rewrite rd_coords0, vol_proj. f_equal. apply (vol_pt c g Hc Hg S i Hi).
Qed.
Lemma vol_cond_claim c g A C : cube_on c g -> good_grid g -> nonempty A = true -> nonempty C = true -> disjoint A C = true ->
  exists a, construct_volume_element c (cname A C) = Ok a /\ shp a = (dims A (pt g) ++ repeat 1%nat (List.length (dims C g)))%list /\
    forall i, in_grid g i -> ent a (bidx (shp a) (coords A i ++ coords C i)) = Fin (vol g A i).
Proof.
  intros Hc Hg HA HC HD. destruct (vol_cond_ok c g Hc Hg A C HA HC HD) as (a & E & Hs & He). exists a. split; [exact E|].
  assert (U : unit_dims C = repeat 1%nat (List.length (dims C g))) by (destruct C as [[] [] [] []]; reflexivity).
  split; [rewrite Hs, U; reflexivity|].
  intros i Hi. rewrite Hs.
  set (r := map (fun _ => 0%nat) (coords C i)).
  assert (B : bidx (dims A (pt g) ++ unit_dims C) (coords A i ++ coords C i) = (coords A (pick_xy i) ++ r)%list).
  { unfold r. clear He Hs E U. destruct i as [t v x y z]. destruct Hi as (H1 & H2 & H3 & H4 & H5). cbn in H1, H2, H3, H4, H5.
    destruct A as [[] [] [] []]; try discriminate HA; destruct C as [[] [] [] []]; try discriminate HC; try discriminate HD;
    unfold dims, coords, bidx, pt, pick_xy, unit_dims; cbn; rewrite ?(pick_lt (nt g) t), ?(pick_lt (nv g) v), ?(pick_lt (nz g) z) by assumption; reflexivity. }
  rewrite B, He.
  - rewrite rd_coords, vol_proj. f_equal. apply (vol_pt c g Hc Hg A i Hi).
  - apply inb_app; [apply coords_inb, pt_in_grid; assumption|]. unfold r.
    destruct C as [[] [] [] []]; cbn; repeat constructor.
Qed.
