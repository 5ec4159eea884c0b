(** * Props_Cube: claims C21-C25 about the cube's grid and its plotting methods. *)
From Coq Require Import Reals Lra Lia List Bool Arith ZArith String Ascii.
From Verif Require Import Num NumLemmas Arr PyStr Cube Base Spec SpecLemmas Repr CubeLemmas Build DistLemmas MomSpec CubeGeom Plot PlotLemmas.
Import ListNotations.
Local Open Scope R_scope.

(** C21: construction gives equal bins between the requested ends, centres at
    the middle of each bin; the grid is a good one when lo < hi. *)
Theorem C21_cube_geometry : forall s g nx1 nx2 nvel x1 x2 v,
  ssps_on s g -> (0 < nx1)%nat -> (0 < nx2)%nat -> (0 < nvel)%nat ->
  exists c, cube_init s nx1 nx2 nvel x1 x2 v = Ok c /\ cube_on c (cube_grid g nx1 nx2 nvel x1 x2 v) /\
    shp (c_xx c) = [nx1; nx2] /\ shp (c_yy c) = [nx1; nx2] /\
    forall i j, (i < nx1)%nat -> (j < nx2)%nat ->
      ent (c_xx c) [i; j] = Fin (mid (lin (fst x1) (snd x1) nx1) i) /\
      ent (c_yy c) [i; j] = Fin (mid (lin (fst x2) (snd x2) nx2) j).
Proof. exact cube_init_ok. Qed.
Print Assumptions C21_cube_geometry.
Theorem C21_good_grid : forall g nx1 nx2 nvel x1 x2 v, good_grid g ->
  (0 < nx1)%nat -> (0 < nx2)%nat -> (0 < nvel)%nat -> fst x1 < snd x1 -> fst x2 < snd x2 -> fst v < snd v ->
  good_grid (cube_grid g nx1 nx2 nvel x1 x2 v).
Proof. exact cube_grid_good. Qed.
Print Assumptions C21_good_grid.
(** the edges begin and end exactly at the requested range *)
Theorem C21_first_edge : forall lo hi n, lin lo hi n 0 = lo.
Proof. exact lin_0. Qed.
Print Assumptions C21_first_edge.
Theorem C21_last_edge : forall lo hi n, (0 < n)%nat -> lin lo hi n n = hi.
Proof. exact lin_n. Qed.
Print Assumptions C21_last_edge.
(** the queries return these centres, edges, sizes and extents *)
Theorem C21_queries : forall c g, cube_on c g -> good_grid g -> forall k,
  (exists a, get_variable_values c (vname k) = Ok a /\ vec a (cn g k) (mid (cedge g k))) /\
  (exists a, get_variable_edges c (vname k) = Ok a /\ vec a (cn g k + 1) (cedge g k)) /\
  get_variable_size c (vname k) = Ok (cn g k) /\
  get_variable_extent c (vname k) = Ok (Fin (cedge g k 0), Fin (cedge g k (cn g k))).
Proof. exact queries_claim. Qed.
Print Assumptions C21_queries.
Theorem C21_no_bins : forall s nx1 nx2 nvel x1 x2 v, (nx1 = 0 \/ nx2 = 0 \/ nvel = 0)%nat ->
  cube_init s nx1 nx2 nvel x1 x2 v = Err IndexError.
Proof. exact cube_init_empty. Qed.
Print Assumptions C21_no_bins.

Definition exs : ssps := c_ssps (comp_cube exc).
Lemma exs_on : ssps_on exs exg. Proof. exact (co_ssps _ _ (cm_cube _ _ _ exc_on)). Qed.
Example C21_example : exists c, cube_init exs 3 4 5 (-1, 1) (0, 2) (-1000, 1000) = Ok c /\ ent (c_x c) [0%nat] = Fin (- (2 / 3)).
Proof.
  destruct (C21_cube_geometry exs exg 3 4 5 (-1, 1) (0, 2) (-1000, 1000) exs_on ltac:(lia) ltac:(lia) ltac:(lia))
    as (c & E & Hc & _).
  exists c. split; [exact E|]. rewrite (proj2 (co_x _ _ Hc) 0%nat) by (cbn; lia). f_equal.
  cbn. unfold mid, lin. cbn. field.
Qed.

(** C22: volume elements. *)
Theorem C22_volume_marginal : forall c g S, cube_on c g -> good_grid g -> nonempty S = true ->
  exists a, construct_volume_element c (name S) = Ok a /\ shp a = dims S (pt g) /\
    forall i, in_grid g i -> ent a (bidx (shp a) (coords S i)) = Fin (vol g S i).
Proof. exact vol_marg_claim. Qed.
Print Assumptions C22_volume_marginal.
Theorem C22_volume_conditional : forall c g A C, cube_on c g -> good_grid g ->
  nonempty A = true -> nonempty C = true -> disjoint A C = true ->
  exists a, construct_volume_element c (cname A C) = Ok a /\
    shp a = (dims A (pt g) ++ repeat 1%nat (List.length (dims C g)))%list /\
    forall i, in_grid g i -> ent a (bidx (shp a) (coords A i ++ coords C i)) = Fin (vol g A i).
Proof. exact vol_cond_claim. Qed.
Print Assumptions C22_volume_conditional.
Theorem C22_volume_total : forall g S i, sum_over g S i (vol g S) =
  ifw (has_t S) (tE g (nt g) - tE g 0%nat) * ifw (has_v S) (vE g (nv g) - vE g 0%nat) *
  ifw (has_x S) ((xE g (nx g) - xE g 0%nat) * (yE g (ny g) - yE g 0%nat)) * ifw (has_z S) (zE g (nz g) - zE g 0%nat).
Proof. exact vol_sum. Qed.
Print Assumptions C22_volume_total.
Example C22_example : exists a, construct_volume_element (comp_cube exc) "tz_x" = Ok a /\ shp a = [2; 2; 1; 1]%nat /\
  ent a [1; 1; 0; 0]%nat = Fin 8.
Proof.
  destruct (C22_volume_conditional (comp_cube exc) exg (VSet true false false true) (VSet false false true false)
    (cm_cube _ _ _ exc_on) exg_good eq_refl eq_refl eq_refl) as (a & E & Hs & He).
  exists a. split; [exact E|]. split; [exact Hs|]. specialize (He exi exi_in). rewrite Hs in He.
  etransitivity; [exact He|]. f_equal. unfold vol, ifw, wid. cbn. lra.
Qed.

(** C23: shapes and names. *)
Theorem C23_distribution_shape : forall self g f A C density lw,
  comp_on self g f -> good_grid g -> nonneg g f -> lw_ok g f lw ->
  nonempty A = true -> disjoint A C = true ->
  exists a, get_p self (dname A C) density lw = Ok a /\ get_distribution_shape (comp_cube self) (dname A C) = Ok (shp a).
Proof. exact shape_claim. Qed.
Print Assumptions C23_distribution_shape.
Theorem C23_unknown_variable : forall c w, (forall k, w <> vname k) ->
  get_variable_values c w = Err ValueError /\ get_variable_edges c w = Err ValueError /\
  get_variable_size c w = Err ValueError /\ get_variable_extent c w = Err ValueError.
Proof. exact unknown_variable. Qed.
Print Assumptions C23_unknown_variable.
Example C23_example : get_distribution_shape (comp_cube exc) "vz_tx" = Ok [2; 2; 2; 2; 1]%nat /\
  forall k, "x"%string <> vname k.
Proof. split; [exact (shape_dname _ exg (VSet false true false true) (VSet true false true false) (cm_cube _ _ _ exc_on))|].
  intros []; discriminate. Qed.

(** C24: img[i,j] is drawn over bin i of the first view variable (horizontal)
    and bin j of the second (vertical, increasing upwards). *)
Theorem C24_image_orientation : forall p h g k0 k1 img n m,
  cube_on (p_cube p) g -> good_grid g -> tuple_ranges p h g -> shp img = [n; m] ->
  exists data l r b t, imshow p h img [vname k0; vname k1] = (h, Ok (AxesImage data [Fin l; Fin r; Fin b; Fin t])) /\
    shp data = [m; n] /\
    forall i j, (i < n)%nat -> (j < m)%nat ->
      exists row col, (row < m)%nat /\ (col < n)%nat /\ ent data [row; col] = ent img [i; j] /\
        pixel_box m n l r b t row col =
          ((lin (fst (shown g k0)) (snd (shown g k0)) n i, lin (fst (shown g k0)) (snd (shown g k0)) n (S i)),
           (lin (fst (shown g k1)) (snd (shown g k1)) m j, lin (fst (shown g k1)) (snd (shown g k1)) m (S j))).
Proof. exact imshow_claim. Qed.
Print Assumptions C24_image_orientation.
Definition exp : pcube := PCube (comp_cube exc) 0 1.
Definition exh : heap := fun l => match l with O => PTuple [Fin 0; Fin 2] | _ => PTuple [Fin 0; Fin 1] end.
Example C24_example : cube_on (p_cube exp) exg /\ good_grid exg /\ tuple_ranges exp exh exg.
Proof.
  split; [exact (cm_cube _ _ _ exc_on)|]. split; [exact exg_good|]. split; cbn; repeat f_equal; lra.
Qed.

(** C25: plotting leaves the ranges alone in every history when they are tuples;
    not when x1rng was given as a list. *)
Theorem C25_plotting_keeps_tuple_ranges : forall p h calls,
  is_list (h (p_x1 p)) = false -> is_list (h (p_x2 p)) = false -> run_imshow p h calls = h.
Proof. exact history_tuples. Qed.
Print Assumptions C25_plotting_keeps_tuple_ranges.
Theorem C25_list_range_refuted : forall p h l r b t img n m, p_x1 p <> p_x2 p ->
  h (p_x1 p) = PList [Fin l; Fin r] -> h (p_x2 p) = PTuple [Fin b; Fin t] -> shp img = [n; m] ->
  exists h1 ai, imshow p h img ["x1"; "x2"]%string = (h1, Ok ai) /\
    ai_extent ai = [Fin l; Fin r; Fin b; Fin t] /\
    h1 (p_x1 p) = PList [Fin l; Fin r; Fin b; Fin t] /\
    snd (imshow p h1 img ["x1"; "x2"]%string) = Err ValueError.
Proof. exact list_range. Qed.
Print Assumptions C25_list_range_refuted.
Theorem C25_mixed_ranges_raise : forall p h a b img, h (p_x1 p) = PTuple a -> h (p_x2 p) = PList b ->
  snd (imshow p h img ["x1"; "x2"]%string) = Err TypeError.
Proof. exact mixed_range. Qed.
Print Assumptions C25_mixed_ranges_raise.
Example C25_example : is_list (exh (p_x1 exp)) = false /\ is_list (exh (p_x2 exp)) = false /\ p_x1 exp <> p_x2 exp.
Proof. split; [reflexivity|]. split; [reflexivity|]. discriminate. Qed.
