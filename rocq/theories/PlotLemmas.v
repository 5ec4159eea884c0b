(** * PlotLemmas: lemmas for claims C23-C25. *)
From Coq Require Import Reals Lra Lia List Bool Arith ZArith String Ascii.
From Verif Require Import Num NumLemmas Arr ArrLemmas PyStr Cube Base Spec SpecLemmas Repr CubeLemmas MomArr MomSpec MomLemmas LMom
  CubeGeom Plot DistLemmas.
Import ListNotations.
Local Open Scope R_scope.

(** ** shapes of all valid strings *)
Lemma shape_cond c g A C : cube_on c g -> nonempty C = true ->
  get_distribution_shape c (cname A C) = Ok (dims A g ++ dims C g)%list.
Proof.
  intros Hc HC. pose proof (size_t _ _ Hc) as St. pose proof (size_v _ _ Hc) as Sv. pose proof (size_z _ _ Hc) as Sz.
  pose proof (size_x1 _ _ Hc) as S1. pose proof (size_x2 _ _ Hc) as S2.
  change (get_variable_size c (str1 "t") = Ok (nt g)) in St. change (get_variable_size c (str1 "v") = Ok (nv g)) in Sv.
  change (get_variable_size c (str1 "z") = Ok (nz g)) in Sz.
  unfold get_distribution_shape.
  assert (R : chars (replace_char "_" [] (cname A C)) = (chars (name A) ++ chars (name C))%list)
    by (destruct A as [[] [] [] []]; destruct C as [[] [] [] []]; reflexivity).
  rewrite R. clear R.
  assert (L : forall S s l, shape_loop c (chars (name S) ++ l) s = shape_loop c l (s ++ dims S g)).
  { intros S s l. destruct S as [[] [] [] []]; unfold dims; cbn [name chars has_t has_v has_x has_z append app opt
      shape_loop Ascii.eqb Bool.eqb str1 list_ascii_of_string];
    repeat (first [rewrite St|rewrite Sv|rewrite Sz|rewrite S1|rewrite S2]; cbn [bind]);
    rewrite <- ?app_assoc; rewrite ?app_nil_r; reflexivity. }
  rewrite L. rewrite <- (app_nil_r (chars (name C))). rewrite L. reflexivity.
Qed.

Lemma shape_dname c g A C : cube_on c g -> get_distribution_shape c (dname A C) = Ok (dims A g ++ dims C g)%list.
Proof.
  intros Hc. unfold dname. destruct (nonempty C) eqn:E; [apply shape_cond; assumption|].
  rewrite (shape_ok c g A Hc). destruct C as [[] [] [] []]; try discriminate E. unfold dims at 3. cbn. rewrite app_nil_r. reflexivity.
Qed.
Lemma shape_claim self g f A C density lw : comp_on self g f -> good_grid g -> nonneg g f -> lw_ok g f lw ->
  nonempty A = true -> disjoint A C = true ->
  exists a, get_p self (dname A C) density lw = Ok a /\ get_distribution_shape (comp_cube self) (dname A C) = Ok (shp a).
Proof.
  intros H Hg Hf Hl HA HD. pose proof (cm_cube _ _ _ H) as Hc. rewrite (shape_dname _ g) by assumption.
  unfold dname. destruct (nonempty C) eqn:E.
  - destruct (get_p_cond self g f H Hg Hf A C density lw HA E HD Hl) as (a & Ea & Hs & _). exists a. split; [exact Ea|].
    rewrite Hs. reflexivity.
  - destruct (get_p_marg self g f H Hg Hf A density lw HA Hl) as (a & Ea & Hs & _). exists a. split; [exact Ea|].
    rewrite Hs. destruct C as [[] [] [] []]; try discriminate E. unfold dims at 2. cbn. rewrite app_nil_r. reflexivity.
Qed.

(** ** imshow *)
(** ranges of a cube as tuples at two locations *)
Definition tuple_ranges (p : pcube) (h : heap) (g : grid) : Prop :=
  h (p_x1 p) = PTuple [Fin (xE g 0); Fin (xE g (nx g))] /\ h (p_x2 p) = PTuple [Fin (yE g 0); Fin (yE g (ny g))].

(** image range of a coordinate: ages and metallicities are drawn on (0,1) *)
Definition shown (g : grid) (k : coord) : R * R :=
  match k with Ct | Cz => (0, 1) | _ => (cedge g k 0, cedge g k (cn g k)) end.

Lemma image_extent_ok p h g k : cube_on (p_cube p) g -> good_grid g -> tuple_ranges p h g ->
  exists r, get_image_extent p (vname k) = Ok r /\ deref h r = PTuple [Fin (fst (shown g k)); Fin (snd (shown g k))].
Proof.
  intros Hc Hg [H1 H2]. destruct k; cbn [vname shown cedge cn fst snd].
  - eexists; split; [reflexivity|reflexivity].
  - change (get_image_extent p "v") with (e <- get_variable_extent (p_cube p) (vname Cv) ;; Ok (RVal (PTuple [fst e; snd e]))).
    rewrite (extent_query (p_cube p) g Hc Cv). cbn [bind]. eexists; split; reflexivity.
  - eexists; split; [reflexivity|exact H1].
  - eexists; split; [reflexivity|exact H2].
  - eexists; split; [reflexivity|reflexivity].
Qed.

Lemma imshow_ok p h g k0 k1 img n m : cube_on (p_cube p) g -> good_grid g -> tuple_ranges p h g -> shp img = [n; m] ->
  exists ai, imshow p h img [vname k0; vname k1] = (h, Ok ai) /\
    ai_extent ai = [Fin (fst (shown g k0)); Fin (snd (shown g k0)); Fin (fst (shown g k1)); Fin (snd (shown g k1))] /\
    shp (ai_data ai) = [m; n] /\
    forall i j, (i < n)%nat -> (j < m)%nat -> ent (ai_data ai) [(m - 1 - j)%nat; i] = ent img [i; j].
Proof.
  intros Hc Hg HT Hs. destruct (image_extent_ok p h g k0 Hc Hg HT) as (r0 & E0 & D0).
  destruct (image_extent_ok p h g k1 Hc Hg HT) as (r1 & E1 & D1).
  unfold imshow. rewrite E0, E1. unfold iadd. rewrite D0, D1. cbn [flipud T shp deref items app List.length Nat.eqb].
  rewrite Hs. cbn [rev app]. eexists; split; [reflexivity|]. split; [reflexivity|]. split; [cbn; rewrite Hs; reflexivity|].
  intros i j Hi Hj. unfold flipud, T, len0; cbn [ai_data ent shp]. rewrite Hs. cbn [rev app hd].
  replace (m - 1 - (m - 1 - j))%nat with j by lia. reflexivity.
Qed.

(** the box of the pixel showing img[i,j] *)
Lemma box_ok n m (l r b t : R) i j : (0 < n)%nat -> (0 < m)%nat -> (i < n)%nat -> (j < m)%nat ->
  pixel_box m n l r b t (m - 1 - j) i = ((lin l r n i, lin l r n (S i)), (lin b t m j, lin b t m (S j))).
Proof.
  intros Hn Hm Hi Hj. unfold pixel_box, lin. assert (INR m <> 0) by (apply not_0_INR; lia).
  replace (i + 1)%nat with (S i) by lia. replace (m - 1 - j + 1)%nat with (m - j)%nat by lia.
  f_equal. replace (m - 1 - j)%nat with (m - S j)%nat by lia. rewrite !minus_INR by lia. f_equal; field; assumption.
Qed.

Lemma imshow_claim p h g k0 k1 img n m : cube_on (p_cube p) g -> good_grid g -> tuple_ranges p h g -> shp img = [n; m] ->
  exists data l r b t, imshow p h img [vname k0; vname k1] = (h, Ok (AxesImage data [Fin l; Fin r; Fin b; Fin t])) /\
    shp data = [m; n] /\
    forall i j, (i < n)%nat -> (j < m)%nat ->
      exists row col, (row < m)%nat /\ (col < n)%nat /\ ent data [row; col] = ent img [i; j] /\
        pixel_box m n l r b t row col =
          ((lin (fst (shown g k0)) (snd (shown g k0)) n i, lin (fst (shown g k0)) (snd (shown g k0)) n (S i)),
           (lin (fst (shown g k1)) (snd (shown g k1)) m j, lin (fst (shown g k1)) (snd (shown g k1)) m (S j))).
Proof.
  intros Hc Hg HT Hs. destruct (imshow_ok p h g k0 k1 img n m Hc Hg HT Hs) as ([data ext] & E & He & Hd & Hv).
  cbn [ai_data ai_extent] in *. subst ext. exists data, (fst (shown g k0)), (snd (shown g k0)), (fst (shown g k1)), (snd (shown g k1)).
  split; [exact E|]. split; [exact Hd|]. intros i j Hi Hj. exists (m - 1 - j)%nat, i.
  split; [lia|]. split; [assumption|]. split; [apply Hv; assumption|]. apply box_ok; lia.
Qed.

(** ** histories *)
Lemma iadd_tuples h a b h' r : iadd h a b = Ok (h', r) -> is_list (deref h a) = false -> h' = h.
Proof. unfold iadd. destruct (deref h a); [|discriminate]. destruct (deref h b); [|discriminate]. intros E _. injection E as <- _. reflexivity. Qed.

Lemma image_extent_tuple p h w r : is_list (h (p_x1 p)) = false -> is_list (h (p_x2 p)) = false ->
  get_image_extent p w = Ok r -> is_list (deref h r) = false.
Proof.
  intros H1 H2. unfold get_image_extent. destruct (_ || _ || _)%bool.
  - unfold get_variable_extent_ref. destruct (String.eqb w "x1"); [intros E; injection E as <-; exact H1|].
    destruct (String.eqb w "x2"); [intros E; injection E as <-; exact H2|].
    destruct (get_variable_extent _ _); cbn [bind]; [|discriminate]. intros E; injection E as <-. reflexivity.
  - destruct (_ || _)%bool; [|discriminate]. intros E; injection E as <-. reflexivity.
Qed.
Lemma imshow_tuples p h img view : is_list (h (p_x1 p)) = false -> is_list (h (p_x2 p)) = false ->
  fst (imshow p h img view) = h.
Proof.
  intros H1 H2. unfold imshow. destruct view as [|v0 [|v1 view]]; try reflexivity.
  destruct (get_image_extent p v0) as [e0|] eqn:E0; [|reflexivity].
  destruct (get_image_extent p v1) as [e1|] eqn:E1; [|reflexivity].
  destruct (iadd h e0 e1) as [[h' r]|] eqn:E; [|reflexivity]. cbn [fst].
  eapply iadd_tuples; [exact E|]. eapply image_extent_tuple; [exact H1|exact H2|exact E0].
Qed.
Lemma history_tuples p h calls : is_list (h (p_x1 p)) = false -> is_list (h (p_x2 p)) = false ->
  run_imshow p h calls = h.
Proof.
  intros H1 H2. induction calls as [|[img view] calls IH]; [reflexivity|]. cbn [run_imshow].
  rewrite imshow_tuples by assumption. exact IH.
Qed.

(** x1rng given as a list: the first image is right, the range is extended, and
    every later image with x1 on its first axis fails *)
Lemma list_range p h l r b t img n m : p_x1 p <> p_x2 p ->
  h (p_x1 p) = PList [Fin l; Fin r] -> h (p_x2 p) = PTuple [Fin b; Fin t] -> shp img = [n; m] ->
  exists h1 ai, imshow p h img ["x1"; "x2"]%string = (h1, Ok ai) /\
    ai_extent ai = [Fin l; Fin r; Fin b; Fin t] /\
    h1 (p_x1 p) = PList [Fin l; Fin r; Fin b; Fin t] /\
    snd (imshow p h1 img ["x1"; "x2"]%string) = Err ValueError.
Proof.
  intros Hne H1 H2 Hs. unfold imshow at 1. cbn [get_image_extent get_variable_extent_ref String.eqb Ascii.eqb Bool.eqb orb].
  unfold iadd. cbn [deref]. rewrite H1, H2. cbn [items app].
  assert (U : upd h (p_x1 p) (PList [Fin l; Fin r; Fin b; Fin t]) (p_x1 p) = PList [Fin l; Fin r; Fin b; Fin t])
    by (unfold upd; rewrite Nat.eqb_refl; reflexivity).
  assert (U2 : upd h (p_x1 p) (PList [Fin l; Fin r; Fin b; Fin t]) (p_x2 p) = PTuple [Fin b; Fin t]).
  { unfold upd. destruct (Nat.eqb_spec (p_x2 p) (p_x1 p)); [congruence|assumption]. }
  cbn [deref]. rewrite U. cbn [items List.length Nat.eqb flipud T shp]. rewrite Hs. cbn [rev app].
  eexists _, _. split; [reflexivity|]. split; [reflexivity|]. split; [exact U|].
  unfold imshow. cbn [get_image_extent get_variable_extent_ref String.eqb Ascii.eqb Bool.eqb orb].
  unfold iadd. cbn [deref]. rewrite U, U2. cbn [items app snd deref].
  unfold upd at 1. rewrite Nat.eqb_refl. cbn [items List.length Nat.eqb flipud T shp]. rewrite Hs. reflexivity.
Qed.
Lemma mixed_range p h a b img : h (p_x1 p) = PTuple a -> h (p_x2 p) = PList b ->
  snd (imshow p h img ["x1"; "x2"]%string) = Err TypeError.
Proof.
  intros H1 H2. unfold imshow. cbn [get_image_extent get_variable_extent_ref String.eqb Ascii.eqb Bool.eqb orb].
  unfold iadd. cbn [deref]. rewrite H1, H2. reflexivity.
Qed.
