(** * CubeLemmas: volume elements and variable queries of a cube. *)
From Coq Require Import Reals Lra Lia List Bool Arith ZArith String Ascii.
From Verif Require Import Num NumLemmas Arr ArrLemmas PyStr Cube Base Spec Repr.
Import ListNotations.
Local Open Scope R_scope.

(** ** tactics running the array code on arrays known through [arr_is] *)
Ltac norm_in H :=
  cbn [shp rev app List.length map nth seq keep axis_mask memb existsb Nat.eqb Bool.eqb orb hd tl] in H.

Ltac na_compute P sa axes :=
  let v := eval vm_compute in (norm_axes (List.length sa) axes) in
  match v with Ok ?l => assert (P : norm_axes (List.length sa) axes = Ok l) by reflexivity end.
Ltac s_bop :=
  let r := fresh "r" in let E := fresh "E" in let Hr := fresh "Hr" in let P := fresh "P" in
  match goal with
  | |- context [bop ?op ?a ?b] =>
      match goal with
      | Ha : arr_is a ?sa ?fa, Hb : arr_is b ?sb ?fb |- _ =>
          eassert (P : bshape sa sb = Some _) by bsh;
          destruct (bop_is op a b sa fa sb fb _ Ha Hb P) as (r & E & Hr)
      | Ha : arr_is a ?sa ?fa |- _ =>
          constr_eq a b;
          destruct (bop_is op a a sa fa sa fa _ Ha Ha (bshape_same sa)) as (r & E & Hr)
      end;
      rewrite E; cbn [bind]; clear E; try clear P
  end.
Ltac s_iop :=
  let r := fresh "r" in let E := fresh "E" in let Hr := fresh "Hr" in let P := fresh "P" in
  match goal with
  | |- context [iop ?op ?a ?b] =>
      match goal with
      | Ha : arr_is a ?sa ?fa, Hb : arr_is b ?sb ?fb |- _ =>
          eassert (P : bshape sa sb = Some sa) by bsh;
          destruct (iop_is op a b sa fa sb fb Ha Hb P) as (r & E & Hr);
          rewrite E; cbn [bind]; clear E P
      end
  end.
Ltac s_get :=
  let r := fresh "r" in let E := fresh "E" in let Hr := fresh "Hr" in let P := fresh "P" in
  match goal with
  | |- context [getitem ?sp ?a] =>
      match goal with
      | Ha : arr_is a ?sa ?fa |- _ =>
          eassert (P : gi_shape sp sa = Some _) by (cbn; reflexivity);
          destruct (getitem_is' sp a sa fa _ Ha P) as (r & E & Hr);
          rewrite E; cbn [bind]; clear E P
      end
  end.
Ltac s_lse :=
  let r := fresh "r" in let E := fresh "E" in let Hr := fresh "Hr" in let P := fresh "P" in
  match goal with
  | |- context [logsumexp ?a ?axes] =>
      match goal with
      | Ha : arr_is a ?sa ?fa |- _ =>
          na_compute P sa axes;
          destruct (logsumexp_is axes _ a sa fa Ha P) as (r & E & Hr);
          [apply has_zero_false; cbn; intuition lia|];
          rewrite E; cbn [bind]; clear E P; norm_in Hr
      end
  end.
Ltac s_lseall :=
  let r := fresh "r" in let E := fresh "E" in let Hr := fresh "Hr" in let P := fresh "P" in
  match goal with
  | |- context [logsumexp_all ?a] =>
      match goal with
      | Ha : arr_is a ?sa ?fa |- _ =>
          destruct (logsumexp_all_is a sa fa Ha) as (r & E & Hr);
          [apply has_zero_false; cbn; intuition lia|];
          rewrite E; cbn [bind]; clear E
      end
  end.
Ltac s_sum :=
  let r := fresh "r" in let E := fresh "E" in let Hr := fresh "Hr" in let P := fresh "P" in
  match goal with
  | |- context [asum ?axes ?a] =>
      match goal with
      | Ha : arr_is a ?sa ?fa |- _ =>
          na_compute P sa axes;
          destruct (asum_is axes _ a sa fa Ha P) as (r & E & Hr);
          rewrite E; cbn [bind]; clear E P; norm_in Hr
      end
  end.
Ltac s_map :=
  let r := fresh "r" in let E := fresh "E" in let Hr := fresh "Hr" in let P := fresh "P" in
  match goal with
  | |- context [amap ?op ?a] =>
      match goal with
      | Ha : arr_is a ?sa ?fa |- _ =>
          pose proof (amap_is op a sa fa Ha) as Hr;
          generalize dependent (amap op a); intros r Hr
      end
  end.
Ltac step1 := first [s_bop | s_iop | s_get | s_lse | s_lseall | s_sum | s_map].
Ltac steps := repeat (step1; cbn [bind]).

(** ** reading a bin back from the coordinates of the variables in S *)
Definition rd1 (b : bool) (idx : list nat) : nat * list nat :=
  if b then (hd 0%nat idx, tl idx) else (0%nat, idx).
Definition rd (S : vset) (idx : list nat) : bin :=
  let (t, r1) := rd1 (has_t S) idx in
  let (v, r2) := rd1 (has_v S) r1 in
  let (x, r3) := rd1 (has_x S) r2 in
  let (y, r4) := rd1 (has_x S) r3 in
  let (z, _) := rd1 (has_z S) r4 in
  Bin t v x y z.

Lemma coords_rd S g idx : inb idx (dims S g) -> coords S (rd S idx) = idx.
Proof.
  destruct S as [[] [] [] []]; cbn; intros H; inb_inv; reflexivity.
Qed.
Lemma rd_in_grid S g idx : good_grid g -> inb idx (dims S g) -> in_grid g (rd S idx).
Proof.
  intros [] . destruct S as [[] [] [] []]; cbn; intros H; inb_inv; unfold in_grid; cbn; auto.
Qed.
Lemma coords_inb S g i : in_grid g i -> inb (coords S i) (dims S g).
Proof.
  intros (Ht & Hv & Hx & Hy & Hz). destruct S as [[] [] [] []]; cbn; repeat constructor; assumption.
Qed.
(** the bin with the coordinates outside S set to zero *)
Definition proj (S : vset) (i : bin) : bin :=
  Bin (if has_t S then bt i else 0%nat) (if has_v S then bv i else 0%nat)
      (if has_x S then bx i else 0%nat) (if has_x S then by_ i else 0%nat)
      (if has_z S then bz i else 0%nat).
Lemma rd_coords S i r : rd S (coords S i ++ r) = proj S i.
Proof. destruct S as [[] [] [] []]; reflexivity. Qed.
Lemma rd_coords0 S i : rd S (coords S i) = proj S i.
Proof. rewrite <- (app_nil_r (coords S i)); apply rd_coords. Qed.
Lemma marg_proj g P S i : marg g P S (proj S i) = marg g P S i.
Proof. destruct S as [[] [] [] []]; reflexivity. Qed.
Lemma vol_proj g S i : vol g S (proj S i) = vol g S i.
Proof. destruct S as [[] [] [] []]; reflexivity. Qed.

(** [a] is an array over the variables S with entry F at each bin *)
Lemma arr_on S g (a : arr num) F : good_grid g ->
  shp a = dims S g -> (forall i, in_grid g i -> ent a (coords S i) = F i) ->
  arr_is a (dims S g) (fun idx => F (rd S idx)).
Proof.
  intros Hg Hs He. split; [assumption|]. intros idx Hi.
  rewrite <- He by (apply rd_in_grid; assumption). rewrite (coords_rd S g) by assumption. reflexivity.
Qed.

Lemma vec_is a n f : vec a n f -> arr_is a [n] (fun idx => Fin (f (hd 0%nat idx))).
Proof.
  intros [Hs He]; split; [exact Hs|]. intros idx Hi. inb_inv. cbn. apply He; assumption.
Qed.

Lemma wid_pos n E i : increasing n E -> (i < n)%nat -> 0 < wid E i.
Proof. intros H Hi. specialize (H i Hi). unfold wid; lra. Qed.

Lemma vol_pos g S i : good_grid g -> in_grid g i -> 0 < vol g S i.
Proof.
  intros Hg (Ht & Hv & Hx & Hy & Hz). unfold vol.
  pose proof (wid_pos _ _ _ (gg_tE _ Hg) Ht). pose proof (wid_pos _ _ _ (gg_vE _ Hg) Hv).
  pose proof (wid_pos _ _ _ (gg_xE _ Hg) Hx). pose proof (wid_pos _ _ _ (gg_yE _ Hg) Hy).
  pose proof (wid_pos _ _ _ (gg_zE _ Hg) Hz).
  destruct S as [[] [] [] []]; cbn; repeat apply Rmult_lt_0_compat; lra.
Qed.

Lemma v_widths c g : cube_on c g ->
  exists d, bop nsub (tail0 (c_v_edg c)) (init0 (c_v_edg c)) = Ok d /\
            arr_is d [nv g] (fun idx => Fin (wid (vE g) (hd 0%nat idx))).
Proof.
  intros Hc. pose proof (vec_is _ _ _ (co_v _ _ Hc)) as H.
  pose proof (tail0_is _ _ _ _ H ltac:(lia)) as H1. pose proof (init0_is _ _ _ _ H) as H2.
  replace (nv g + 1 - 1)%nat with (nv g) in * by lia.
  steps. eexists; split; [reflexivity|]. eapply arr_is_ext; [eassumption|].
  intros idx Hi. inb_inv. cbn. picks. reflexivity.
Qed.

(** the grid with a single spatial pixel: volume elements have that shape *)
Definition pt (g : grid) : grid :=
  Grid (nt g) (nv g) 1 1 (nz g) (tE g) (vE g) (xE g) (yE g) (zE g) (Lw g).

(** finish: compare the entries of the array just computed with the claim *)
Ltac ones :=
  repeat match goal with H : (?i < 1)%nat |- _ => assert (i = 0%nat) by lia; subst i; clear H end.
Ltac entries :=
  eapply arr_is_ext; [eassumption|];
  let idx := fresh "idx" in let Hidx := fresh "Hidx" in
  intros idx Hidx; inb_inv; ones; cbn; picks; cbn.

Section Vol.
Context (c : cube) (g : grid) (Hc : cube_on c g) (Hg : good_grid g).

Let dx_is : arr_is (arr1 [c_dx c] NaN) [1%nat] (fun _ => Fin (wid (xE g) 0)).
Proof.
  destruct (co_dx _ _ Hc) as (dx & Edx & Hdx). specialize (Hdx 0%nat (gg_x _ Hg)).
  split; [reflexivity|]. intros; inb_inv; ones. cbn. congruence.
Qed.
Let dy_is : arr_is (arr1 [c_dy c] NaN) [1%nat] (fun _ => Fin (wid (yE g) 0)).
Proof.
  destruct (co_dy _ _ Hc) as (dx & Edx & Hdx). specialize (Hdx 0%nat (gg_y _ Hg)).
  split; [reflexivity|]. intros; inb_inv; ones. cbn. congruence.
Qed.

Ltac vol_tac :=
  destruct (v_widths c g Hc) as (dv & Edv & Hdv);
  pose proof dx_is; pose proof dy_is;
  pose proof (vec_is _ _ _ (so_dt _ _ (co_ssps _ _ Hc))) as Ht;
  pose proof (vec_is _ _ _ (so_dz _ _ (co_ssps _ _ Hc))) as Hz;
  cbn -[bop getitem full arr1 tail0 init0];
  match goal with |- context [full ?s ?x] => pose proof (full_is x s) as Hfull;
      generalize dependent (full s x); intros ? Hfull end;
  rewrite ?Edv; cbn [bind];
  repeat (step1; cbn [bind]);
  match goal with |- context [shp ?a] =>
    match goal with H : arr_is a _ _ |- _ => rewrite (proj1 H); cbn [List.length repeat app] end end;
  step1;
  eexists; split; [reflexivity|]; entries;
  unfold nmul; cbn; f_equal; unfold vol; cbn; ring.

Lemma vol_ok S : nonempty S = true ->
  exists a, construct_volume_element c (name S) = Ok a /\
            arr_is a (dims S (pt g)) (fun idx => Fin (vol g S (rd S idx))).
Proof.
  intros HS. destruct S as [[] [] [] []]; try discriminate HS; clear HS; vol_tac.
Qed.

(** one axis of length 1 for each coordinate of S *)
Definition unit_dims (S : vset) : list nat :=
  opt (has_t S) [1%nat] ++ opt (has_v S) [1%nat] ++ opt (has_x S) [1%nat; 1%nat] ++ opt (has_z S) [1%nat].

Lemma vol_cond_ok A C : nonempty A = true -> nonempty C = true -> disjoint A C = true ->
  exists a, construct_volume_element c (cname A C) = Ok a /\
            arr_is a (dims A (pt g) ++ unit_dims C) (fun idx => Fin (vol g A (rd A idx))).
Proof.
  intros HA HC HD. destruct A as [[] [] [] []]; try discriminate HA; clear HA;
  destruct C as [[] [] [] []]; try discriminate HD; try discriminate HC; clear HC HD; vol_tac.
Qed.
End Vol.

(** pixels all have the same size *)
Lemma wid_x_const c g : cube_on c g -> good_grid g ->
  forall i, (i < nx g)%nat -> wid (xE g) i = wid (xE g) 0.
Proof. intros Hc Hg i Hi. destruct (co_dx _ _ Hc) as (d & _ & E). rewrite !E; auto. apply Hg. Qed.
Lemma wid_y_const c g : cube_on c g -> good_grid g ->
  forall i, (i < ny g)%nat -> wid (yE g) i = wid (yE g) 0.
Proof. intros Hc Hg i Hi. destruct (co_dy _ _ Hc) as (d & _ & E). rewrite !E; auto. apply Hg. Qed.

Lemma vol_pt c g : cube_on c g -> good_grid g ->
  forall S i, in_grid g i -> vol g S (Bin (bt i) (bv i) 0 0 (bz i)) = vol g S i.
Proof.
  intros Hc Hg S i (Ht & Hv & Hx & Hy & Hz). unfold vol; cbn.
  rewrite (wid_x_const c g Hc Hg _ Hx), (wid_y_const c g Hc Hg _ Hy). reflexivity.
Qed.
