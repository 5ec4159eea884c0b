(** * ParticleClaims *)
From Coq Require Import Reals Lra Lia List Bool Arith ZArith String Ascii Permutation FunctionalExtensionality.
From Verif Require Import Num NumLemmas Arr ArrLemmas PyStr Cube Base Spec SpecLemmas Repr CubeLemmas MomSpec CubeGeom
  VecLemmas SspLemmas BaseLemmas CondLemmas DistLemmas NanLemmas Particle ParticleSpec ParticleLemmas LMom.
Import ListNotations.
Local Open Scope R_scope.

(** numbers of particles lost, stated on the grid *)
Definition note_of (g : grid) (ps : list particle) : report :=
  let lost get n (E : nat -> R) :=
    (count (fun p => nlt (get p) (Fin (E 0%nat))) ps, count (fun p => nlt (Fin (E n)) (get p)) ps) in
  Report (count (fun p => negb (in_bounds g p)) ps) (List.length ps)
    [lost p_t (nt g) (tE g); lost p_v (nv g) (vE g); lost p_x1 (nx g) (xE g);
     lost p_x2 (ny g) (yE g); lost p_z (nz g) (zE g)].

Definition hcount (g : grid) (pw : list (particle * num)) (idx : list nat) : num :=
  match idx with
  | [a; b; c; d; e] =>
      if Nat.ltb a (nt g) && Nat.ltb b (nv g) && Nat.ltb c (nx g) && Nat.ltb d (ny g) && Nat.ltb e (nz g)
      then nsum (map snd (filter (fun q => inside g (Bin a b c d e) (fst q)) pw)) else NaN
  | _ => NaN end.
Definition hdens (g : grid) (dt dv dx dy dz : arr num) (pw : list (particle * num)) : arr num :=
  Arr (dims all_vars g) (fun idx => match idx with
   | [a; b; c; d; e] =>
      ndiv (ndiv (ndiv (ndiv (ndiv (ndiv (hcount g pw idx) (ent dt [a])) (ent dv [b]))
           (ent dx [c])) (ent dy [d])) (ent dz [e])) (nsum (map (hcount g pw) (all_idx (dims all_vars g))))
   | _ => NaN end).

Lemma count_negb {A} (f : A -> bool) l : (List.length l - count f l)%nat = count (fun x => negb (f x)) l.
Proof.
  unfold count. induction l as [|a l IH]; [reflexivity|]. cbn [filter List.length].
  assert (List.length (filter f l) <= List.length l)%nat.
  { clear. induction l as [|a l IH]; [cbn; lia|]. cbn. destruct (f a); cbn; lia. }
  destruct (f a); cbn [negb List.length]; lia.
Qed.
Lemma combine_fst_snd {A B} (l : list (A * B)) : combine (map fst l) (map snd l) = l.
Proof. induction l as [|[a b] l IH]; cbn; congruence. Qed.

Section Fp.
Context (c : cube) (g : grid) (Hc : cube_on c g) (Hg : good_grid g).

Lemma fp_eq : exists dt dv dx dy dz,
  vec dt (nt g) (wid (tE g)) /\ vec dv (nv g) (wid (vE g)) /\ vec dx (nx g) (wid (xE g)) /\
  vec dy (ny g) (wid (yE g)) /\ vec dz (nz g) (wid (zE g)) /\
  forall pw, from_particle c (map fst pw) (Some (map snd pw)) =
    Ok (note_of g (map fst pw), Component c (amap nlog (hdens g dt dv dx dy dz pw))).
Proof.
  destruct (edges_query c g Hc Hg Ct) as (et & Et & Vt). destruct (edges_query c g Hc Hg Cv) as (ev & Ev & Vv).
  destruct (edges_query c g Hc Hg Cx1) as (e1 & E1 & V1). destruct (edges_query c g Hc Hg Cx2) as (e2 & E2 & V2).
  destruct (edges_query c g Hc Hg Cz) as (ez & Ez & Vz).
  cbn [vname cn cedge] in *.
  assert (D : forall e n E, vec e (n + 1) E -> exists d, bop nsub (tail0 e) (init0 e) = Ok d /\ vec d n (wid E)).
  { intros e n E V. rewrite Nat.add_1_r in V.
    destruct (vec_sub _ _ _ _ _ (vec_tail _ _ _ V) (vec_init _ _ _ V)) as (d & Ed & Hd). exists d. split; [exact Ed|exact Hd]. }
  destruct (D _ _ _ Vt) as (dt & Dt & Wt). destruct (D _ _ _ Vv) as (dv & Dv & Wv). destruct (D _ _ _ V1) as (dx & D1 & W1).
  destruct (D _ _ _ V2) as (dy & D2 & W2). destruct (D _ _ _ Vz) as (dz & Dz & Wz). clear D.
  assert (L : forall e n E, vec e (n + 1) E -> edge_lo e = Ok (Fin (E 0%nat)) /\ edge_hi e = Ok (Fin (E n))).
  { intros e n E V. rewrite Nat.add_1_r in V. split; [apply (vec_first _ _ _ V); lia|apply (vec_last_ _ _ _ V)]. }
  destruct (L _ _ _ Vt) as [Lt Ht]. destruct (L _ _ _ Vv) as [Lv Hv]. destruct (L _ _ _ V1) as [L1 H1].
  destruct (L _ _ _ V2) as [L2 H2]. destruct (L _ _ _ Vz) as [Lz Hz]. clear L.
  exists dt, dv, dx, dy, dz. do 5 (split; [assumption|]). intros pw.
  unfold from_particle. rewrite Et, Ev, E1, E2, Ez. cbn [bind].
  rewrite Lt, Ht, Lv, Hv, L1, H1, L2, H2, Lz, Hz. cbn [bind]. clear Lt Ht Lv Hv L1 H1 L2 H2 Lz Hz Et Ev E1 E2 Ez.
  unfold histogramdd. cbn [e_t e_v e_x1 e_x2 e_z].
  set (EE := Edges5 et ev e1 e2 ez).
  assert (M : monotonic (to_list et) && monotonic (to_list ev) && monotonic (to_list e1) && monotonic (to_list e2) && monotonic (to_list ez) = true).
  { rewrite (vec_to_list _ _ _ Vt), (vec_to_list _ _ _ Vv), (vec_to_list _ _ _ V1), (vec_to_list _ _ _ V2), (vec_to_list _ _ _ Vz).
    rewrite !andb_true_iff. destruct Hg. repeat split; apply elist_mono; assumption. }
  rewrite M. clear M. rewrite !map_length, Nat.eqb_refl.
  replace (if Nat.eqb (List.length pw) 0 then Ok [] else Ok (map snd pw)) with (Ok (map snd pw)) by (destruct pw; reflexivity).
  cbn [bind]. rewrite combine_fst_snd, Dt, Dv, D1, D2, Dz. cbn [bind].
  assert (NB : forall e n E, vec e (n + 1) E -> nbins e = n).
  { intros e n E V. unfold nbins. rewrite (vec_len _ _ _ V). lia. }
  assert (S5 : shp (hist_counts EE pw) = dims all_vars g).
  { unfold hist_counts, EE. cbn [shp e_t e_v e_x1 e_x2 e_z]. rewrite (NB _ _ _ Vt), (NB _ _ _ Vv), (NB _ _ _ V1), (NB _ _ _ V2), (NB _ _ _ Vz). reflexivity. }
  assert (C5 : ent (hist_counts EE pw) = hcount g pw).
  { apply functional_extensionality. intros idx. unfold hist_counts, hcount, EE. cbn [ent e_t e_v e_x1 e_x2 e_z].
    destruct idx as [|a [|b [|d [|e [|f [|]]]]]]; try reflexivity.
    rewrite (NB _ _ _ Vt), (NB _ _ _ Vv), (NB _ _ _ V1), (NB _ _ _ V2), (NB _ _ _ Vz).
    match goal with |- (if ?b then _ else _) = _ => destruct b eqn:B; [|reflexivity] end.
    rewrite !andb_true_iff, !Nat.ltb_lt in B. destruct B as [[[[B1 B2] B3] B4] B5].
    do 2 f_equal. apply filter_ext. intros [p w]. cbn [fst]. unfold falls_in, inside. cbn [e_t e_v e_x1 e_x2 e_z bt bv bx by_ bz].
    rewrite (vec_to_list _ _ _ Vt), (vec_to_list _ _ _ Vv), (vec_to_list _ _ _ V1), (vec_to_list _ _ _ V2), (vec_to_list _ _ _ Vz).
    fold (elist (nt g) (tE g)). fold (elist (nv g) (vE g)). fold (elist (nx g) (xE g)). fold (elist (ny g) (yE g)). fold (elist (nz g) (zE g)).
    destruct Hg. rewrite !bin_number_ok by assumption. reflexivity. }
  rewrite S5, C5. unfold component_init. change "tvxz"%string with (name all_vars). rewrite (shape_ok c g all_vars Hc). cbn [bind amap shp].
  replace (natlist_eqb (dims all_vars g) (dims all_vars g)) with true.
  2:{ symmetry. apply natlist_eqb_eq. reflexivity. }
  cbn [bind]. match goal with |- Ok (?a, ?b) = Ok (?a', ?b') => cut (a = a'); [intros ->; reflexivity|] end.
  unfold note_of. cbv zeta.
  replace (List.length pw) with (List.length (map fst pw)) by apply map_length.
  rewrite count_negb. f_equal. unfold count. f_equal. apply filter_ext. intros p.
  rewrite !between_range. reflexivity.
Qed.

(** ** the component depends only on the weight in each bin *)
Lemma fp_congr pw pw' :
  (forall i, in_grid g i -> nsum (map snd (filter (fun q => inside g i (fst q)) pw)) =
                            nsum (map snd (filter (fun q => inside g i (fst q)) pw'))) ->
  exists comp, from_particle c (map fst pw) (Some (map snd pw)) = Ok (note_of g (map fst pw), comp) /\
               from_particle c (map fst pw') (Some (map snd pw')) = Ok (note_of g (map fst pw'), comp).
Proof.
  intros H. destruct fp_eq as (dt & dv & dx & dy & dz & _ & _ & _ & _ & _ & F).
  eexists. split; [apply F|]. rewrite F. do 4 f_equal.
  assert (X : hcount g pw = hcount g pw').
  { apply functional_extensionality. intros idx. unfold hcount.
    destruct idx as [|a [|b [|d [|e [|f [|]]]]]]; try reflexivity.
    match goal with |- (if ?b then _ else _) = _ => destruct b eqn:B; [|reflexivity] end.
    rewrite !andb_true_iff, !Nat.ltb_lt in B. destruct B as [[[[B1 B2] B3] B4] B5].
    apply H. unfold in_grid; cbn; auto. }
  unfold hdens. rewrite X. reflexivity.
Qed.

Lemma inside_bounds i p : in_grid g i -> inside g i p = true -> in_bounds g p = true.
Proof.
  intros (H1 & H2 & H3 & H4 & H5). unfold inside, in_bounds. rewrite !andb_true_iff.
  intros ((((A1 & A2) & A3) & A4) & A5). destruct Hg.
  repeat split; [apply (in_bin_range _ _ gg_tE gg_t (bt i))|apply (in_bin_range _ _ gg_vE gg_v (bv i))|apply (in_bin_range _ _ gg_xE gg_x (bx i))
    |apply (in_bin_range _ _ gg_yE gg_y (by_ i))|apply (in_bin_range _ _ gg_zE gg_z (bz i))]; assumption.
Qed.
Lemma one_bin p : in_bounds g p = true ->
  exists i, in_grid g i /\ inside g i p = true /\ forall j, in_grid g j -> inside g j p = true -> j = i.
Proof.
  unfold in_bounds. rewrite !andb_true_iff. intros ((((A1 & A2) & A3) & A4) & A5). destruct Hg.
  apply in_range_bin in A1, A2, A3, A4, A5; try assumption.
  destruct A1 as (a & Ha & Ba & Ua), A2 as (b & Hb & Bb & Ub), A3 as (d & Hd & Bd & Ud), A4 as (e & He & Be & Ue), A5 as (f & Hf & Bf & Uf).
  exists (Bin a b d e f). split; [unfold in_grid; cbn; auto|]. split.
  - unfold inside. cbn [bt bv bx by_ bz]. rewrite Ba, Bb, Bd, Be, Bf. reflexivity.
  - intros [j1 j2 j3 j4 j5] (J1 & J2 & J3 & J4 & J5) HH. unfold inside in HH. cbn [bt bv bx by_ bz] in *.
    rewrite !andb_true_iff in HH. destruct HH as ((((K1 & K2) & K3) & K4) & K5).
    f_equal; auto.
Qed.

Lemma outside_claim pw : let pw' := filter (fun q => in_bounds g (fst q)) pw in
  exists n n' comp, from_particle c (map fst pw) (Some (map snd pw)) = Ok (n, comp) /\
                    from_particle c (map fst pw') (Some (map snd pw')) = Ok (n', comp).
Proof.
  cbv zeta. destruct (fp_congr pw (filter (fun q => in_bounds g (fst q)) pw)) as (comp & E1 & E2).
  { intros i Hi. f_equal. f_equal. induction pw as [|[p w] l IH]; [reflexivity|]. cbn [filter fst].
    destruct (inside g i p) eqn:B.
    - rewrite (inside_bounds i p Hi B). cbn [filter fst]. rewrite B. f_equal. exact IH.
    - destruct (in_bounds g p); [cbn [filter fst]; rewrite B|]; exact IH. }
  do 3 eexists. split; eassumption.
Qed.

Lemma nadd_assoc a b d : nadd a (nadd b d) = nadd (nadd a b) d.
Proof. destruct a, b, d; cbv [nadd]; try reflexivity. f_equal. ring. Qed.
Lemma nadd_comm_ a b : nadd a b = nadd b a.
Proof. destruct a, b; cbv [nadd]; try reflexivity. f_equal. ring. Qed.
Lemma nsum_perm l l' : Permutation l l' -> nsum l = nsum l'.
Proof.
  induction 1; unfold nsum in *; cbn; try congruence.
  rewrite !nadd_assoc, (nadd_comm_ y x). reflexivity.
Qed.
Lemma filter_perm {A} (f : A -> bool) l l' : Permutation l l' -> Permutation (filter f l) (filter f l').
Proof.
  induction 1; cbn.
  - constructor.
  - destruct (f x); [constructor|]; assumption.
  - destruct (f x), (f y); try apply Permutation_refl. constructor.
  - eapply Permutation_trans; eassumption.
Qed.
Lemma order_claim pw pw' : Permutation pw pw' ->
  from_particle c (map fst pw) (Some (map snd pw)) = from_particle c (map fst pw') (Some (map snd pw')).
Proof.
  intros P. destruct (fp_congr pw pw') as (comp & E1 & E2).
  { intros i Hi. apply nsum_perm, Permutation_map, filter_perm, P. }
  rewrite E1, E2. f_equal. f_equal. apply (Permutation_map fst) in P.
  assert (X : forall f : particle -> bool, count f (map fst pw) = count f (map fst pw')).
  { intros f. unfold count. apply Permutation_length, filter_perm, P. }
  unfold note_of. cbv zeta. rewrite !X, (Permutation_length P). reflexivity.
Qed.

(** ** finite weights *)
Definition finw (pw : list (particle * R)) : list (particle * num) := map (fun q => (fst q, Fin (snd q))) pw.
Lemma finw_fst pw : map fst (finw pw) = map fst pw.
Proof. unfold finw. rewrite map_map. reflexivity. Qed.
Lemma finw_snd pw : map snd (finw pw) = map Fin (map snd pw).
Proof. unfold finw. rewrite !map_map. reflexivity. Qed.
Lemma weight_ok P pw : nsum (map snd (filter (fun q => P (fst q)) (finw pw))) = Fin (weight P pw).
Proof.
  induction pw as [|[p w] l IH]; [reflexivity|]. unfold weight. cbn [finw map filter fst snd sumR fold_right].
  fold (finw l). destruct (P p).
  - cbn [map snd]. unfold nsum in *. cbn [fold_right]. rewrite IH. reflexivity.
  - rewrite IH. f_equal. unfold weight, sumR. symmetry. apply Rplus_0_l.
Qed.
Lemma weight_cons P q pw : weight P (q :: pw) = (if P (fst q) then snd q else 0) + weight P pw.
Proof. reflexivity. Qed.
Lemma weight_nil P : weight P [] = 0.
Proof. reflexivity. Qed.
Lemma weight_nonneg P pw : (forall q, In q pw -> 0 <= snd q) -> 0 <= weight P pw.
Proof.
  intros H. induction pw as [|q l IH]; [rewrite weight_nil; lra|]. rewrite weight_cons.
  pose proof (H q (or_introl eq_refl)). specialize (IH (fun q' h => H q' (or_intror h))). destruct (P (fst q)); lra.
Qed.

Lemma weight_total pw :
  Sum (nt g) (fun t => Sum (nv g) (fun v => Sum (nx g) (fun x => Sum (ny g) (fun y => Sum (nz g) (fun z =>
    weight (inside g (Bin t v x y z)) pw))))) = weight (in_bounds g) pw.
Proof.
  induction pw as [|[p w] l IH].
  - unfold weight; cbn. do 5 (apply Sum_all_0; intros). reflexivity.
  - assert (X : forall P, weight P ((p, w) :: l) = (if P p then w else 0) + weight P l) by reflexivity.
    rewrite X, <- IH.
    etransitivity; [apply Sum_ext; intros t Ht|rewrite Sum_plus; f_equal].
    { etransitivity; [apply Sum_ext; intros v Hv|rewrite Sum_plus; reflexivity].
      etransitivity; [apply Sum_ext; intros x Hx|rewrite Sum_plus; reflexivity].
      etransitivity; [apply Sum_ext; intros y Hy|rewrite Sum_plus; reflexivity].
      etransitivity; [apply Sum_ext; intros z Hz; apply X|rewrite Sum_plus; reflexivity]. }
    clear X IH. set (I := fun (b : bool) => if b then 1 else 0).
    assert (A : forall b d, I (b && d) = I b * I d) by (intros [] []; unfold I; cbn; ring).
    assert (B : forall b : bool, (if b then w else 0) = w * I b) by (intros []; unfold I; ring).
    rewrite (Sum_ext (nt g) _ (fun t => I (in_bin (nt g) (tE g) t (p_t p)) *
      (w * (I (in_range (nv g) (vE g) (p_v p)) * I (in_range (nx g) (xE g) (p_x1 p)) *
       I (in_range (ny g) (yE g) (p_x2 p)) * I (in_range (nz g) (zE g) (p_z p)))))).
    { assert (T : Sum (nt g) (fun t => I (in_bin (nt g) (tE g) t (p_t p))) = I (in_range (nt g) (tE g) (p_t p)))
        by (destruct Hg; apply sel_sum; assumption).
      rewrite Sum_scal_r, T. unfold in_bounds. rewrite B, !A. ring. }
    intros t Ht.
    rewrite (Sum_ext (nv g) _ (fun v => I (in_bin (nv g) (vE g) v (p_v p)) *
      (w * I (in_bin (nt g) (tE g) t (p_t p)) * (I (in_range (nx g) (xE g) (p_x1 p)) *
       I (in_range (ny g) (yE g) (p_x2 p)) * I (in_range (nz g) (zE g) (p_z p)))))).
    { assert (T : Sum (nv g) (fun t => I (in_bin (nv g) (vE g) t (p_v p))) = I (in_range (nv g) (vE g) (p_v p)))
        by (destruct Hg; apply sel_sum; assumption).
      rewrite Sum_scal_r, T. ring. }
    intros v Hv.
    rewrite (Sum_ext (nx g) _ (fun x => I (in_bin (nx g) (xE g) x (p_x1 p)) *
      (w * I (in_bin (nt g) (tE g) t (p_t p)) * I (in_bin (nv g) (vE g) v (p_v p)) *
       (I (in_range (ny g) (yE g) (p_x2 p)) * I (in_range (nz g) (zE g) (p_z p)))))).
    { assert (T : Sum (nx g) (fun t => I (in_bin (nx g) (xE g) t (p_x1 p))) = I (in_range (nx g) (xE g) (p_x1 p)))
        by (destruct Hg; apply sel_sum; assumption).
      rewrite Sum_scal_r, T. ring. }
    intros x Hx.
    rewrite (Sum_ext (ny g) _ (fun y => I (in_bin (ny g) (yE g) y (p_x2 p)) *
      (w * I (in_bin (nt g) (tE g) t (p_t p)) * I (in_bin (nv g) (vE g) v (p_v p)) *
       (I (in_bin (nx g) (xE g) x (p_x1 p)) * I (in_range (nz g) (zE g) (p_z p)))))).
    { assert (T : Sum (ny g) (fun t => I (in_bin (ny g) (yE g) t (p_x2 p))) = I (in_range (ny g) (yE g) (p_x2 p)))
        by (destruct Hg; apply sel_sum; assumption).
      rewrite Sum_scal_r, T. ring. }
    intros y Hy.
    rewrite (Sum_ext (nz g) _ (fun z => I (in_bin (nz g) (zE g) z (p_z p)) *
      (w * I (in_bin (nt g) (tE g) t (p_t p)) * I (in_bin (nv g) (vE g) v (p_v p)) *
       (I (in_bin (nx g) (xE g) x (p_x1 p)) * I (in_bin (ny g) (yE g) y (p_x2 p)))))).
    { assert (T : Sum (nz g) (fun t => I (in_bin (nz g) (zE g) t (p_z p))) = I (in_range (nz g) (zE g) (p_z p)))
        by (destruct Hg; apply sel_sum; assumption).
      rewrite Sum_scal_r, T. ring. }
    intros z Hz. rewrite B. unfold inside. cbn [bt bv bx by_ bz]. rewrite !A. ring.
Qed.

Lemma hcount_ok pw i : in_grid g i ->
  hcount g (finw pw) [bt i; bv i; bx i; by_ i; bz i] = Fin (weight (inside g i) pw).
Proof.
  intros (H1 & H2 & H3 & H4 & H5). unfold hcount.
  apply Nat.ltb_lt in H1, H2, H3, H4, H5. rewrite H1, H2, H3, H4, H5. cbn [andb].
  rewrite (weight_ok (inside g (Bin (bt i) (bv i) (bx i) (by_ i) (bz i)))). destruct i; reflexivity.
Qed.
Lemma hcount_sum pw : nsum (map (hcount g (finw pw)) (all_idx (dims all_vars g))) = Fin (weight (in_bounds g) pw).
Proof.
  rewrite <- weight_total.
  rewrite (nsum_map_Fin _ (fun idx => weight (inside g (rd all_vars idx)) pw)).
  - f_equal. change (dims all_vars g) with [nt g; nv g; nx g; ny g; nz g].
    repeat (rewrite sum_all_idx_cons; apply Sum_ext; intros). rewrite sum_all_idx_nil. reflexivity.
  - intros idx Hi. apply in_all_idx in Hi. change (dims all_vars g) with [nt g; nv g; nx g; ny g; nz g] in Hi. inb_inv.
    apply (hcount_ok pw (Bin i i0 i1 i2 i3)). unfold in_grid; cbn; auto.
Qed.

Lemma hdens_ok dt dv dx dy dz pw i :
  vec dt (nt g) (wid (tE g)) -> vec dv (nv g) (wid (vE g)) -> vec dx (nx g) (wid (xE g)) ->
  vec dy (ny g) (wid (yE g)) -> vec dz (nz g) (wid (zE g)) -> in_grid g i ->
  ent (hdens g dt dv dx dy dz (finw pw)) [bt i; bv i; bx i; by_ i; bz i] =
  ndiv (Fin (weight (inside g i) pw / vol g all_vars i)) (Fin (weight (in_bounds g) pw)).
Proof.
  intros Dt Dv Dx Dy Dz Hi. unfold hdens. cbn [ent]. rewrite hcount_ok by exact Hi. rewrite hcount_sum.
  destruct Hi as (H1 & H2 & H3 & H4 & H5).
  rewrite (proj2 Dt) by exact H1. rewrite (proj2 Dv) by exact H2. rewrite (proj2 Dx) by exact H3.
  rewrite (proj2 Dy) by exact H4. rewrite (proj2 Dz) by exact H5.
  pose proof (wid_pos _ _ _ (gg_tE _ Hg) H1). pose proof (wid_pos _ _ _ (gg_vE _ Hg) H2).
  pose proof (wid_pos _ _ _ (gg_xE _ Hg) H3). pose proof (wid_pos _ _ _ (gg_yE _ Hg) H4).
  pose proof (wid_pos _ _ _ (gg_zE _ Hg) H5).
  rewrite !ndiv_Fin by lra. f_equal. f_equal. unfold vol. cbn. field. repeat split; lra.
Qed.

Lemma density_claim pw : 0 < weight (in_bounds g) pw ->
  exists comp, from_particle c (map fst pw) (Some (map Fin (map snd pw))) = Ok (note_of g (map fst pw), comp) /\
    comp_on comp g (particle_density g pw).
Proof.
  intros Hw. destruct fp_eq as (dt & dv & dx & dy & dz & Dt & Dv & Dx & Dy & Dz & F).
  specialize (F (finw pw)). rewrite finw_fst, finw_snd in F.
  eexists. split; [exact F|]. constructor; [exact Hc|reflexivity|].
  intros t v x y z H1 H2 H3 H4 H5. cbn [log_p_tvxz amap ent].
  f_equal. assert (Hi : in_grid g (Bin t v x y z)) by (unfold in_grid; cbn; auto).
  etransitivity; [exact (hdens_ok dt dv dx dy dz pw (Bin t v x y z) Dt Dv Dx Dy Dz Hi)|].
  rewrite ndiv_Fin by lra. f_equal. unfold particle_density, vol. cbn.
  pose proof (wid_pos _ _ _ (gg_tE _ Hg) H1). pose proof (wid_pos _ _ _ (gg_vE _ Hg) H2).
  pose proof (wid_pos _ _ _ (gg_xE _ Hg) H3). pose proof (wid_pos _ _ _ (gg_yE _ Hg) H4).
  pose proof (wid_pos _ _ _ (gg_zE _ Hg) H5). field. repeat split; lra.
Qed.
Lemma particle_density_nonneg pw : (forall q, In q pw -> 0 <= snd q) -> 0 < weight (in_bounds g) pw ->
  nonneg g (particle_density g pw).
Proof.
  intros Hp Hw t v x y z H1 H2 H3 H4 H5. unfold particle_density.
  pose proof (wid_pos _ _ _ (gg_tE _ Hg) H1). pose proof (wid_pos _ _ _ (gg_vE _ Hg) H2).
  pose proof (wid_pos _ _ _ (gg_xE _ Hg) H3). pose proof (wid_pos _ _ _ (gg_yE _ Hg) H4).
  pose proof (wid_pos _ _ _ (gg_zE _ Hg) H5). pose proof (weight_nonneg (inside g (Bin t v x y z)) pw Hp).
  unfold Rdiv. repeat apply Rmult_le_pos; try assumption; left; apply Rinv_0_lt_compat; [assumption|].
  repeat apply Rmult_lt_0_compat; assumption.
Qed.

Lemma fraction_claim pw : (forall q, In q pw -> 0 <= snd q) -> 0 < weight (in_bounds g) pw ->
  exists note comp p, from_particle c (map fst pw) (Some (map Fin (map snd pw))) = Ok (note, comp) /\
    get_p comp "tvxz" false false = Ok p /\ shp p = [nt g; nv g; nx g; ny g; nz g] /\
    (forall i, in_grid g i ->
       ent p [bt i; bv i; bx i; by_ i; bz i] = Fin (weight (inside g i) pw / weight (in_bounds g) pw)) /\
    nsum (map (ent p) (all_idx (shp p))) = Fin 1.
Proof.
  intros Hp Hw. destruct (density_claim pw Hw) as (comp & E & Hcomp).
  destruct (marg_mass_claim comp g _ all_vars Hcomp Hg (particle_density_nonneg pw Hp Hw) eq_refl) as (p & Ep & Sp & Hv).
  exists (note_of g (map fst pw)), comp, p. split; [exact E|]. split; [exact Ep|]. split; [exact Sp|].
  assert (V : forall i, in_grid g i ->
       ent p [bt i; bv i; bx i; by_ i; bz i] = Fin (weight (inside g i) pw / weight (in_bounds g) pw)).
  { intros i Hi. specialize (Hv i Hi). change (coords all_vars i) with [bt i; bv i; bx i; by_ i; bz i] in Hv.
    rewrite Hv. f_equal. rewrite marg_all. unfold mass, particle_density.
    destruct i as [t v x y z]. destruct Hi as (H1 & H2 & H3 & H4 & H5). cbn [bt bv bx by_ bz] in *.
    pose proof (wid_pos _ _ _ (gg_tE _ Hg) H1). pose proof (wid_pos _ _ _ (gg_vE _ Hg) H2).
    pose proof (wid_pos _ _ _ (gg_xE _ Hg) H3). pose proof (wid_pos _ _ _ (gg_yE _ Hg) H4).
    pose proof (wid_pos _ _ _ (gg_zE _ Hg) H5). unfold vol; cbn. field. repeat split; lra. }
  split; [exact V|]. rewrite Sp.
  rewrite (nsum_map_Fin _ (fun idx => weight (inside g (rd all_vars idx)) pw * / weight (in_bounds g) pw)).
  - f_equal. change (dims all_vars g) with [nt g; nv g; nx g; ny g; nz g].
    transitivity (weight (in_bounds g) pw * / weight (in_bounds g) pw); [|field; lra].
    rewrite <- weight_total at 1. rewrite <- Sum_scal_r.
    do 4 (rewrite sum_all_idx_cons; apply Sum_ext; intros; rewrite <- Sum_scal_r).
    rewrite sum_all_idx_cons; apply Sum_ext; intros. rewrite sum_all_idx_nil. reflexivity.
  - intros idx Hi. apply in_all_idx in Hi. change (dims all_vars g) with [nt g; nv g; nx g; ny g; nz g] in Hi. inb_inv.
    apply (V (Bin i i0 i1 i2 i3)). unfold in_grid; cbn; auto.
Qed.

Lemma scale_claim pw k : 0 < k ->
  from_particle c (map fst pw) (Some (map Fin (map snd pw))) =
  from_particle c (map fst pw) (Some (map Fin (map (fun q => k * snd q) pw))).
Proof.
  intros Hk. destruct fp_eq as (dt & dv & dx & dy & dz & Dt & Dv & Dx & Dy & Dz & F).
  pose proof (F (finw pw)) as F1. rewrite finw_fst, finw_snd in F1. rewrite F1. clear F1.
  set (pk := map (fun q => (fst q, k * snd q)) pw).
  pose proof (F (finw pk)) as F2. rewrite finw_fst, finw_snd in F2.
  assert (P1 : map fst pk = map fst pw) by (unfold pk; rewrite map_map; reflexivity).
  assert (P2 : map snd pk = map (fun q => k * snd q) pw) by (unfold pk; rewrite map_map; reflexivity).
  rewrite P1, P2 in F2. rewrite F2. clear F2. do 4 f_equal.
  assert (W : forall P, weight P pk = k * weight P pw).
  { intros P. unfold pk. clear. induction pw as [|q l IH]; cbn [map]; [rewrite !weight_nil; ring|]. rewrite !weight_cons, IH. cbn [fst snd]. destruct (P (fst q)); ring. }
  unfold hdens. f_equal. apply functional_extensionality. intros idx.
  destruct idx as [|a [|b [|d [|e [|f [|]]]]]]; try reflexivity.
  destruct (Nat.ltb a (nt g) && Nat.ltb b (nv g) && Nat.ltb d (nx g) && Nat.ltb e (ny g) && Nat.ltb f (nz g)) eqn:B.
  - rewrite !andb_true_iff, !Nat.ltb_lt in B. destruct B as [[[[B1 B2] B3] B4] B5].
    assert (Hi : in_grid g (Bin a b d e f)) by (unfold in_grid; cbn; auto).
    pose proof (hdens_ok dt dv dx dy dz pw _ Dt Dv Dx Dy Dz Hi) as X. pose proof (hdens_ok dt dv dx dy dz pk _ Dt Dv Dx Dy Dz Hi) as Y.
    unfold hdens in X, Y. cbn [ent bt bv bx by_ bz] in X, Y. rewrite X, Y, !W.
    assert (Vp : 0 < vol g all_vars (Bin a b d e f)) by (apply vol_pos; assumption).
    set (A := weight (inside g _) pw). set (T := weight (in_bounds g) pw). set (V := vol g all_vars _) in *.
    unfold ndiv. destruct (Req_EM_T T 0) as [->|Ht].
    + destruct (Req_EM_T (k * 0) 0) as [|N]; [|elim N; ring].
      assert (Q : k * A / V = k * (A / V)) by (field; lra). rewrite Q. generalize (A / V). intros q. unfold inf_of_sign.
      destruct (Rtotal_order q 0) as [N|[->|N]].
      * pose proof (Rmult_lt_compat_l k q 0 Hk N) as M. rewrite Rmult_0_r in M.
        destruct (Rlt_dec 0 q), (Rlt_dec 0 (k * q)), (Rlt_dec q 0), (Rlt_dec (k * q) 0); reflexivity || lra.
      * rewrite Rmult_0_r. reflexivity.
      * pose proof (Rmult_lt_0_compat k q Hk N) as M.
        destruct (Rlt_dec 0 q), (Rlt_dec 0 (k * q)), (Rlt_dec q 0), (Rlt_dec (k * q) 0); reflexivity || lra.
    + destruct (Req_EM_T (k * T) 0) as [N|_]; [apply Rmult_integral in N; lra|]. f_equal. field. repeat split; lra.
  - unfold hcount. rewrite B. reflexivity.
Qed.

Lemma none_claim ps : from_particle c ps None = from_particle c ps (Some (repeat (Fin 1) (List.length ps))).
Proof. unfold from_particle, histogramdd. rewrite repeat_length, Nat.eqb_refl. destruct ps; reflexivity. Qed.
(** without particles the weights are not looked at *)
Lemma unread_claim w : from_particle c [] w = from_particle c [] None.
Proof. destruct w; reflexivity. Qed.
Lemma length_claim ps w : ps <> [] -> List.length w <> List.length ps -> from_particle c ps (Some w) = Err ValueError.
Proof.
  intros Hn H. destruct fp_eq as (dt & dv & dx & dy & dz & Dt & Dv & Dx & Dy & Dz & F).
  set (l := map (fun p => (p, Fin 1)) ps). specialize (F l). unfold l in F at 1. rewrite map_map in F. cbn [fst] in F. rewrite map_id in F.
  assert (Hz : Nat.eqb (List.length ps) 0 = false) by (destruct ps; [contradiction|reflexivity]).
  apply Nat.eqb_neq in H. revert F. unfold from_particle, histogramdd.
  destruct (get_variable_edges c "t"); [|discriminate]. destruct (get_variable_edges c "v"); [|discriminate].
  destruct (get_variable_edges c "x1"); [|discriminate]. destruct (get_variable_edges c "x2"); [|discriminate].
  destruct (get_variable_edges c "z"); [|discriminate]. cbn [bind].
  repeat match goal with |- context [bind (edge_lo ?e) _] => destruct (edge_lo e); [|discriminate]; cbn [bind]
                       | |- context [bind (edge_hi ?e) _] => destruct (edge_hi e); [|discriminate]; cbn [bind] end.
  cbn [e_t e_v e_x1 e_x2 e_z]. rewrite Hz, H.
  match goal with |- context [if ?b then _ else Err ValueError] => destruct b end; intros _; reflexivity.
Qed.

(** ** no weight on the grid *)
Lemma empty_claim pw : (forall q, In q pw -> 0 <= snd q) -> weight (in_bounds g) pw = 0 ->
  exists comp, from_particle c (map fst pw) (Some (map Fin (map snd pw))) = Ok (note_of g (map fst pw), comp) /\
    comp_cube comp = c /\ arr_is (log_p_tvxz comp) (dims all_vars g) (fun _ => NaN).
Proof.
  intros Hp Hw. destruct fp_eq as (dt & dv & dx & dy & dz & Dt & Dv & Dx & Dy & Dz & F).
  specialize (F (finw pw)). rewrite finw_fst, finw_snd in F.
  eexists. split; [exact F|]. split; [reflexivity|]. split; [reflexivity|].
  intros idx Hi. change (dims all_vars g) with [nt g; nv g; nx g; ny g; nz g] in Hi. inb_inv.
  assert (Hb : in_grid g (Bin i i0 i1 i2 i3)) by (unfold in_grid; cbn; auto).
  cbn [log_p_tvxz amap ent]. etransitivity; [apply f_equal; exact (hdens_ok dt dv dx dy dz pw (Bin i i0 i1 i2 i3) Dt Dv Dx Dy Dz Hb)|].
  assert (W : weight (inside g (Bin i i0 i1 i2 i3)) pw = 0).
  { assert (0 <= weight (inside g (Bin i i0 i1 i2 i3)) pw) by (apply weight_nonneg, Hp).
    assert (weight (inside g (Bin i i0 i1 i2 i3)) pw <= weight (in_bounds g) pw); [|lra].
    clear - Hp Hg Hb. induction pw as [|q l IH]; [rewrite !weight_nil; lra|]. rewrite !weight_cons.
    pose proof (Hp q (or_introl eq_refl)). specialize (IH (fun q' h => Hp q' (or_intror h))).
    destruct (inside g (Bin i i0 i1 i2 i3) (fst q)) eqn:X.
    - rewrite (inside_bounds _ _ Hb X). lra.
    - destruct (in_bounds g (fst q)); lra. }
  rewrite W, Hw. unfold Rdiv. rewrite Rmult_0_l. unfold ndiv. destruct (Req_EM_T 0 0); [|lra]. unfold inf_of_sign.
  destruct (Rlt_dec 0 0); [lra|]. reflexivity.
Qed.
End Fp.

(** ** forms used by the claims *)
(** for each variable the numbers of particles below and above the grid *)
Definition below (E0 : R) (x : num) : bool := match x with Fin r => Rltb r E0 | NInf => true | _ => false end.
Definition above (E1 : R) (x : num) : bool := match x with Fin r => Rltb E1 r | PInf => true | _ => false end.
Definition note_lo_hi (g : grid) (ps : list particle) : list (nat * nat) :=
  map (fun q : (particle -> num) * (R * R) => let '(get, (lo, hi)) := q in
        (List.length (filter (fun p => below lo (get p)) ps), List.length (filter (fun p => above hi (get p)) ps)))
    [(p_t, (tE g 0, tE g (nt g))); (p_v, (vE g 0, vE g (nv g))); (p_x1, (xE g 0, xE g (nx g)));
     (p_x2, (yE g 0, yE g (ny g))); (p_z, (zE g 0, zE g (nz g)))]%nat.

Lemma below_eq E0 x : nlt x (Fin E0) = below E0 x. Proof. destruct x; reflexivity. Qed.
Lemma above_eq E1 x : nlt (Fin E1) x = above E1 x. Proof. destruct x; reflexivity. Qed.

Lemma note_claim c g pw : cube_on c g -> good_grid g ->
  exists note comp, from_particle c (map fst pw) (Some (map snd pw)) = Ok (note, comp) /\
    n_total note = List.length pw /\
    n_lost note = List.length (filter (fun p => negb (in_bounds g p)) (map fst pw)) /\
    lost_lo_hi note = note_lo_hi g (map fst pw).
Proof.
  intros Hc Hg. destruct (fp_eq c g Hc Hg) as (dt & dv & dx & dy & dz & _ & _ & _ & _ & _ & F).
  do 2 eexists. split; [apply F|]. split; [cbn; apply map_length|]. split; [reflexivity|].
  unfold note_of, note_lo_hi, count. cbn [lost_lo_hi map].
  repeat (f_equal; [f_equal; f_equal; apply filter_ext; intros p; first [apply below_eq|apply above_eq]|]). reflexivity.
Qed.

Lemma nan_claim c g pw : cube_on c g -> good_grid g ->
  (forall q, In q pw -> 0 <= snd q) -> weight (in_bounds g) pw = 0 ->
  exists note comp, from_particle c (map fst pw) (Some (map Fin (map snd pw))) = Ok (note, comp) /\
    (forall S density lw, nonempty S = true ->
      exists p, get_p comp (name S) density lw = Ok p /\ shp p = dims S g /\
        forall i, in_grid g i -> ent p (coords S i) = NaN) /\
    (forall A C density lw, nonempty A = true -> nonempty C = true -> disjoint A C = true ->
      exists p, get_p comp (cname A C) density lw = Ok p /\ shp p = (dims A g ++ dims C g)%list /\
        forall i, in_grid g i -> ent p (coords A i ++ coords C i) = NaN).
Proof.
  intros Hc Hg Hp Hw. destruct (empty_claim c g Hc Hg pw Hp Hw) as (comp & E & Ec & Hn).
  exists (note_of g (map fst pw)), comp. split; [exact E|]. rewrite <- Ec in Hc.
  split; intros; [apply nan_claim_marg|apply nan_claim_cond]; assumption.
Qed.
