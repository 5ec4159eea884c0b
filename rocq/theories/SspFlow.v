(** * SspFlow: from a directory of template files to the arrays used by a cube. *)
From Coq Require Import Reals Lra Lia List Bool Arith ZArith String Sorted.
From Verif Require Import Num NumLemmas Arr ArrLemmas PyStr Cube Spec SpecLemmas Repr CubeGeom ReadMiles MilesSpec MilesLemmas
  MilesLemmas2 MilesLemmas3 MilesClaims Fft Ssps VecLemmas SspLemmas SspClaims.
Import ListNotations.
Local Open Scope R_scope.

Lemma kept_det {A} (P : A -> Prop) l a b : kept P l a -> kept P l b -> a = b.
Proof.
  intros H; revert b. induction H as [|x l l' Hx _ IH|x l l' Hx _ IH]; intros b Hb; inversion Hb; subst; try contradiction; auto.
  f_equal. auto.
Qed.
Lemma kept_map {A B} (P : A -> Prop) (Q : B -> Prop) (f : A -> B) l a : (forall x, P x <-> Q (f x)) ->
  kept P l a -> kept Q (map f l) (map f a).
Proof.
  intros H. induction 1 as [|x l l' Hx _ IH|x l l' Hx _ IH]; cbn [map]; [constructor| |].
  - apply kept_yes; [apply H; exact Hx|exact IH].
  - apply kept_no; [intros Q'; apply Hx, H; exact Q'|exact IH].
Qed.
Lemma kept_in {A} (P : A -> Prop) l a x : kept P l a -> In x a -> In x l.
Proof. induction 1; cbn; intuition. Qed.
Lemma map_combine_snd {A B C} (h : B -> C) (l : list A) (m : list B) :
  map (fun r => (fst r, h (snd r))) (combine l m) = combine l (map h m).
Proof. revert m; induction l as [|a l IH]; intros [|b m]; cbn; congruence. Qed.

Lemma column_rows x n p c : (c < p)%nat -> map (fun r => nth c r NaN) (rows x n p) = map (fun i => ent x [i; c]) (seq 0 n).
Proof.
  intros Hc. unfold rows. rewrite map_map. apply map_ext. intros i. unfold row.
  rewrite (nth_indep _ NaN (ent x [i; O])) by (rewrite map_length, seq_length; exact Hc).
  rewrite (map_nth (fun j => ent x [i; j])), seq_nth by exact Hc. reflexivity.
Qed.
Lemma seq_column (x : arr num) n c s : List.length s = n -> (forall i, (i < n)%nat -> ent x [i; c] = nth i s NaN) ->
  map (fun i => ent x [i; c]) (seq 0 n) = s.
Proof.
  intros Hl H. apply nth_ext with NaN NaN; [rewrite map_length, seq_length; symmetry; exact Hl|].
  intros i Hi. rewrite map_length, seq_length in Hi.
  rewrite (nth_indep _ NaN (ent x [O; c])) by (rewrite map_length, seq_length; exact Hi).
  rewrite (map_nth (fun i => ent x [i; c])), seq_nth by exact Hi. apply H. exact Hi.
Qed.

(** the spectrum [s] restricted to the requested wavelengths *)
Definition restricted (lo hi : option R) (s : list num) (W : list R) (s' : list num) : Prop :=
  List.length s' = List.length W /\
  kept (fun r => in_request lo hi (fst r)) (combine default_lmd s) (combine W s').

Definition finite (s : list num) : Prop := Forall (fun v => exists r, v = Fin r) s.
Definition real_of (v : num) : R := match v with Fin r => r | _ => 0 end.
Lemma finite_nth s i : finite s -> (i < List.length s)%nat -> nth i s NaN = Fin (real_of (nth i s NaN)).
Proof.
  intros H Hi. unfold finite in H. rewrite Forall_forall in H. destruct (H (nth i s NaN) (nth_In s NaN Hi)) as (r & ->). reflexivity.
Qed.

(** the files of the directory fill the grid of metallicities zs and ages ts *)
Lemma file_at K zu tu iz it : distinct_sorted (map file_z K) zu -> distinct_sorted (map file_t K) tu -> full_grid K ->
  (iz < List.length zu)%nat -> (it < List.length tu)%nat ->
  exists f, In f K /\ file_z f = nth iz zu 0 /\ file_t f = nth it tu 0.
Proof.
  intros [Hz _] [Ht _] Fg Hiz Hit.
  assert (Iz := nth_In zu 0 Hiz). apply Hz, in_map_iff in Iz. destruct Iz as (f & Ef & If).
  assert (It := nth_In tu 0 Hit). apply Ht, in_map_iff in It. destruct It as (h & Eh & Ih).
  destruct (Fg f h If Ih) as (k & Ik & Kz & Kt & _). exists k. split; [exact Ik|]. split; congruence.
Qed.

Lemma default_lmd_nth i : (i < List.length default_lmd)%nat -> nth i default_lmd 0 = 3540.5 + INR i * 0.9.
Proof.
  intros Hi. unfold default_lmd, arange in *. rewrite map_length, seq_length in Hi.
  set (h := fun i => 3540.5 + INR i * 0.9). rewrite (nth_indep _ 0 (h O)) by (rewrite map_length, seq_length; exact Hi).
  rewrite (map_nth h), seq_nth by exact Hi. reflexivity.
Qed.
Lemma default_lmd_sorted : StronglySorted Rlt default_lmd.
Proof.
  unfold default_lmd, arange. generalize (Z.to_nat (ceil ((7409.6 + 0.9 - 3540.5) / 0.9))). intros n. generalize 0%nat.
  induction n as [|n IH]; intros a; cbn [seq map]; constructor; [apply IH|].
  rewrite Forall_forall. intros w Hw. apply in_map_iff in Hw. destruct Hw as (j & <- & Hj). apply in_seq in Hj.
  assert (INR (S a) <= INR j) by (apply le_INR; lia). rewrite S_INR in H. lra.
Qed.
Lemma default_lmd_pos w : In w default_lmd -> 0 < w.
Proof.
  unfold default_lmd, arange. intros Hw. apply in_map_iff in Hw. destruct Hw as (j & <- & _). pose proof (pos_INR j). lra.
Qed.
Lemma kept_sorted P l a : kept P l a -> StronglySorted Rlt l -> StronglySorted Rlt a.
Proof.
  induction 1 as [|x l l' Hx K IH|x l l' Hx K IH]; intros S; [constructor| |]; inversion S; subst; [|auto].
  constructor; [auto|]. rewrite Forall_forall in *. intros y Hy. apply H2. eapply kept_in; eassumption.
Qed.

Lemma read_claim d fs al zl lo hi K : holds d fs -> given al zl -> limited al zl fs K -> K <> [] -> full_grid K ->
  readable d K (List.length default_lmd) ->
  (forall f s, In f K -> fits_data d (file_name f) = Ok s -> finite s) ->
  ~ below_all lo default_lmd -> ~ above_all hi default_lmd ->
  exists m0 m zs ts W X, init d (Some "MILES_BASTI_CH_baseFe"%string) al zl 1 1 = (d, Ok m0) /\
    truncate_wavelengths m0 lo hi = Ok m /\
    distinct_sorted (map file_z K) zs /\ distinct_sorted (map file_t K) ts /\
    kept (in_request lo hi) default_lmd W /\ lmd m = W /\
    reads m (List.length W) (List.length zs) (List.length ts) (fun i => nth i zs 0) (fun i => nth i ts 0) X /\
    (forall f s z t, In f K -> fits_data d (file_name f) = Ok s -> (z < List.length zs)%nat -> (t < List.length ts)%nat ->
       file_z f = nth z zs 0 -> file_t f = nth t ts 0 ->
       restricted lo hi s W (map (fun l => Fin (X l z t)) (seq 0 (List.length W)))).
Proof.
  intros Hd Hg HK Hne Fg Hr Hf Nlo Nhi.
  destruct (column_claim d fs "MILES_BASTI_CH_baseFe"%string al zl 1 1 K K Hd ltac:(discriminate) ltac:(lia) ltac:(lia) Hg HK (thinned_1 K)
              Hne Fg Hr) as (m0 & x & E0 & Ex & Hdesc & Dz & Dt & Nz & Nt & El & Es & Hcol).
  assert (Ll : default_lmd <> []).
  { intros Q. pose proof default_lmd_length as L. rewrite Q in L. discriminate. }
  assert (Es' : shp x = [List.length (lmd m0); (m_nz m0 * m_nt m0)%nat]) by (rewrite El; exact Es).
  destruct (truncate_ok m0 lo hi x (m_nz m0 * m_nt m0)) as (m & x' & E1 & Ex' & Es1 & Hk & _ & Uz & Ut & Mz & Mt);
    [rewrite El; exact Ll|exact Ex|exact Es'|rewrite El; exact Nlo|rewrite El; exact Nhi|].
  rewrite El in Hk. set (N := List.length default_lmd) in *. set (W := lmd m) in *. set (p := (m_nz m0 * m_nt m0)%nat) in *.
  set (nz := List.length (z_unq m0)) in *. set (nt := List.length (t_unq m0)) in *.
  assert (Hp : p = (nz * nt)%nat) by (subst p; rewrite Nz, Nt; reflexivity).
  (* wavelengths *)
  assert (KW : kept (in_request lo hi) default_lmd W).
  { assert (K1 := kept_map _ (in_request lo hi) fst _ _ (fun x => iff_refl _) Hk).
    rewrite !map_fst_combine in K1 by (rewrite rows_length; reflexivity). exact K1. }
  (* columns *)
  assert (C : forall f s z t, In f K -> fits_data d (file_name f) = Ok s -> (z < nz)%nat -> (t < nt)%nat ->
     file_z f = nth z (z_unq m0) 0 -> file_t f = nth t (t_unq m0) 0 ->
     List.length s = N /\
     kept (fun r => in_request lo hi (fst r)) (combine default_lmd s)
          (combine W (map (fun i => ent x' [i; (z * nt + t)%nat]) (seq 0 (List.length W))))).
  { intros f s z t If Hs Hz Ht Fz Ft. destruct (Hr f If) as (s' & Hs' & Ls). assert (s' = s) by congruence. subst s'.
    split; [exact Ls|].
    assert (Hc : (z * nt + t < p)%nat) by (rewrite Hp; nia).
    assert (K1 := kept_map _ (fun r : R * num => in_request lo hi (fst r)) (fun r => (fst r, nth (z * nt + t) (snd r) NaN)) _ _
                    (fun x => iff_refl _) Hk).
    rewrite !(map_combine_snd (fun r => nth (z * nt + t) r NaN)), !column_rows in K1 by exact Hc.
    rewrite (seq_column x N (z * nt + t) s Ls) in K1; [exact K1|].
    intros i Hi. rewrite <- (Hcol f s z t If Hs); [rewrite Nt; reflexivity|rewrite Nz; exact Hz|rewrite Nt; exact Ht|symmetry; exact Fz|symmetry; exact Ft|exact Hi]. }
  exists m0, m, (z_unq m0), (t_unq m0), W, (fun l z t => real_of (ent x' [l; (z * nt + t)%nat])).
  assert (FinX : forall l z t, (l < List.length W)%nat -> (z < nz)%nat -> (t < nt)%nat ->
     ent x' [l; (z * nt + t)%nat] = Fin (real_of (ent x' [l; (z * nt + t)%nat]))).
  { intros l z t Hl Hz Ht. destruct (file_at K _ _ z t Dz Dt Fg Hz Ht) as (f & If & Fz & Ft).
    destruct (Hr f If) as (s & Hs & Ls). destruct (C f s z t If Hs Hz Ht Fz Ft) as [_ K1].
    assert (I : In (ent x' [l; (z * nt + t)%nat]) s).
    { assert (I1 : In (nth l W 0, ent x' [l; (z * nt + t)%nat]) (combine W (map (fun i => ent x' [i; (z * nt + t)%nat]) (seq 0 (List.length W))))).
      { set (v := map (fun i => ent x' [i; (z * nt + t)%nat]) (seq 0 (List.length W))).
        assert (Lv : List.length W = List.length v) by (subst v; rewrite map_length, seq_length; reflexivity).
        replace (ent x' [l; (z * nt + t)%nat]) with (nth l v NaN).
        - rewrite <- combine_nth by exact Lv. apply nth_In. rewrite combine_length, <- Lv. lia.
        - subst v. rewrite (nth_indep _ NaN (ent x' [O; (z * nt + t)%nat])) by (rewrite map_length, seq_length; exact Hl).
          rewrite (map_nth (fun i => ent x' [i; (z * nt + t)%nat])), seq_nth by exact Hl. reflexivity. }
      apply (kept_in _ _ _ _ K1) in I1. apply in_combine_r in I1. exact I1. }
    specialize (Hf f s If Hs). unfold finite in Hf. rewrite Forall_forall in Hf. destruct (Hf _ I) as (r & ->). reflexivity. }
  split; [exact E0|]. split; [exact E1|]. split; [exact Dz|]. split; [exact Dt|]. split; [exact KW|]. split; [reflexivity|]. split.
  - split.
    + rewrite Uz. split; reflexivity.
    + rewrite Ut. split; reflexivity.
    + rewrite Mz, Mt, Nz, Nt. split; reflexivity.
    + reflexivity.
    + exists x'. split; [exact Ex'|]. split; [rewrite Es1, Hp; reflexivity|]. exact FinX.
  - intros f s z t If Hs Hz Ht Fz Ft. destruct (C f s z t If Hs Hz Ht Fz Ft) as [_ K1].
    split; [rewrite map_length, seq_length; reflexivity|].
    replace (map (fun l => Fin (real_of (ent x' [l; (z * nt + t)%nat]))) (seq 0 (List.length W)))
      with (map (fun i => ent x' [i; (z * nt + t)%nat]) (seq 0 (List.length W))); [exact K1|].
    apply map_ext_in. intros l Hl. apply in_seq in Hl. apply FinX; [lia|exact Hz|exact Ht].
Qed.

(** ** resampling *)
Lemma ceil_pos x : 0 < x -> (0 < ceil x)%Z.
Proof. intros Hx. unfold ceil. destruct (archimed (- x)) as [_ H]. assert (up (- x) < 1)%Z; [|lia]. apply lt_IZR. lra. Qed.

Lemma resample_ok spline dv g nL nz nt zE tE F : templates_on g nL nz nt zE tE F -> 0 < dv ->
  (4 <= List.length (g_lmd g))%nat -> StronglySorted Rlt (g_lmd g) -> (forall w, In w (g_lmd g) -> 0 < w) ->
  exists s, resample spline dv g = Ok s /\ (0 < n_fft s)%nat /\ shp (Xw s) = [n_fft s; (nz * nt)%nat] /\
    shp (FXw s) = [(n_fft s / 2 + 1)%nat; (nz * nt)%nat] /\ ssp_dv s = Fin dv /\
    vec (par_edges_z s) (S nz) zE /\ vec (par_edges_t s) (S nt) tE /\
    vec (par_cents_z s) nz (mid zE) /\ vec (par_cents_t s) nt (mid tE) /\
    vec (delta_z s) nz (wid zE) /\ vec (delta_t s) nt (wid tE) /\ par_dims s = (nz, nt) /\
    shp (light_weights s) = [nt; nz] /\
    (forall t z, (t < nt)%nat -> (z < nz)%nat -> ent (light_weights s) [t; z] = Fin (Sum nL (fun l => F l z t))).
Proof.
  intros Hg Hdv Hlen Hs Hpos. unfold resample. set (w_in := map ln (g_lmd g)).
  destruct (g_lmd g) as [|w0 [|w1 rest]] eqn:El; [cbn in Hlen; lia|cbn in Hlen; lia|].
  unfold np_min, np_max. subst w_in. cbn [map bind].
  set (lo := fold_left Rmin _ _). set (hi := fold_left Rmax _ _).
  destruct (fold_min_le (ln w1 :: map ln rest) (ln w0)) as [M1 _]. destruct (fold_max_le (ln w1 :: map ln rest) (ln w0)) as [M2 _].
  fold lo in M1. fold hi in M2.
  assert (Llt : lo < hi).
  { specialize (M1 (ln w0) ltac:(left; reflexivity)). specialize (M2 (ln w1) ltac:(right; left; reflexivity)).
    assert (ln w0 < ln w1).
    { apply ln_increasing; [apply Hpos; left; reflexivity|]. inversion Hs; subst. rewrite Forall_forall in H2. apply H2. left. reflexivity. }
    lra. }
  clearbody lo hi.
  replace (List.length (ln w0 :: ln w1 :: map ln rest)) with (List.length (w0 :: w1 :: rest)) by (cbn; rewrite map_length; reflexivity).
  destruct (Nat.ltb_spec (List.length (w0 :: w1 :: rest)) 4) as [Q|_]; [lia|].
  assert (Hdw : 0 < dv / speed_of_light) by (unfold speed_of_light; lra).
  destruct (Reqb (dv / speed_of_light) 0) eqn:Q; [apply Reqb_true in Q; lra|]. clear Q.
  assert (Hw : (0 < List.length (arange lo hi (dv / speed_of_light)))%nat).
  { unfold arange. rewrite map_length, seq_length.
    assert (0 < ceil ((hi - lo) / (dv / speed_of_light)))%Z; [|lia].
    apply ceil_pos. apply Rmult_lt_0_compat; [lra|apply Rinv_0_lt_compat; exact Hdw]. }
  set (w := arange lo hi (dv / speed_of_light)) in *. clearbody w.
  assert (Lt : len0 (T (g_X g)) = (nz * nt)%nat).
  { unfold len0, T. cbn [shp]. rewrite (to_xs _ _ _ _ _ _ _ Hg). reflexivity. }
  rewrite Lt. unfold rfft. destruct (Nat.eqb_spec (List.length w) 0) as [Q|_]; [lia|].
  cbn [T shp rev app bind]. destruct (light_claim _ _ _ _ _ _ _ Hg) as (lw & -> & Hl1 & Hl2). cbn [bind].
  eexists; split; [reflexivity|]. cbn [n_fft Xw FXw ssp_dv par_edges_z par_edges_t par_cents_z par_cents_t delta_z delta_t par_dims light_weights shp T set_last removelast rev app].
  split; [exact Hw|]. split; [reflexivity|]. split; [reflexivity|]. split; [reflexivity|].
  destruct Hg as [A B C D E G H I J]. repeat (split; [assumption|]). exact Hl2.
Qed.

(** grid of a cube whose SSP part is given and whose spatial and velocity parts are those of g *)
Definition with_ssps (g : grid) (nz' nt' : nat) (zE' tE' : nat -> R) (L : nat -> nat -> R) : grid :=
  Grid nt' (nv g) (nx g) (ny g) nz' tE' (vE g) (xE g) (yE g) zE' L.

Lemma flow_claim d fs al zl lo hi K dv spline ka kz zs ts W (g0 : grid) : holds d fs -> given al zl -> limited al zl fs K -> K <> [] -> full_grid K ->
  readable d K (List.length default_lmd) ->
  (forall f s, In f K -> fits_data d (file_name f) = Ok s -> finite s) ->
  ~ below_all lo default_lmd -> ~ above_all hi default_lmd ->
  distinct_sorted (map file_z K) zs -> distinct_sorted (map file_t K) ts -> kept (in_request lo hi) default_lmd W ->
  (2 <= List.length zs)%nat -> (2 <= List.length ts)%nat -> (4 <= List.length W)%nat ->
  (Z.of_nat (List.length zs) * Z.of_nat (List.length ts) <= 100000)%Z ->
  edges_below (List.length zs) (fun i => nth i zs 0) -> edges_below (List.length ts) (fun i => nth i ts 0) ->
  (0 < ka)%nat -> (0 < kz)%nat -> 0 < dv ->
  exists mg s nz' nt' zE' tE' L, miles_ssps d lo hi al zl ka kz = (d, Ok mg) /\ resample spline dv mg = Ok s /\
    ssps_on s (with_ssps g0 nz' nt' zE' tE' L) /\
    increasing nz' zE' /\ increasing nt' tE' /\
    (ka = 1%nat -> kz = 1%nat -> nz' = List.length zs /\ nt' = List.length ts /\
      forall f sp z t, In f K -> fits_data d (file_name f) = Ok (map Fin sp) -> (z < nz')%nat -> (t < nt')%nat ->
        file_z f = nth z zs 0 -> file_t f = nth t ts 0 ->
        zE' z < file_z f < zE' (S z) /\ tE' t < file_t f < tE' (S t) /\
        exists A, kept (fun r => in_request lo hi (fst r)) (combine default_lmd sp) A /\ L t z = sumR (map snd A)).
Proof.
  intros Hd Hg HK Hne Fg Hr Hf Nlo Nhi Dz Dt KW Hnz Hnt HW Hbig Bz Bt Hka Hkz Hdv.
  destruct (read_claim d fs al zl lo hi K Hd Hg HK Hne Fg Hr Hf Nlo Nhi)
    as (m0 & m & zs' & ts' & W' & X & E0 & E1 & Dz' & Dt' & KW' & El & Hrd & Hcol).
  assert (zs' = zs) as -> by (transitivity (unique (map file_z K)); [|symmetry]; apply distinct_sorted_unique; assumption).
  assert (ts' = ts) as -> by (transitivity (unique (map file_t K)); [|symmetry]; apply distinct_sorted_unique; assumption).
  assert (W' = W) as -> by (eapply kept_det; eassumption).
  set (nz := List.length zs) in *. set (nt := List.length ts) in *.
  assert (Tz : template_values nz (fun i => nth i zs 0)) by (intros i Hi; apply (proj2 Dz); [lia|exact Hi]).
  assert (Tt : template_values nt (fun i => nth i ts 0)) by (intros i Hi; apply (proj2 Dt); [lia|exact Hi]).
  destruct (build_ok m (List.length W) nz nt _ _ X ka kz Hnz Hnt ltac:(lia) Hka Hkz Hbig Hrd Tz Tt Bz Bt) as (mg & E2 & Hmg & _ & Hl).
  destruct (edges_of_increasing nz _ Hnz Tz Bz) as [Iz Inz]. destruct (edges_of_increasing nt _ Hnt Tt Bt) as [It Int].
  assert (SW : StronglySorted Rlt (g_lmd mg)) by (rewrite Hl, El; eapply kept_sorted; [exact KW|exact default_lmd_sorted]).
  destruct (resample_ok spline dv mg _ _ _ _ _ _ Hmg Hdv) as (s & E3 & _ & _ & _ & _ & S1 & S2 & S3 & S4 & S5 & S6 & S7 & S8 & S9);
    [rewrite Hl, El; exact HW|exact SW|rewrite Hl, El; intros w Hw; apply default_lmd_pos; eapply kept_in; eassumption|].
  exists mg, s, (merged kz nz), (merged ka nt), (merged_edges kz nz (edges_of nz (fun i => nth i zs 0))),
    (merged_edges ka nt (edges_of nt (fun i => nth i ts 0))),
    (fun t z => Sum (List.length W) (fun l => merged_F kz ka nz nt (edges_of nz (fun i => nth i zs 0)) (edges_of nt (fun i => nth i ts 0)) X l z t)).
  split; [unfold miles_ssps; rewrite E0; cbn [bind]; rewrite E1; cbn [bind]; f_equal; exact E2|]. split; [exact E3|].
  split; [|split; [|split]].
  - split; cbn [with_ssps Spec.nz Spec.nt zE tE Lw]; rewrite ?Nat.add_1_r; assumption.
  - apply merged_increasing; assumption.
  - apply merged_increasing; assumption.
  - intros -> ->. split; [apply merged_1|]. split; [apply merged_1|].
    intros f sp z t If Hsp Hz Ht Fz Ft. rewrite merged_1 in Hz, Ht.
    assert (ME : forall n E i, (i <= n)%nat -> merged_edges 1 n E i = E i).
    { intros n E i Hi. unfold merged_edges. f_equal. lia. }
    rewrite !ME by lia. rewrite Fz, Ft. split; [apply Inz; exact Hz|]. split; [apply Int; exact Ht|].
    destruct (Hcol f _ z t If Hsp Hz Ht Fz Ft) as [Lc Kc].
    exists (combine W (map (fun l => X l z t) (seq 0 (List.length W)))). split.
    + assert (K1 := kept_map _ (fun r : R * R => in_request lo hi (fst r)) (fun r => (fst r, real_of (snd r))) _ _ (fun x => iff_refl _) Kc).
      rewrite !map_combine_snd, !map_map in K1. cbn [real_of] in K1. rewrite map_id in K1. exact K1.
    + rewrite map_snd_combine by (rewrite map_length, seq_length; reflexivity). rewrite sumR_map_seq. apply Sum_ext. intros l Hl'.
      apply merged_F_1; assumption.
Qed.
