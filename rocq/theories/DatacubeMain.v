(** * DatacubeMain: the three batch modes of evaluate_ybar (claims C60-C62). *)
From Coq Require Import Reals Lra Lia List Bool Arith ZArith String Ascii Sorted.
From Verif Require Import Num NumLemmas Arr ArrLemmas MomArr PyStr Cube Base Spec SpecLemmas Repr CubeLemmas BaseLemmas CondLemmas
  DistLemmas VecLemmas Fft Ssps SspLemmas Noise Datacube FourierSpec FourierLemmas DatacubeSpec DatacubeLemmas VelocityLemmas.
Import ListNotations.
Local Open Scope R_scope.

Lemma map_res_rel {B} (F : nat -> res B) (P : nat -> B -> Prop) m : (forall i, (i < m)%nat -> exists y, F i = Ok y /\ P i y) ->
  exists l, map_res F (seq 0 m) = Ok l /\ forall i, (i < m)%nat -> exists y, nth_error l i = Some y /\ P i y.
Proof.
  intros H. assert (G : forall k a, (a + k = m)%nat ->
    exists l, map_res F (seq a k) = Ok l /\ forall i, (i < k)%nat -> exists y, nth_error l i = Some y /\ P (a + i)%nat y).
  { induction k as [|k IH]; intros a Ha; cbn [seq map_res].
    - eexists; split; [reflexivity|]. intros i Hi; lia.
    - destruct (H a ltac:(lia)) as (y & Ey & Hy). rewrite Ey. cbn [bind]. destruct (IH (Datatypes.S a) ltac:(lia)) as (l & El & Hl).
      rewrite El. cbn [bind]. eexists; split; [reflexivity|]. intros [|i] Hi; cbn [nth_error].
      + exists y. rewrite Nat.add_0_r. split; [reflexivity|exact Hy].
      + destruct (Hl i ltac:(lia)) as (y' & En & Hp). exists y'. split; [exact En|]. replace (a + Datatypes.S i)%nat with (Datatypes.S a + i)%nat by lia. exact Hp. }
  exact (G m 0%nat eq_refl).
Qed.

Lemma int_ok_nat d k : (k < d)%nat -> int_ok d (Z.of_nat k) = true.
Proof. intros H. unfold int_ok. apply andb_true_iff. split; [apply Z.leb_le|apply Z.ltb_lt]; lia. Qed.
Lemma int_pos_nat d k : int_pos d (Z.of_nat k) = k.
Proof. unfold int_pos. destruct (Z.leb_spec 0 (Z.of_nat k)); lia. Qed.

Ltac s_geti :=
  let r := fresh "r" in let E := fresh "E" in let Hr := fresh "Hr" in let P := fresh "P" in
  match goal with
  | |- context [getitem ?sp ?a] =>
      match goal with
      | Ha : arr_is a ?sa ?fa |- _ =>
          eassert (P : gi_shape sp sa = Some _) by (cbn [gi_shape]; rewrite ?int_ok_nat by assumption; reflexivity);
          destruct (getitem_is' sp a sa fa _ Ha P) as (r & E & Hr);
          rewrite E; cbn [bind]; clear E P
      end
  end.

Lemma nsum2_Fin (F : list nat -> num) (h : nat -> nat -> R) a b :
  (forall t z, (t < a)%nat -> (z < b)%nat -> F [t; z] = Fin (h t z)) ->
  nsum (map F (all_idx [a; b])) = Fin (Sum a (fun t => Sum b (fun z => h t z))).
Proof.
  intros H. rewrite (nsum_map_Fin F (fun sub => match sub with [t; z] => h t z | _ => 0 end)).
  - f_equal. rewrite sum_all_idx_cons. apply Sum_ext. intros t Ht. rewrite sum_all_idx_cons. apply Sum_ext. intros z Hz.
    rewrite sum_all_idx_nil. reflexivity.
  - intros sub Hs. apply in_all_idx in Hs. inb_inv. apply H; assumption.
Qed.

Ltac entry_sum :=
  let idx := fresh "idx" in let Hi := fresh "Hi" in
  intros idx Hi; inb_inv; cbv beta iota;
  apply nsum2_Fin; let t := fresh "t" in let z := fresh "z" in intros t z ? ?; cbn; picks; cbn; reflexivity.

Section main.
Context (W : weights) (self : component) (g : grid) (f : joint) (n : nat) (dv : R) (S : spectra) (v0 : nat).
Context (Hon : comp_on self g f) (Hg : good_grid g) (Hf : nonneg g f).
Let c := comp_cube self.
Let s := c_ssps c.
Context (HT : templates s g n dv S) (Hv : velocity_ok (nv g) (vE g) dv v0) (Hm : (6 <= nv g)%nat).
Let Hc : cube_on c g := cm_cube _ _ _ Hon.
Let Hs : ssps_on s g := co_ssps _ _ Hc.

Lemma template_spectra_ok : exists F, template_spectra s = Ok F /\
  arr_is F [nt g; (n / 2 + 1)%nat; nz g]
    (fun idx => match idx with [t; k; z] => dft n n (fun w => Fin (S t z w)) k | _ => czero end).
Proof.
  unfold template_spectra. rewrite (so_dims _ _ Hs). cbn [fst snd].
  assert (EX : exists x3, reshape3c (FXw s) (nz g) (nt g) = Ok x3 /\
     arr_is x3 [(n / 2 + 1)%nat; nz g; nt g] (fun idx => match idx with [k; z; t] => dft n n (fun w => Fin (S t z w)) k | _ => czero end)).
  { pose proof (gg_t _ Hg). pose proof (gg_z _ Hg). pose proof (tp_F _ _ _ _ _ HT) as HX.
    unfold reshape3c. destruct (Nat.eqb_spec (nz g * nt g) 0); [nia|]. rewrite HX. cbn [size_of fold_right]. rewrite Nat.mul_1_r.
    rewrite Nat.mod_mul, Nat.div_mul by lia. cbn [Nat.eqb]. unfold reshape. rewrite HX. cbn [size_of fold_right].
    rewrite !Nat.mul_1_r, Nat.eqb_refl. eexists; split; [reflexivity|]. split; [reflexivity|].
    intros idx Hi. cbn [shp] in Hi. inb_inv. cbn [ent]. rewrite unravel_merge by assumption.
    rewrite (tp_dft _ _ _ _ _ HT) by (try assumption; nia). apply dft_ext. intros w Hw.
    apply (tp_S _ _ _ _ _ HT); assumption. }
  destruct EX as (x3 & EX & Hx3). rewrite EX. cbn [bind]. clear EX.
  s_mov. eexists; split; [reflexivity|]. destruct Hr as [Hrs Hre]. split; [exact Hrs|]. intros idx Hi. rewrite (Hre idx Hi). inb_inv. reflexivity.
Qed.

Lemma density_ok : exists p, get_p self "tvxz" true false = Ok p /\
  arr_is p [nt g; nv g; nx g; ny g; nz g]
    (fun idx => match idx with [t; v; x; y; z] => Fin (f t v x y z) | _ => NaN end).
Proof.
  destruct (get_p_marg self g f Hon Hg Hf all_vars true false eq_refl) as (p & E & Hsh & Hp).
  { discriminate. }
  change (name all_vars) with "tvxz"%string in E. exists p. split; [exact E|]. split; [exact Hsh|].
  intros idx Hi. inb_inv. etransitivity; [apply (Hp (Bin i i0 i1 i2 i3)); repeat split; assumption|].
  f_equal. rewrite marg_all. cbn [bt bv bx by_ bz]. unfold prob, mass.
  assert (0 < vol g all_vars (Bin i i0 i1 i2 i3)) by (apply vol_pos; [exact Hg|repeat split; assumption]).
  transitivity (f i i0 i1 i2 i3 * vol g all_vars (Bin i i0 i1 i2 i3) / vol g all_vars (Bin i i0 i1 i2 i3)).
  - f_equal. unfold vol. cbn [all_vars has_t has_v has_x has_z ifw bt bv bx by_ bz]. ring.
  - field. lra.
Qed.

(** interpolated transform of the velocity distribution *)
Definition are (t x y z k : nat) : R :=
  Sum (nv g / 2 + 1) (fun j => W (nv g / 2 + 1)%nat (n / 2 + 1)%nat k j * (dv * vel_re (nv g) v0 (fun v => f t v x y z) j)).
Definition aim (t x y z k : nat) : R :=
  Sum (nv g / 2 + 1) (fun j => W (nv g / 2 + 1)%nat (n / 2 + 1)%nat k j * (dv * vel_im (nv g) v0 (fun v => f t v x y z) j)).

Lemma velocity_spectra_ok p : arr_is p [nt g; nv g; nx g; ny g; nz g]
    (fun idx => match idx with [t; v; x; y; z] => Fin (f t v x y z) | _ => NaN end) ->
  exists F, velocity_spectra W s (c_v_edg c) p (n / 2 + 1) = Ok F /\
  arr_is F [nt g; (n / 2 + 1)%nat; nx g; ny g; nz g]
    (fun idx => match idx with [t; k; x; y; z] => (Fin (are t x y z k), Fin (aim t x y z k)) | _ => czero end).
Proof.
  intros Hp. unfold velocity_spectra. destruct Hv as [Hw Hso Hin Hz Hfst Hce].
  destruct (v_mids_ok _ _ _ (co_v _ _ Hc)) as (v & Ev & Hvv). rewrite Ev. cbn [bind].
  rewrite (v0_ok (nv g) (vE g) v v0) by assumption. cbn [bind]. rewrite (proj1 Hp). cbn [nth].
  pose proof (roll1_is _ _ _ _ _ v0 Hp Hin) as Hr. cbv beta iota in Hr.
  destruct (rfft1_is _ _ _ _ _ Hr ltac:(lia)) as (F & EF & HF). rewrite EF. cbn [bind].
  rewrite (tp_dv _ _ _ _ _ HT). pose proof (amap_is (cscale (Fin dv)) _ _ _ HF) as HF'.
  destruct (interp1_is W _ _ _ _ _ (n / 2 + 1) HF') as (G & EG & HG).
  { pose proof (Nat.div_le_mono 6 (nv g) 2 ltac:(lia) Hm) as H6. change (6 / 2)%nat with 3%nat in H6. lia. }
  rewrite EG. exists G. split; [reflexivity|]. destruct HG as [HGs HGe]. split; [exact HGs|]. intros idx Hi.
  rewrite (HGe idx Hi). inb_inv. cbv beta iota.
  apply (csum_Fin _ (fun j => W (nv g / 2 + 1)%nat (n / 2 + 1)%nat i0 j * (dv * vel_re (nv g) v0 (fun v => f i v i1 i2 i3) j))
                    (fun j => W (nv g / 2 + 1)%nat (n / 2 + 1)%nat i0 j * (dv * vel_im (nv g) v0 (fun v => f i v i1 i2 i3) j))).
  intros j Hj. rewrite (rotated_dft (nv g) v0 (fun v => f i v i1 i2 i3) j Hin). rewrite !cscale_Fin. reflexivity.
Qed.

(** one template's contribution *)
Definition part (t z w x y : nat) : R := conv n (S t z) (signal n (are t x y z) (aim t x y z)) w.
Definition flux (w x y : nat) : R :=
  Sum (nt g) (fun t => Sum (nz g) (fun z => part t z w x y * (wid (tE g) t * wid (zE g) z))).
Definition total_at (w x y : nat) : R := flux w x y * wid (xE g) 0 * wid (yE g) 0.

Lemma datacube_total w x y : (x < nx g)%nat -> (y < ny g)%nat -> total_at w x y = datacube W g f n dv v0 S w x y.
Proof.
  intros Hx Hy. unfold total_at, flux, datacube. rewrite <- !Sum_scal_r. apply Sum_ext. intros t Ht. rewrite <- !Sum_scal_r. apply Sum_ext. intros z Hz.
  destruct (co_dx _ _ Hc) as (dx & _ & Hdx). destruct (co_dy _ _ Hc) as (dy & _ & Hdy).
  rewrite (Hdx 0%nat), (Hdy 0%nat) by apply Hg.
  unfold part, conv. rewrite <- !Sum_scal_r. apply Sum_ext. intros q _. unfold broadening, signal.
  set (A := wid (tE g) t * dv * wid (xE g) x * wid (yE g) y * wid (zE g) z).
  assert (Er : forall k, Sum (nv g / 2 + 1) (fun j => W (nv g / 2 + 1)%nat (n / 2 + 1)%nat k j * vel_re (nv g) v0 (bin_prob g f dv t x y z) j) =
     are t x y z k * (wid (tE g) t * wid (xE g) x * wid (yE g) y * wid (zE g) z)).
  { intros k. unfold are. rewrite <- Sum_scal_r. apply Sum_ext. intros j _. unfold vel_re, bin_prob.
    rewrite <- Sum_scal, <- Sum_scal, <- Sum_scal, <- Sum_scal_r. apply Sum_ext. intros v _. ring. }
  assert (Ei : forall k, Sum (nv g / 2 + 1) (fun j => W (nv g / 2 + 1)%nat (n / 2 + 1)%nat k j * vel_im (nv g) v0 (bin_prob g f dv t x y z) j) =
     aim t x y z k * (wid (tE g) t * wid (xE g) x * wid (yE g) y * wid (zE g) z)).
  { intros k. unfold aim. rewrite <- Sum_scal_r. apply Sum_ext. intros j _. unfold vel_im, bin_prob.
    rewrite <- Sum_scal, <- Sum_scal, <- Sum_scal, <- Sum_scal_r. apply Sum_ext. intros v _. ring. }
  rewrite (Hdx x Hx) in *. rewrite (Hdy y Hy) in *.
  unfold Rdiv. rewrite !Rmult_assoc. f_equal. rewrite <- !Rmult_assoc. rewrite <- !Sum_scal_r. apply Sum_ext. intros k _.
  rewrite Er, Ei. ring.
Qed.

(** the spectra at the stage where all modes start *)
Context (Fs Fp : arr cnum).
Context (HFs : arr_is Fs [nt g; (n / 2 + 1)%nat; nz g]
    (fun idx => match idx with [t; k; z] => dft n n (fun w => Fin (S t z w)) k | _ => czero end)).
Context (HFp : arr_is Fp [nt g; (n / 2 + 1)%nat; nx g; ny g; nz g]
    (fun idx => match idx with [t; k; x; y; z] => (Fin (are t x y z k), Fin (aim t x y z k)) | _ => czero end)).
Let Hdt := vec_is _ _ _ (so_dt _ _ Hs).
Let Hdz := vec_is _ _ _ (so_dz _ _ Hs).

Lemma area_is a sh h : arr_is a sh (fun idx => Fin (h idx)) ->
  arr_is (times_area c a) sh (fun idx => Fin (h idx * wid (xE g) 0 * wid (yE g) 0)).
Proof.
  intros Ha. unfold times_area. destruct (co_dx _ _ Hc) as (dx & Edx & Hdx). destruct (co_dy _ _ Hc) as (dy & Edy & Hdy).
  rewrite Edx, Edy, <- (Hdx 0%nat), <- (Hdy 0%nat) by apply Hg. exact (amap_is _ _ _ _ Ha).
Qed.

Lemma none_ok : exists y, ybar_none c Fs Fp = Ok y /\
  arr_is y [n; nx g; ny g] (fun idx => match idx with [w; i; j] => Fin (total_at w i j) | _ => NaN end).
Proof.
  unfold ybar_none. fold s. pose proof Hdt as H1. pose proof Hdz as H2. pose proof HFs as H3. pose proof HFp as H4.
  pose proof (tp_n _ _ _ _ _ HT) as Hn.
  s_get. s_get. s_bop. s_get. s_bop. rewrite (tp_fft _ _ _ _ _ HT).
  match goal with H : arr_is ?a [nt g; (n / 2 + 1)%nat; nx g; ny g; nz g] _ |- context [irfft_ax ?a n 1] =>
    destruct (irfft1_is _ _ _ _ _ n H Hn) as (y & Ey & Hy) end.
  rewrite Ey. cbn [bind].
  assert (Hy' : arr_is y [nt g; n; nx g; ny g; nz g]
     (fun idx => match idx with [t; w; i; j; z] => Fin (part t z w i j) | _ => NaN end)).
  { eapply arr_is_ext; [exact Hy|]. intros idx Hi. cbv beta in *. inb_inv. cbv beta iota.
    apply idft_conv; [exact Hn|]. intros k Hk. cbn. picks. cbn. reflexivity. }
  clear Hy. s_bop. s_sum.
  match goal with H : arr_is ?r [n; nx g; ny g] _ |- _ =>
    assert (Hq : arr_is r [n; nx g; ny g] (fun idx => Fin (match idx with [w; i; j] => flux w i j | _ => 0 end)))
      by (eapply arr_is_ext; [exact H|]; entry_sum) end.
  eexists; split; [reflexivity|]. eapply arr_is_ext; [exact (area_is _ _ _ Hq)|]. intros idx Hi. inb_inv. reflexivity.
Qed.

Lemma column_ok : exists y, ybar_column c Fs Fp = Ok y /\
  arr_is y [n; nx g; ny g] (fun idx => match idx with [w; i; j] => Fin (total_at w i j) | _ => NaN end).
Proof.
  unfold ybar_column. fold s. pose proof Hdt as H1. pose proof Hdz as H2. pose proof HFs as H3. pose proof HFp as H4.
  pose proof (tp_n _ _ _ _ _ HT) as Hn. rewrite (tp_X _ _ _ _ _ HT), (tp_fft _ _ _ _ _ HT). cbn [nth].
  rewrite (co_nx _ _ Hc), (co_ny _ _ Hc).
  s_get. s_get. s_bop. s_get.
  match goal with |- context [map_res ?F (seq 0 ?m)] =>
    destruct (map_res_rel F (fun j col => arr_is col [n; nx g]
       (fun idx => match idx with [w; i] => Fin (total_at w i j) | _ => NaN end)) m) as (cols & Ec & Hcols) end.
  { intros j Hj. s_geti. s_bop.
    match goal with H : arr_is ?a [nt g; (n / 2 + 1)%nat; nx g; nz g] _ |- context [irfft_ax ?a n 1] =>
      destruct (irfft1_is _ _ _ _ _ n H Hn) as (y & Ey & Hy) end.
    rewrite Ey. cbn [bind].
    assert (Hy' : arr_is y [nt g; n; nx g; nz g]
       (fun idx => match idx with [t; w; i; z] => Fin (part t z w i j) | _ => NaN end)).
    { eapply arr_is_ext; [exact Hy|]. intros idx Hi. cbv beta in *. inb_inv. cbv beta iota.
      apply idft_conv; [exact Hn|]. intros k Hk. cbn. picks. rewrite int_pos_nat. cbn. reflexivity. }
    clear Hy. s_bop. s_sum.
    match goal with H : arr_is ?r [n; nx g] _ |- _ =>
      assert (Hq : arr_is r [n; nx g] (fun idx => Fin (match idx with [w; i] => flux w i j | _ => 0 end)))
        by (eapply arr_is_ext; [exact H|]; entry_sum) end.
    destruct (broadcast_to_is _ _ _ [n; nx g] (area_is _ _ _ Hq) (bshape_same _)) as (b & Eb & Hb).
    rewrite Eb. eexists; split; [reflexivity|]. eapply arr_is_ext; [exact Hb|]. intros idx Hi. cbv beta.
    rewrite (bidx_self _ _ Hi). inb_inv. reflexivity. }
  rewrite Ec. cbn [bind]. eexists; split; [reflexivity|]. split; [reflexivity|]. intros idx Hi. cbn [shp] in Hi. inb_inv. cbn [ent].
  match goal with H : (?j < ny g)%nat |- context [nth_error cols ?j] => destruct (Hcols j H) as (col & Hn' & Hcol) end.
  rewrite Hn'. rewrite (proj2 Hcol); [reflexivity|]. repeat (constructor; [assumption|]). constructor.
Qed.

Lemma spaxel_ok : exists y, ybar_spaxel c Fs Fp = Ok y /\
  arr_is y [n; nx g; ny g] (fun idx => match idx with [w; i; j] => Fin (total_at w i j) | _ => NaN end).
Proof.
  unfold ybar_spaxel. fold s. pose proof Hdt as H1. pose proof Hdz as H2. pose proof HFs as H3. pose proof HFp as H4.
  pose proof (tp_n _ _ _ _ _ HT) as Hn. rewrite (tp_X _ _ _ _ _ HT), (tp_fft _ _ _ _ _ HT). cbn [nth].
  rewrite (co_nx _ _ Hc), (co_ny _ _ Hc).
  s_get. s_get. s_bop.
  match goal with |- context [map_res ?F (seq 0 (nx g))] =>
    destruct (map_res_rel F (fun i row => forall j, (j < ny g)%nat -> exists y, nth_error row j = Some y /\ arr_is y [n]
       (fun idx => match idx with [w] => Fin (total_at w i j) | _ => NaN end)) (nx g)) as (rows & Er & Hrows) end.
  { intros i Hi.
    match goal with |- context [map_res ?F (seq 0 ?m)] =>
      destruct (map_res_rel F (fun j y => arr_is y [n]
       (fun idx => match idx with [w] => Fin (total_at w i j) | _ => NaN end)) m) as (row & Ec & Hrow) end.
    { intros j Hj. s_geti. s_bop.
    match goal with H : arr_is ?a [nt g; (n / 2 + 1)%nat; nz g] _ |- context [irfft_ax ?a n 1] =>
      destruct (irfft1_is _ _ _ _ _ n H Hn) as (y & Ey & Hy) end.
    rewrite Ey. cbn [bind].
    assert (Hy' : arr_is y [nt g; n; nz g]
       (fun idx => match idx with [t; w; z] => Fin (part t z w i j) | _ => NaN end)).
    { eapply arr_is_ext; [exact Hy|]. intros idx Hi'. cbv beta in *. inb_inv. cbv beta iota.
      apply idft_conv; [exact Hn|]. intros k Hk. cbn. picks. rewrite !int_pos_nat. cbn. reflexivity. }
    clear Hy. s_bop. s_sum.
    match goal with H : arr_is ?r [n] _ |- _ =>
      assert (Hq : arr_is r [n] (fun idx => Fin (match idx with [w] => flux w i j | _ => 0 end)))
        by (eapply arr_is_ext; [exact H|]; entry_sum) end.
    destruct (broadcast_to_is _ _ _ [n] (area_is _ _ _ Hq) (bshape_same _)) as (b & Eb & Hb).
    rewrite Eb. eexists; split; [reflexivity|]. eapply arr_is_ext; [exact Hb|]. intros idx Hi'. cbv beta.
    rewrite (bidx_self _ _ Hi'). inb_inv. reflexivity. }
    rewrite Ec. eexists; split; [reflexivity|]. exact Hrow. }
  rewrite Er. cbn [bind]. eexists; split; [reflexivity|]. split; [reflexivity|]. intros idx Hi. cbn [shp] in Hi. inb_inv. cbn [ent].
  match goal with H : (?i < nx g)%nat |- context [nth_error rows ?i] => destruct (Hrows i H) as (row & Hn' & Hrow) end.
  match goal with H : (?j < ny g)%nat |- context [nth_error _ ?j] => destruct (Hrow j H) as (col & Hn2 & Hcol) end.
  rewrite Hn', Hn2. rewrite (proj2 Hcol); [reflexivity|]. repeat (constructor; [assumption|]). constructor.
Qed.
End main.
