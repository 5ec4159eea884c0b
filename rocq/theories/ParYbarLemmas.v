(** * ParYbarLemmas: the three batch modes of the parametric evaluate_ybar. *)
From Coq Require Import Reals Lra Lia List Bool Arith ZArith String Ascii Sorted.
From Verif Require Import Num NumLemmas Arr ArrLemmas MomArr PyStr Cube Spec Repr CubeLemmas CondLemmas VecLemmas Fft Ssps SspLemmas Datacube ParYbar
  FourierSpec FourierLemmas DatacubeSpec DatacubeLemmas DatacubeMain DatacubeClaims ParYbarSpec.
Import ListNotations.
Local Open Scope R_scope.

Lemma irfft0_is a d s f n : arr_is a (d :: s) f -> (0 < n)%nat ->
  exists r, irfft_ax a n 0 = Ok r /\ arr_is r (n :: s)
    (fun idx => match idx with j :: r => idft n d (fun k => f (k :: r)) j | _ => Fin 0 end).
Proof.
  intros Ha Hn. pose proof Ha as [Hs He]. unfold irfft_ax. rewrite Hs. cbn [nth_error]. destruct (Nat.eqb_spec n 0); [lia|].
  eexists; split; [reflexivity|]. cbn [set_nth]. split; [reflexivity|]. cbn [ent]. intros idx Hi.
  apply inb_cons in Hi as (i & r & -> & Hi & Hr). cbn [nth].
  unfold idft. f_equal. apply nsum_ext. intros j Hj. apply in_seq in Hj. cbn [set_nth].
  unfold idft_term. rewrite He; [reflexivity|]. constructor; [lia|exact Hr].
Qed.

Lemma csum2_Fin (F : list nat -> cnum) (h k : nat -> nat -> R) a b :
  (forall t z, (t < a)%nat -> (z < b)%nat -> F [t; z] = (Fin (h t z), Fin (k t z))) ->
  csum (map F (all_idx [a; b])) = (Fin (Sum a (fun t => Sum b (fun z => h t z))), Fin (Sum a (fun t => Sum b (fun z => k t z)))).
Proof.
  intros H. unfold csum. rewrite !map_map. f_equal; apply nsum2_Fin; intros t z Ht Hz; rewrite H by assumption; reflexivity.
Qed.

Lemma signal_Sum n m (a b : nat -> nat -> R) d :
  signal n (fun k => Sum m (fun t => a t k)) (fun k => Sum m (fun t => b t k)) d = Sum m (fun t => signal n (a t) (b t) d).
Proof.
  unfold signal. unfold Rdiv. rewrite Sum_scal_r, Sum_swap. f_equal. apply Sum_ext. intros k _.
  rewrite Sum_scal, Sum_minus, !Sum_scal_r. reflexivity.
Qed.

(** one spectrum: P-weighted products of transforms *)
Lemma mixed_conv n a b (P : nat -> nat -> R) (x : nat -> nat -> nat -> R) (re im : nat -> nat -> nat -> R) w : (0 < n)%nat ->
  signal n
   (fun k => Sum a (fun t => Sum b (fun z =>
      (P t z * re t z k) * Sum n (fun s => x t z s * cos (2 * PI * INR s * INR k / INR n)) - (P t z * im t z k) * Sum n (fun s => x t z s * - sin (2 * PI * INR s * INR k / INR n)))))
   (fun k => Sum a (fun t => Sum b (fun z =>
      (P t z * re t z k) * Sum n (fun s => x t z s * - sin (2 * PI * INR s * INR k / INR n)) + (P t z * im t z k) * Sum n (fun s => x t z s * cos (2 * PI * INR s * INR k / INR n)))))
   (INR w) = Sum a (fun t => Sum b (fun z => P t z * conv n (x t z) (signal n (re t z) (im t z)) w)).
Proof.
  intros Hn. rewrite signal_Sum. apply Sum_ext. intros t _. rewrite signal_Sum. apply Sum_ext. intros z _.
  rewrite <- (convolution n (x t z) (re t z) (im t z) w Hn).
  transitivity (P t z * signal n (fun k => Sum n (fun s => x t z s * cos (2 * PI * INR s * INR k / INR n)) * re t z k - Sum n (fun s => x t z s * - sin (2 * PI * INR s * INR k / INR n)) * im t z k)
      (fun k => Sum n (fun s => x t z s * cos (2 * PI * INR s * INR k / INR n)) * im t z k + Sum n (fun s => x t z s * - sin (2 * PI * INR s * INR k / INR n)) * re t z k) (INR w)
     + signal n (fun _ => 0) (fun _ => 0) (INR w)); [|rewrite signal_0; ring].
  rewrite <- signal_lin. apply signal_ext. intros k _. split; ring.
Qed.

Lemma bind_assoc {A B C} (a : res A) (f : A -> res B) (k : B -> res C) : bind (bind a f) k = bind a (fun x => bind (f x) k).
Proof. destruct a; reflexivity. Qed.

Section par.
Context (c : cube) (g : grid) (n : nat) (dv : R) (S : spectra).
Let s := c_ssps c.
Context (P : nat -> nat -> nat -> nat -> R) (mu sig : nat -> nat -> nat -> R) (P_txz mu_v sig_v : arr num).
Context (HT : templates s g n dv S) (Hdv : dv <> 0) (Hdims : par_dims s = (nz g, nt g)) (Htz : (0 < nz g * nt g)%nat)
  (Hnx : c_nx c = nx g) (Hny : c_ny c = ny g).
Context (HP : arr_is P_txz [nt g; nx g; ny g; nz g] (fun idx => match idx with [t; x; y; z] => Fin (P t x y z) | _ => NaN end)).
Context (Hmu : arr_is mu_v [nt g; nx g; ny g] (fun idx => match idx with [t; x; y] => Fin (mu t x y) | _ => NaN end)).
Context (Hsig : arr_is sig_v [nt g; nx g; ny g] (fun idx => match idx with [t; x; y] => Fin (sig t x y) | _ => NaN end)).

Let Hn : (0 < n)%nat := tp_n _ _ _ _ _ HT.

Lemma template_arr : exists x3, reshape3c (FXw s) (nz g) (nt g) = Ok x3 /\
  arr_is x3 [(n / 2 + 1)%nat; nz g; nt g] (fun idx => match idx with [k; z; t] => dft n n (fun w => Fin (S t z w)) k | _ => czero end).
Proof.
  pose proof (tp_F _ _ _ _ _ HT) as HX.
  unfold reshape3c. destruct (Nat.eqb_spec (nz g * nt g) 0); [lia|]. rewrite HX. cbn [size_of fold_right]. rewrite Nat.mul_1_r.
  rewrite Nat.mod_mul, Nat.div_mul by lia. cbn [Nat.eqb]. unfold reshape. rewrite HX. cbn [size_of fold_right].
  rewrite !Nat.mul_1_r, Nat.eqb_refl. eexists; split; [reflexivity|]. split; [reflexivity|].
  intros idx Hi. cbn [shp] in Hi. inb_inv. cbn [ent]. rewrite unravel_merge by assumption.
  rewrite (tp_dft _ _ _ _ _ HT) by (try assumption; nia). apply dft_ext. intros w Hw.
  apply (tp_S _ _ _ _ _ HT); assumption.
Qed.

Definition om (k : nat) : R := freq n k / dv.
Lemma omega_is : arr_is (amap (fun x => ndiv x (ssp_dv s)) (linspace 0 PI (nth 0 (shp (FXw s)) O))) [(n / 2 + 1)%nat]
  (fun idx => match idx with [k] => Fin (om k) | _ => NaN end).
Proof.
  rewrite (tp_dv _ _ _ _ _ HT), (tp_F _ _ _ _ _ HT). cbn [nth]. split; [reflexivity|]. intros idx Hi. inb_inv. cbn [amap ent linspace].
  unfold ndiv. destruct (Req_EM_T dv 0); [contradiction|]. f_equal. unfold om, freq.
  replace (n / 2 + 1 - 1)%nat with (n / 2)%nat by lia. rewrite Rminus_0_r, Rplus_0_l. reflexivity.
Qed.

Lemma cexp_ok m sg k : cexp (csub (cmul (cmul (Fin 0, Fin (-1)) (of_real (Fin m))) (of_real (Fin (om k))))
     (of_real (nmul (Fin 0.5) (nmul (nmul (Fin sg) (Fin (om k))) (nmul (Fin sg) (Fin (om k))))))) =
  (Fin (normal_re n dv m sg k), Fin (normal_im n dv m sg k)).
Proof.
  unfold cexp, csub, cmul, of_real, nsub, nmul, nneg, nadd. cbn [cre cim fst snd]. unfold normal_re, normal_im.
  assert (E1 : (0 * m - -1 * 0) * om k - (0 * 0 + -1 * m) * 0 - 0.5 * (sg * om k * (sg * om k)) = - (sg / dv * freq n k) ^ 2 / 2)
    by (replace 0.5 with (/ 2) by lra; unfold om; field; exact Hdv).
  assert (E2 : (0 * m - -1 * 0) * 0 + (0 * 0 + -1 * m) * om k - 0 = - (m / dv * freq n k)) by (unfold om; field; exact Hdv).
  unfold Rminus in *. rewrite E1, E2, cos_neg, sin_neg. reflexivity.
Qed.

Lemma einsum_is sh P_a (F : arr cnum) Fs Pf (re im : nat -> list nat -> nat -> R) :
  arr_is P_a (nt g :: sh ++ [nz g]) (fun idx => Fin (Pf idx)) ->
  arr_is F ((n / 2 + 1)%nat :: nt g :: sh) (fun idx => match idx with k :: t :: r => (Fin (re t r k), Fin (im t r k)) | _ => czero end) ->
  arr_is Fs [(n / 2 + 1)%nat; nz g; nt g] (fun idx => match idx with [k; z; t] => dft n n (fun w => Fin (S t z w)) k | _ => czero end) ->
  exists y, (F <- einsum sh P_a F Fs ;; irfft_ax F n 0) = Ok y /\ arr_is y (n :: sh)
    (fun idx => match idx with w :: r => Fin (Sum (nt g) (fun t => Sum (nz g) (fun z => Pf (t :: r ++ [z]) * conv n (S t z) (signal n (re t r) (im t r)) w))) | _ => NaN end).
Proof.
  intros Ha HF Hs. unfold einsum. rewrite (proj1 Hs), (proj1 Ha), (proj1 HF), !natlist_eqb_refl. cbn [andb bind].
  match goal with |- context [irfft_ax ?A n 0] =>
    destruct (irfft0_is A (n / 2 + 1)%nat sh (ent A) n (conj eq_refl (fun _ _ => eq_refl)) Hn) as (y & Ey & Hy) end.
  rewrite Ey. exists y. split; [reflexivity|]. destruct Hy as [Hys Hye]. split; [exact Hys|]. intros idx Hi. rewrite (Hye idx Hi).
  apply inb_cons in Hi as (w & r & -> & Hw & Hr). cbn [ent].
  rewrite <- (mixed_conv n (nt g) (nz g) (fun t z => Pf (t :: r ++ [z])) S (fun t z => re t r) (fun t z => im t r) w Hn).
  apply idft_Fin; [exact Hn|]. intros k Hk. apply csum2_Fin. intros t z Ht Hz. cbv beta iota.
  rewrite (proj2 Ha) by (constructor; [exact Ht|apply inb_app; [exact Hr|repeat (constructor; [assumption|]); constructor]]).
  rewrite (proj2 HF) by (constructor; [exact Hk|constructor; [exact Ht|exact Hr]]).
  rewrite (proj2 Hs) by (repeat (constructor; [assumption|]); constructor). cbv beta iota.
  rewrite dft_Fin. unfold of_real. rewrite !cmul_Fin. f_equal; f_equal; ring.
Qed.

Lemma par_none_ok o Fs :
  arr_is o [(n / 2 + 1)%nat] (fun idx => match idx with [k] => Fin (om k) | _ => NaN end) ->
  arr_is Fs [(n / 2 + 1)%nat; nz g; nt g] (fun idx => match idx with [k; z; t] => dft n n (fun w => Fin (S t z w)) k | _ => czero end) ->
  exists y, par_none c P_txz mu_v sig_v o Fs = Ok y /\
  arr_is y [n; nx g; ny g] (fun idx => match idx with [w; i; j] => Fin (par_datacube g P mu sig n dv S w i j) | _ => NaN end).
Proof.
  intros Ho Hs. unfold par_none. fold s. rewrite Hnx, Hny, (tp_fft _ _ _ _ _ HT). pose proof Hmu as H1. pose proof Hsig as H2.
  s_get. unfold transform. s_bop. s_bop. s_map. s_bop. s_map. cbn [bind].
  match goal with H : arr_is ?r _ _ |- context [einsum ?sh _ ?r Fs] =>
    destruct (einsum_is sh P_txz r Fs (fun idx => match idx with [t; x; y; z] => P t x y z | _ => 0 end)
      (fun t r => match r with [x; y] => normal_re n dv (mu t x y) (sig t x y) | _ => fun _ => 0 end)
      (fun t r => match r with [x; y] => normal_im n dv (mu t x y) (sig t x y) | _ => fun _ => 0 end)) as (y & Ey & Hy) end.
  - eapply arr_is_ext; [exact HP|]. intros idx Hi. cbn [app] in Hi. inb_inv. reflexivity.
  - entries. rewrite ?pick_1, ?pick_0. cbn -[cexp csub cmul of_real nmul]. picks. apply cexp_ok.
  - exact Hs.
  - rewrite Ey. exists y. split; [reflexivity|]. eapply arr_is_ext; [exact Hy|]. intros idx Hi. inb_inv. reflexivity.
Qed.

Lemma par_column_ok o Fs :
  arr_is o [(n / 2 + 1)%nat] (fun idx => match idx with [k] => Fin (om k) | _ => NaN end) ->
  arr_is Fs [(n / 2 + 1)%nat; nz g; nt g] (fun idx => match idx with [k; z; t] => dft n n (fun w => Fin (S t z w)) k | _ => czero end) ->
  exists y, par_column c P_txz mu_v sig_v o Fs = Ok y /\
  arr_is y [n; nx g; ny g] (fun idx => match idx with [w; i; j] => Fin (par_datacube g P mu sig n dv S w i j) | _ => NaN end).
Proof.
  intros Ho Hs. unfold par_column. fold s. rewrite Hnx, Hny, (tp_fft _ _ _ _ _ HT), (tp_X _ _ _ _ _ HT). cbn [nth].
  pose proof Hmu as H1. pose proof Hsig as H2. pose proof HP as H3. s_get.
  match goal with |- context [map_res ?F (seq 0 ?m)] =>
    destruct (map_res_rel F (fun j col => arr_is col [n; nx g]
       (fun idx => match idx with [w; i] => Fin (par_datacube g P mu sig n dv S w i j) | _ => NaN end)) m) as (cols & Ec & Hcols) end.
  { intros j Hj. s_geti. s_geti. unfold transform. s_bop. s_bop. s_map. s_bop. s_map. cbn [bind]. s_geti.
    match goal with |- context [einsum ?sh ?p ?r Fs] =>
      destruct (einsum_is sh p r Fs (fun idx => match idx with [t; x; z] => P t x j z | _ => 0 end)
        (fun t r => match r with [x] => normal_re n dv (mu t x j) (sig t x j) | _ => fun _ => 0 end)
        (fun t r => match r with [x] => normal_im n dv (mu t x j) (sig t x j) | _ => fun _ => 0 end)) as (y & Ey & Hy) end.
    - eapply arr_is_ext; [eassumption|]. intros idx Hi. cbn [app] in Hi. inb_inv. cbn. rewrite int_pos_nat. reflexivity.
    - eapply arr_is_ext; [eassumption|]. intros idx Hi. inb_inv. cbn. picks. cbn -[cexp csub cmul of_real nmul]. rewrite !int_pos_nat. picks. apply cexp_ok.
    - exact Hs.
    - match goal with |- context [bind (einsum ?a ?b ?c ?d) ?k] => rewrite <- (bind_assoc (einsum a b c d) (fun F => irfft_ax F n 0)) end.
      rewrite Ey. cbn [bind].
      destruct (broadcast_to_is _ _ _ [n; nx g] Hy (bshape_same _)) as (b & Eb & Hb).
      rewrite Eb. eexists; split; [reflexivity|]. eapply arr_is_ext; [exact Hb|]. intros idx Hi. cbv beta.
      rewrite (bidx_self _ _ Hi). inb_inv. reflexivity. }
  rewrite Ec. cbn [bind]. eexists; split; [reflexivity|]. split; [reflexivity|]. intros idx Hi. cbn [shp] in Hi. inb_inv. cbn [ent].
  match goal with H : (?j < ny g)%nat |- context [nth_error cols ?j] => destruct (Hcols j H) as (col & Hn' & Hcol) end.
  rewrite Hn'. rewrite (proj2 Hcol); [reflexivity|]. repeat (constructor; [assumption|]). constructor.
Qed.

Lemma par_spaxel_ok o Fs :
  arr_is o [(n / 2 + 1)%nat] (fun idx => match idx with [k] => Fin (om k) | _ => NaN end) ->
  arr_is Fs [(n / 2 + 1)%nat; nz g; nt g] (fun idx => match idx with [k; z; t] => dft n n (fun w => Fin (S t z w)) k | _ => czero end) ->
  exists y, par_spaxel c P_txz mu_v sig_v o Fs = Ok y /\
  arr_is y [n; nx g; ny g] (fun idx => match idx with [w; i; j] => Fin (par_datacube g P mu sig n dv S w i j) | _ => NaN end).
Proof.
  intros Ho Hs. unfold par_spaxel. fold s. rewrite Hnx, Hny, (tp_fft _ _ _ _ _ HT), (tp_X _ _ _ _ _ HT). cbn [nth].
  pose proof Hmu as H1. pose proof Hsig as H2. pose proof HP as H3. s_get.
  match goal with |- context [map_res ?F (seq 0 (nx g))] =>
    destruct (map_res_rel F (fun i row => forall j, (j < ny g)%nat -> exists y, nth_error row j = Some y /\ arr_is y [n]
       (fun idx => match idx with [w] => Fin (par_datacube g P mu sig n dv S w i j) | _ => NaN end)) (nx g)) as (rows & Er & Hrows) end.
  { intros i Hi.
    match goal with |- context [map_res ?F (seq 0 ?m)] =>
      destruct (map_res_rel F (fun j y => arr_is y [n]
       (fun idx => match idx with [w] => Fin (par_datacube g P mu sig n dv S w i j) | _ => NaN end)) m) as (row & Ec & Hrow) end.
    { intros j Hj. s_geti. s_geti. unfold transform. s_bop. s_bop. s_map. s_bop. s_map. cbn [bind]. s_geti.
      match goal with |- context [einsum ?sh ?p ?r Fs] =>
        destruct (einsum_is sh p r Fs (fun idx => match idx with [t; z] => P t i j z | _ => 0 end)
          (fun t r => match r with [] => normal_re n dv (mu t i j) (sig t i j) | _ => fun _ => 0 end)
          (fun t r => match r with [] => normal_im n dv (mu t i j) (sig t i j) | _ => fun _ => 0 end)) as (y & Ey & Hy) end.
      - eapply arr_is_ext; [eassumption|]. intros idx Hi'. cbn [app] in Hi'. inb_inv. cbn. rewrite !int_pos_nat. reflexivity.
      - eapply arr_is_ext; [eassumption|]. intros idx Hi'. inb_inv. cbn. picks. cbn -[cexp csub cmul of_real nmul]. rewrite !int_pos_nat. picks. apply cexp_ok.
      - exact Hs.
      - match goal with |- context [bind (einsum ?a ?b ?c ?d) ?k] => rewrite <- (bind_assoc (einsum a b c d) (fun F => irfft_ax F n 0)) end.
        rewrite Ey. cbn [bind].
        destruct (broadcast_to_is _ _ _ [n] Hy (bshape_same _)) as (b & Eb & Hb).
        rewrite Eb. eexists; split; [reflexivity|]. eapply arr_is_ext; [exact Hb|]. intros idx Hi'. cbv beta.
        rewrite (bidx_self _ _ Hi'). inb_inv. reflexivity. }
    rewrite Ec. eexists; split; [reflexivity|]. exact Hrow. }
  rewrite Er. cbn [bind]. eexists; split; [reflexivity|]. split; [reflexivity|]. intros idx Hi. cbn [shp] in Hi. inb_inv. cbn [ent].
  match goal with H : (?i < nx g)%nat |- context [nth_error rows ?i] => destruct (Hrows i H) as (row & Hn' & Hrow) end.
  match goal with H : (?j < ny g)%nat |- context [nth_error _ ?j] => destruct (Hrow j H) as (col & Hn2 & Hcol) end.
  rewrite Hn', Hn2. rewrite (proj2 Hcol); [reflexivity|]. repeat (constructor; [assumption|]). constructor.
Qed.

Lemma par_evaluate_claim batch : is_batch batch ->
  exists y, par_evaluate c P_txz mu_v sig_v batch = Ok y /\ is_cube y n (nx g) (ny g) (par_datacube g P mu sig n dv S).
Proof.
  intros Hb. unfold par_evaluate. fold s. rewrite Hdims. cbn [fst snd]. destruct template_arr as (Fs & Es & HFs). rewrite Es. cbn [bind].
  pose proof omega_is as Ho.
  destruct Hb as [ -> | [ -> | -> ] ]; cbn [String.eqb Ascii.eqb Bool.eqb].
  - destruct (par_none_ok _ Fs Ho HFs) as (y & Ey & Hy). exists y. split; [exact Ey|]. eapply is_cube_of; [exact Hy|]. reflexivity.
  - destruct (par_column_ok _ Fs Ho HFs) as (y & Ey & Hy). exists y. split; [exact Ey|]. eapply is_cube_of; [exact Hy|]. reflexivity.
  - destruct (par_spaxel_ok _ Fs Ho HFs) as (y & Ey & Hy). exists y. split; [exact Ey|]. eapply is_cube_of; [exact Hy|]. reflexivity.
Qed.

Lemma par_batch_claim batch : ~ is_batch batch -> par_evaluate c P_txz mu_v sig_v batch = Err ValueError.
Proof.
  intros Hb. unfold par_evaluate. fold s. rewrite Hdims. cbn [fst snd]. destruct template_arr as (Fs & Es & HFs). rewrite Es. cbn [bind].
  destruct (String.eqb_spec batch "none"); [exfalso; apply Hb; left; assumption|].
  destruct (String.eqb_spec batch "column"); [exfalso; apply Hb; right; left; assumption|].
  destruct (String.eqb_spec batch "spaxel"); [exfalso; apply Hb; right; right; assumption|]. reflexivity.
Qed.
End par.

(** ** flux *)
Lemma par_flux_claim g P mu sig n dv S i j : (0 < n)%nat ->
  Sum n (fun w => par_datacube g P mu sig n dv S w i j) = Sum (nt g) (fun t => Sum (nz g) (fun z => P t i j z * Sum n (S t z))).
Proof.
  intros Hn. unfold par_datacube. rewrite Sum_swap. apply Sum_ext. intros t _. rewrite Sum_swap. apply Sum_ext. intros z _.
  rewrite Sum_scal. f_equal. unfold conv. rewrite Sum_swap. apply Sum_ext. intros s _. rewrite Sum_scal. unfold losvd.
  rewrite signal_total by exact Hn. unfold normal_re, freq. cbn [INR]. rewrite !Rmult_0_l, Rmult_0_r. rewrite Rmult_0_r, cos_0.
  replace (- 0 ^ 2 / 2) with 0 by field. rewrite exp_0. ring.
Qed.

(** ** whole-pixel velocities *)
Lemma freq_even n k : (exists h, n = (2 * h)%nat) -> (0 < n)%nat -> freq n k = 2 * PI * INR k / INR n.
Proof.
  intros [h ->] Hn. unfold freq. rewrite Nat.mul_comm, Nat.div_mul by lia. rewrite mult_INR. simpl (INR 2). field. apply not_0_INR. lia.
Qed.
Lemma freq_odd n k : (exists h, n = (2 * h + 1)%nat) -> (3 <= n)%nat -> freq n k = 2 * PI * INR k / (INR n - 1).
Proof.
  intros [h ->] Hn. unfold freq. replace ((2 * h + 1) / 2)%nat with h.
  - rewrite plus_INR, mult_INR. simpl (INR 2). simpl (INR 1). field. assert (INR h <> 0) by (apply not_0_INR; lia). lra.
  - replace (2 * h + 1)%nat with (1 + h * 2)%nat by lia. rewrite Nat.div_add by lia. reflexivity.
Qed.

(** no dispersion: one point at distance mu/dv pixels, if the frequencies were 2 pi k / n *)
Lemma losvd_0 n dv mu d : losvd n dv mu 0 d = signal n (fun k => cos (mu / dv * freq n k)) (fun k => - sin (mu / dv * freq n k)) d.
Proof.
  unfold losvd. apply signal_ext. intros k _. unfold normal_re, normal_im.
  replace (- (0 / dv * freq n k) ^ 2 / 2) with 0 by (unfold Rdiv; ring). rewrite exp_0. split; ring.
Qed.

Lemma par_shift_claim g P mu sig n dv S (k : Z) w i j : (exists h, n = (2 * h)%nat) -> (0 < n)%nat -> dv <> 0 -> (w < n)%nat ->
  (forall t, (t < nt g)%nat -> mu t i j = IZR k * dv /\ sig t i j = 0) ->
  par_datacube g P mu sig n dv S w i j = Sum (nt g) (fun t => Sum (nz g) (fun z => P t i j z * shifted n (S t z) k w)).
Proof.
  intros He Hn Hdv Hw H. unfold par_datacube. apply Sum_ext. intros t Ht. apply Sum_ext. intros z _. f_equal.
  destruct (H t Ht) as [Em Es].
  transitivity (Sum 1 (fun _ => 1 * shifted n (S t z) k w)); [|cbn; ring].
  rewrite <- (conv_points n (S t z) 1 (fun _ => 1) (fun _ => k) w Hn Hw). unfold conv. apply Sum_ext. intros q _. f_equal.
  rewrite Em, Es, losvd_0. apply signal_ext. intros r _. rewrite freq_even by assumption. cbn [Sum].
  replace (IZR k * dv / dv * (2 * PI * INR r / INR n)) with (2 * PI * IZR k * INR r / INR n).
  - split; cbn; ring.
  - field. split; [apply not_0_INR; lia|exact Hdv].
Qed.

(** a point at distance D pixels *)
Definition point (n : nat) (D : R) : R -> R := signal n (fun k => cos (2 * PI * D * INR k / INR n)) (fun k => - sin (2 * PI * D * INR k / INR n)).

Lemma par_odd_claim g P mu sig n dv S (k : Z) w i j : (exists h, n = (2 * h + 1)%nat) -> (3 <= n)%nat -> dv <> 0 ->
  (forall t, (t < nt g)%nat -> mu t i j = IZR k * dv /\ sig t i j = 0) ->
  par_datacube g P mu sig n dv S w i j =
  Sum (nt g) (fun t => Sum (nz g) (fun z => P t i j z * conv n (S t z) (point n (IZR k * (INR n / (INR n - 1)))) w)).
Proof.
  intros He Hn Hdv H. unfold par_datacube. apply Sum_ext. intros t Ht. apply Sum_ext. intros z _. f_equal.
  destruct (H t Ht) as [Em Es]. unfold conv. apply Sum_ext. intros q _. f_equal. rewrite Em, Es, losvd_0. unfold point. apply signal_ext. intros r _.
  rewrite freq_odd by assumption. assert (3 <= INR n) by (replace 3 with (INR 3) by (cbn; ring); apply le_INR; lia).
  replace (IZR k * dv / dv * (2 * PI * INR r / (INR n - 1))) with (2 * PI * (IZR k * (INR n / (INR n - 1))) * INR r / INR n).
  - split; reflexivity.
  - field. repeat split; lra.
Qed.

(** a point away from D by less than one pixel, but not at it, is below one *)
Lemma point_below n D d : (2 <= n)%nat -> 0 < Rabs (d - D) < 1 -> point n D d < 1.
Proof.
  intros Hn Hd. assert (Hn' : 0 < INR n) by (apply lt_0_INR; lia). unfold point, signal.
  pose proof (orthogonal n 0 ltac:(lia)) as Ho. rewrite Z.mod_0_l in Ho by lia. cbn [Z.eqb] in Ho.
  rewrite <- Ho. apply Rmult_lt_compat_r; [apply Rinv_0_lt_compat; exact Hn'|].
  apply Rminus_gt_0_lt.
  assert (Hw : forall k, 1 <= wt n k) by (intros k; unfold wt; destruct (_ || _); lra).
  set (th := fun k : nat => 2 * PI * (d - D) * INR k / INR n).
  apply Rlt_le_trans with (wt n 1 * (1 - cos (th 1%nat))).
  - assert (cos (th 1%nat) < 1).
    { assert (Hth : 0 < Rabs (th 1%nat) < 2 * PI).
      { unfold th. simpl (INR 1). rewrite Rmult_1_r. unfold Rdiv. rewrite Rabs_mult, Rabs_mult, (Rabs_pos_eq (2 * PI)), (Rabs_pos_eq (/ INR n)).
        - assert (0 < / INR n <= 1).
          { split; [apply Rinv_0_lt_compat; exact Hn'|]. rewrite <- Rinv_1. apply Rinv_le_contravar; [lra|]. replace 1 with (INR 1) by reflexivity. apply le_INR. lia. }
          pose proof PI_RGT_0. split; [apply Rmult_lt_0_compat; [apply Rmult_lt_0_compat; lra|lra]|].
          apply Rle_lt_trans with (2 * PI * Rabs (d - D) * 1); [apply Rmult_le_compat_l; [apply Rmult_le_pos; lra|lra]|].
          rewrite Rmult_1_r. rewrite <- (Rmult_1_r (2 * PI)) at 2. apply Rmult_lt_compat_l; lra.
        - left. apply Rinv_0_lt_compat. exact Hn'.
        - pose proof PI_RGT_0. lra. }
      assert (Habs : cos (th 1%nat) = cos (Rabs (th 1%nat))) by (unfold Rabs; destruct (Rcase_abs _); [rewrite cos_neg|]; reflexivity).
      rewrite Habs. pose proof (cos_2a_sin (Rabs (th 1%nat) / 2)) as Hc. replace (2 * (Rabs (th 1%nat) / 2)) with (Rabs (th 1%nat)) in Hc by field.
      rewrite Hc. assert (0 < sin (Rabs (th 1%nat) / 2)) by (apply sin_gt_0; lra). 
      assert (0 < sin (Rabs (th 1%nat) / 2) * sin (Rabs (th 1%nat) / 2)) by (apply Rmult_lt_0_compat; assumption). lra. }
    pose proof (Hw 1%nat). apply Rmult_lt_0_compat; lra.
  - rewrite <- Sum_minus.
    set (F := fun k : nat => wt n k * (1 - cos (th k))).
    rewrite (Sum_ext _ _ F).
    + change (wt n 1 * (1 - cos (th 1%nat))) with (F 1%nat). apply Sum_ge_term.
      * pose proof (Nat.div_str_pos n 2 ltac:(lia)). lia.
      * intros k _. unfold F. pose proof (Hw k). pose proof (COS_bound (th k)). apply Rmult_le_pos; lra.
    + intros k _. unfold F, th. change (IZR 0) with 0. rewrite Rmult_0_r, Rmult_0_l. unfold Rdiv at 1. rewrite Rmult_0_l, cos_0.
      replace (2 * PI * (d - D) * INR k / INR n) with (2 * PI * d * INR k / INR n - 2 * PI * D * INR k / INR n) by (field; lra).
      rewrite cos_minus. ring.
Qed.
