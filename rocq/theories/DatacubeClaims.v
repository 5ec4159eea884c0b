(** * DatacubeClaims: claims C60-C62 and C64 for base components. *)
From Coq Require Import Reals Lra Lia List Bool Arith ZArith String Ascii Sorted Classical.
From Verif Require Import Num NumLemmas Arr ArrLemmas MomArr PyStr Cube Base Spec SpecLemmas Repr CubeLemmas BaseLemmas CondLemmas
  DistLemmas VecLemmas Fft Ssps SspLemmas Noise Datacube FourierSpec FourierLemmas DatacubeSpec DatacubeLemmas VelocityLemmas DatacubeMain.
Import ListNotations.
Local Open Scope R_scope.

Definition is_batch (b : string) : Prop := b = "none"%string \/ b = "column"%string \/ b = "spaxel"%string.

(** the data of an evaluation that can succeed *)
Record evaluable (self : component) (g : grid) (f : joint) (n : nat) (dv : R) (S : spectra) (v0 : nat) : Prop := {
  ev_on : comp_on self g f;
  ev_grid : good_grid g;
  ev_nonneg : nonneg g f;
  ev_templates : templates (c_ssps (comp_cube self)) g n dv S;
  ev_velocity : velocity_ok (nv g) (vE g) dv v0;
  ev_knots : (6 <= nv g)%nat
}.

Lemma evaluate_prefix W self g f n dv S v0 : evaluable self g f n dv S v0 ->
  exists Fs Fp,
  (arr_is Fs [nt g; (n / 2 + 1)%nat; nz g]
    (fun idx => match idx with [t; k; z] => dft n n (fun w => Fin (S t z w)) k | _ => czero end)) /\
  (arr_is Fp [nt g; (n / 2 + 1)%nat; nx g; ny g; nz g]
    (fun idx => match idx with [t; k; x; y; z] => (Fin (are W g f n dv v0 t x y z k), Fin (aim W g f n dv v0 t x y z k)) | _ => czero end)) /\
  forall batch, evaluate_ybar W self batch =
    if String.eqb batch "none" then ybar_none (comp_cube self) Fs Fp
    else if String.eqb batch "column" then ybar_column (comp_cube self) Fs Fp
    else if String.eqb batch "spaxel" then ybar_spaxel (comp_cube self) Fs Fp
    else Err ValueError.
Proof.
  intros [Hon Hg Hf HT Hv Hk]. pose proof (cm_cube _ _ _ Hon) as Hc.
  destruct (template_spectra_ok self g f n dv S Hon Hg HT Hk) as (Fs & Es & HFs).
  destruct (density_ok self g f Hon Hg Hf) as (p & Ep & Hp).
  destruct (velocity_spectra_ok W self g f n dv S v0 Hon HT Hv Hk p Hp) as (Fp & EF & HFp).
  exists Fs, Fp. split; [exact HFs|]. split; [exact HFp|]. intros batch. unfold evaluate_ybar.
  rewrite (tp_dv _ _ _ _ _ HT).
  rewrite (proj1 (validate_cases (c_v_edg (comp_cube self)) (nv g) (vE g) dv (co_v _ _ Hc)) v0 Hv). cbn [bind].
  rewrite Es. cbn [bind]. rewrite Ep. cbn [bind]. rewrite (proj1 HFs). cbn [nth]. rewrite EF. reflexivity.
Qed.

Definition is_cube (y : arr num) (n nx ny : nat) (D : nat -> nat -> nat -> R) : Prop :=
  shp y = [n; nx; ny] /\ forall w i j, (w < n)%nat -> (i < nx)%nat -> (j < ny)%nat -> ent y [w; i; j] = Fin (D w i j).

Lemma is_cube_of y g n D D' : arr_is y [n; nx g; ny g] (fun idx => match idx with [w; i; j] => Fin (D w i j) | _ => NaN end) ->
  (forall w i j, (i < nx g)%nat -> (j < ny g)%nat -> D w i j = D' w i j) -> is_cube y n (nx g) (ny g) D'.
Proof.
  intros [Hs He] H. split; [exact Hs|]. intros w i j Hw Hi Hj. rewrite He by (repeat (constructor; [assumption|]); constructor).
  rewrite H by assumption. reflexivity.
Qed.

Lemma evaluate_claim W self g f n dv S v0 batch : evaluable self g f n dv S v0 -> is_batch batch ->
  exists y, evaluate_ybar W self batch = Ok y /\ is_cube y n (nx g) (ny g) (datacube W g f n dv v0 S).
Proof.
  intros H Hb. destruct (evaluate_prefix W _ _ _ _ _ _ _ H) as (Fs & Fp & HFs & HFp & E).
  destruct H as [Hon Hg Hf HT Hv Hk].
  destruct Hb as [ -> | [ -> | -> ] ]; rewrite E; cbn [String.eqb Ascii.eqb Bool.eqb].
  - destruct (none_ok W self g f n dv S v0 Hon Hg HT Fs Fp HFs HFp) as (y & Ey & Hy).
    exists y. split; [exact Ey|]. eapply is_cube_of; [exact Hy|]. intros. eapply datacube_total; eassumption.
  - destruct (column_ok W self g f n dv S v0 Hon Hg HT Fs Fp HFs HFp) as (y & Ey & Hy).
    exists y. split; [exact Ey|]. eapply is_cube_of; [exact Hy|]. intros. eapply datacube_total; eassumption.
  - destruct (spaxel_ok W self g f n dv S v0 Hon Hg HT Fs Fp HFs HFp) as (y & Ey & Hy).
    exists y. split; [exact Ey|]. eapply is_cube_of; [exact Hy|]. intros. eapply datacube_total; eassumption.
Qed.

Lemma batch_claim W self g f n dv S v0 batch : evaluable self g f n dv S v0 -> ~ is_batch batch ->
  evaluate_ybar W self batch = Err ValueError.
Proof.
  intros H Hb. destruct (evaluate_prefix W _ _ _ _ _ _ _ H) as (Fs & Fp & _ & _ & E). rewrite E.
  destruct (String.eqb_spec batch "none"); [exfalso; apply Hb; left; assumption|].
  destruct (String.eqb_spec batch "column"); [exfalso; apply Hb; right; left; assumption|].
  destruct (String.eqb_spec batch "spaxel"); [exfalso; apply Hb; right; right; assumption|]. reflexivity.
Qed.

(** ** as many velocity bins as pixels: no interpolation *)
(** template flux at pixel w displaced by d pixels, circularly *)
Definition shifted (n : nat) (x : nat -> R) (d : Z) (w : nat) : R := x (Z.to_nat ((Z.of_nat w - d) mod Z.of_nat n)).

(** interpolation onto the knots themselves *)
Definition identity_on_knots (W : weights) (m : nat) : Prop :=
  forall k j, (k < m)%nat -> (j < m)%nat -> W m m k j = if Nat.eqb k j then 1 else 0.

Lemma signal_ext n a b a' b' d : (forall k, (k < n / 2 + 1)%nat -> a k = a' k /\ b k = b' k) -> signal n a b d = signal n a' b' d.
Proof.
  intros H. unfold signal. f_equal. apply Sum_ext. intros k Hk. destruct (H k Hk) as [-> ->]. reflexivity.
Qed.

Lemma Sum_delta (m k : nat) (h : nat -> R) : (k < m)%nat -> Sum m (fun j => (if Nat.eqb k j then 1 else 0) * h j) = h k.
Proof.
  intros Hk. rewrite (Sum_single m _ k Hk).
  - rewrite Nat.eqb_refl. ring.
  - intros j _ Hj. destruct (Nat.eqb_spec k j); [lia|ring].
Qed.

Lemma conv_points n x m (p : nat -> R) (e : nat -> Z) w : (0 < n)%nat -> (w < n)%nat ->
  conv n x (signal n (fun k => Sum m (fun j => p j * cos (2 * PI * IZR (e j) * INR k / INR n)))
                     (fun k => Sum m (fun j => p j * - sin (2 * PI * IZR (e j) * INR k / INR n)))) w =
  Sum m (fun j => p j * shifted n x (e j) w).
Proof.
  intros Hn Hw. unfold conv.
  transitivity (Sum n (fun s => Sum m (fun j => x s * (if Z.eqb ((Z.of_nat w - Z.of_nat s - e j) mod Z.of_nat n) 0 then p j else 0)))).
  - apply Sum_ext. intros s _.
    replace (INR w - INR s) with (IZR (Z.of_nat w - Z.of_nat s)) by (rewrite minus_IZR, <- !INR_IZR_INZ; reflexivity).
    rewrite signal_points by exact Hn. rewrite <- Sum_scal. reflexivity.
  - rewrite Sum_swap. apply Sum_ext. intros j _.
    pose proof (Z.mod_pos_bound (Z.of_nat w - e j) (Z.of_nat n) ltac:(lia)) as Hb.
    rewrite (Sum_single n _ (Z.to_nat ((Z.of_nat w - e j) mod Z.of_nat n))).
    + rewrite Z2Nat.id by lia. replace ((Z.of_nat w - (Z.of_nat w - e j) mod Z.of_nat n - e j) mod Z.of_nat n)%Z with 0%Z.
      * rewrite Z.eqb_refl. unfold shifted. ring.
      * symmetry. replace (Z.of_nat w - (Z.of_nat w - e j) mod Z.of_nat n - e j)%Z
          with ((Z.of_nat w - e j) - (Z.of_nat w - e j) mod Z.of_nat n)%Z by ring.
        rewrite Zminus_mod_idemp_r. rewrite Z.sub_diag. apply Z.mod_0_l. lia.
    + lia.
    + intros s Hs Hne. destruct (Z.eqb_spec ((Z.of_nat w - Z.of_nat s - e j) mod Z.of_nat n) 0) as [E|]; [|ring].
      exfalso. apply Hne. apply Z.mod_divide in E; [|lia]. destruct E as [q Eq].
      replace (Z.of_nat w - e j)%Z with (Z.of_nat s + q * Z.of_nat n)%Z by lia. rewrite Z.mod_add by lia. rewrite Z.mod_small by lia. lia.
Qed.

Lemma convolution_claim W g f n dv S v0 w i j : (0 < n)%nat -> (v0 < nv g)%nat -> nv g = n -> identity_on_knots W (n / 2 + 1) -> (w < n)%nat ->
  datacube W g f n dv v0 S w i j =
  Sum (nt g) (fun t => Sum (nz g) (fun z => Sum (nv g) (fun v =>
    bin_prob g f dv t i j z v * shifted n (S t z) (Z.of_nat v - Z.of_nat v0) w))).
Proof.
  intros Hn Hv0 Env HW Hw. unfold datacube. apply Sum_ext. intros t _. apply Sum_ext. intros z _.
  rewrite <- (conv_points n (S t z) (nv g) (bin_prob g f dv t i j z) (fun v => (Z.of_nat v - Z.of_nat v0)%Z) w Hn Hw).
  unfold conv. apply Sum_ext. intros s _. f_equal. unfold broadening. apply signal_ext. rewrite Env. intros k Hk.
  split.
  - transitivity (vel_re n v0 (bin_prob g f dv t i j z) k).
    + rewrite <- (Sum_delta (n / 2 + 1) k (vel_re n v0 (bin_prob g f dv t i j z)) Hk). apply Sum_ext. intros q Hq.
      rewrite HW by assumption. reflexivity.
    + unfold vel_re. apply Sum_ext. intros v _. rewrite minus_IZR, <- !INR_IZR_INZ. reflexivity.
  - transitivity (vel_im n v0 (bin_prob g f dv t i j z) k).
    + rewrite <- (Sum_delta (n / 2 + 1) k (vel_im n v0 (bin_prob g f dv t i j z)) Hk). apply Sum_ext. intros q Hq.
      rewrite HW by assumption. reflexivity.
    + unfold vel_im. apply Sum_ext. intros v _. rewrite minus_IZR, <- !INR_IZR_INZ. reflexivity.
Qed.

(** ** linearity *)
Definition combined (K : list (R * joint)) : joint := fun t v x y z => sumR (map (fun wf => fst wf * snd wf t v x y z) K).

Lemma sumR_nil_map {A} (h : A -> R) : sumR (map h []) = 0.
Proof. reflexivity. Qed.

Lemma signal_lin n a b a' b' d c : signal n (fun k => c * a k + a' k) (fun k => c * b k + b' k) d = c * signal n a b d + signal n a' b' d.
Proof.
  unfold signal. unfold Rdiv. rewrite <- Rmult_assoc, <- Rmult_plus_distr_r. f_equal. rewrite <- Sum_scal, <- Sum_plus.
  apply Sum_ext. intros k _. ring.
Qed.
Lemma signal_0 n d : signal n (fun _ => 0) (fun _ => 0) d = 0.
Proof.
  unfold signal. rewrite (Sum_ext _ _ (fun _ => 0)) by (intros; cbv beta; ring). rewrite Sum_const. unfold Rdiv. ring.
Qed.

Lemma broadening_lin W n nv v0 (p p' : nat -> R) c d :
  broadening W n nv v0 (fun v => c * p v + p' v) d = c * broadening W n nv v0 p d + broadening W n nv v0 p' d.
Proof.
  unfold broadening. rewrite <- signal_lin. apply signal_ext. intros k _. unfold vel_re, vel_im. split.
  - rewrite <- Sum_scal, <- Sum_plus. apply Sum_ext. intros j _. rewrite <- !Sum_scal, <- Sum_plus. apply Sum_ext. intros v _. ring.
  - rewrite <- Sum_scal, <- Sum_plus. apply Sum_ext. intros j _. rewrite <- !Sum_scal, <- Sum_plus. apply Sum_ext. intros v _. ring.
Qed.
Lemma broadening_0 W n nv v0 d : broadening W n nv v0 (fun _ => 0) d = 0.
Proof.
  unfold broadening. transitivity (signal n (fun _ => 0) (fun _ => 0) d); [|apply signal_0]. apply signal_ext. intros k _. unfold vel_re, vel_im. split.
  - rewrite (Sum_ext _ _ (fun _ => 0)); [rewrite Sum_const; ring|]. intros j _.
    rewrite (Sum_ext _ _ (fun _ => 0)) by (intros; cbv beta; ring). rewrite Sum_const. ring.
  - rewrite (Sum_ext _ _ (fun _ => 0)); [rewrite Sum_const; ring|]. intros j _.
    rewrite (Sum_ext _ _ (fun _ => 0)) by (intros; cbv beta; ring). rewrite Sum_const. ring.
Qed.

Lemma broadening_ext W n nv v0 p p' d : (forall v, p v = p' v) -> broadening W n nv v0 p d = broadening W n nv v0 p' d.
Proof.
  intros H. unfold broadening. apply signal_ext. intros k _. unfold vel_re, vel_im.
  split; apply Sum_ext; intros j _; f_equal; apply Sum_ext; intros v _; rewrite H; reflexivity.
Qed.

Lemma datacube_combined W g n dv v0 S w i j K :
  datacube W g (combined K) n dv v0 S w i j = sumR (map (fun wf => fst wf * datacube W g (snd wf) n dv v0 S w i j) K).
Proof.
  induction K as [|[c f] K IH].
  - unfold datacube. rewrite (Sum_ext _ _ (fun _ => 0)); [rewrite Sum_const, sumR_nil_map; ring|]. intros t _.
    rewrite (Sum_ext _ _ (fun _ => 0)); [rewrite Sum_const; ring|]. intros z _. unfold conv.
    rewrite (Sum_ext _ _ (fun _ => 0)); [rewrite Sum_const; ring|]. intros s _.
    rewrite (broadening_ext _ _ _ _ _ (fun _ => 0)); [rewrite broadening_0; ring|].
    intros v. unfold bin_prob, combined. rewrite sumR_nil_map. ring.
  - cbn [map fst snd]. change (sumR ((c * datacube W g f n dv v0 S w i j) :: map (fun wf => fst wf * datacube W g (snd wf) n dv v0 S w i j) K))
      with (c * datacube W g f n dv v0 S w i j + sumR (map (fun wf => fst wf * datacube W g (snd wf) n dv v0 S w i j) K)).
    rewrite <- IH. unfold datacube. rewrite <- Sum_scal, <- Sum_plus. apply Sum_ext. intros t _. rewrite <- Sum_scal, <- Sum_plus.
    apply Sum_ext. intros z _. unfold conv. rewrite <- Sum_scal, <- Sum_plus. apply Sum_ext. intros s _.
    rewrite (broadening_ext _ _ _ _ _ (fun v => c * bin_prob g f dv t i j z v + bin_prob g (combined K) dv t i j z v)).
    + rewrite broadening_lin. ring.
    + intros v. unfold bin_prob, combined. cbn [map fst snd].
      change (sumR ((c * f t v i j z) :: map (fun wf => fst wf * snd wf t v i j z) K)) with (c * f t v i j z + sumR (map (fun wf => fst wf * snd wf t v i j z) K)).
      ring.
Qed.

(** the mixture's loop *)
Lemma add_members_ok n nx ny (K : list (arr num * R * (nat -> nat -> nat -> R))) : forall y0 D0, is_cube y0 n nx ny D0 ->
  Forall (fun m => is_cube (fst (fst m)) n nx ny (snd m)) K ->
  exists y, add_members y0 (map (fun m => (Some (fst (fst m)), Fin (snd (fst m)))) K) = Ok y /\
    is_cube y n nx ny (fun w i j => D0 w i j + sumR (map (fun m => snd (fst m) * snd m w i j) K)).
Proof.
  induction K as [|[[a c] D] K IH]; intros y0 D0 H0 HK.
  - exists y0. split; [reflexivity|]. destruct H0 as [Hs He]. split; [exact Hs|]. intros w i j Hw Hi Hj. rewrite He by assumption. cbn. f_equal. ring.
  - inversion HK as [|? ? Ha HK']; subst. cbn [fst snd] in Ha. cbn [map fst snd add_members attr bind].
    assert (A0 : arr_is y0 [n; nx; ny] (fun idx => ent y0 idx)) by (split; [exact (proj1 H0)|reflexivity]).
    assert (A1 : arr_is (amap (nmul (Fin c)) a) [n; nx; ny] (fun idx => nmul (Fin c) (ent a idx))) by (split; [exact (proj1 Ha)|reflexivity]).
    destruct (iop_is nadd y0 _ _ _ _ _ A0 A1 (bshape_same _)) as (r & Er & Hr). rewrite Er. cbn [bind].
    destruct (IH r (fun w i j => D0 w i j + c * D w i j)) as (y & Ey & Hy).
    + split; [exact (proj1 Hr)|]. intros w i j Hw Hi Hj.
      assert (B : inb [w; i; j] [n; nx; ny]) by (repeat (constructor; [assumption|]); constructor).
      rewrite (proj2 Hr _ B). rewrite bidx_self by exact B. rewrite (proj2 H0), (proj2 Ha) by assumption. reflexivity.
    + exact HK'.
    + exists y. split; [exact Ey|]. destruct Hy as [Hs He]. split; [exact Hs|]. intros w i j Hw Hi Hj. rewrite He by assumption.
      f_equal. cbn [map fst snd].
      change (sumR ((c * D w i j) :: map (fun m => snd (fst m) * snd m w i j) K)) with (c * D w i j + sumR (map (fun m => snd (fst m) * snd m w i j) K)). ring.
Qed.

Lemma combine_map {A B C} (f : A -> B) (h : A -> C) l : combine (map f l) (map h l) = map (fun a => (f a, h a)) l.
Proof. induction l as [|a l IH]; cbn; [reflexivity|rewrite IH; reflexivity]. Qed.

Lemma mixture_ybar_claim n nx ny (K : list (arr num * R * (nat -> nat -> nat -> R))) : K <> [] ->
  Forall (fun m => is_cube (fst (fst m)) n nx ny (snd m)) K ->
  exists y, mixture_ybar (map (fun m => Some (fst (fst m))) K) (map (fun m => Fin (snd (fst m))) K) = Ok y /\
    is_cube y n nx ny (fun w i j => sumR (map (fun m => snd (fst m) * snd m w i j) K)).
Proof.
  intros Hne HK. unfold mixture_ybar. rewrite combine_map. destruct K as [|m K]; [congruence|].
  inversion HK as [|? ? Hm HK']; subst. cbn [map attr bind]. rewrite (proj1 Hm).
  destruct (add_members_ok n nx ny (m :: K) (full [n; nx; ny] (Fin 0)) (fun _ _ _ => 0)) as (y & Ey & Hy).
  - split; reflexivity.
  - exact HK.
  - exists y. split; [exact Ey|]. destruct Hy as [Hs He]. split; [exact Hs|]. intros w i j Hw Hi Hj. rewrite He by assumption. f_equal. cbv beta. apply Rplus_0_l.
Qed.

(** the datacube of the combined density, when a component holds it *)
Lemma mixture_density_claim W (K : list (component * R * joint)) g n dv S v0 whole batch wbatch : K <> [] ->
  Forall (fun m => evaluable (fst (fst m)) g (snd m) n dv S v0) K -> is_batch batch -> is_batch wbatch ->
  evaluable whole g (combined (map (fun m => (snd (fst m), snd m)) K)) n dv S v0 ->
  exists ys y y',
    map_res (fun m => evaluate_ybar W (fst (fst m)) batch) K = Ok ys /\
    mixture_ybar (map Some ys) (map (fun m => Fin (snd (fst m))) K) = Ok y /\
    evaluate_ybar W whole wbatch = Ok y' /\
    shp y = [n; nx g; ny g] /\ shp y' = [n; nx g; ny g] /\
    forall w i j, (w < n)%nat -> (i < nx g)%nat -> (j < ny g)%nat -> ent y [w; i; j] = ent y' [w; i; j] /\
      ent y [w; i; j] = Fin (sumR (map (fun m => snd (fst m) * datacube W g (snd m) n dv v0 S w i j) K)).
Proof.
  intros Hne HK Hb Hb' Hw.
  assert (E : exists L : list (arr num * R * (nat -> nat -> nat -> R)),
     map_res (fun m => evaluate_ybar W (fst (fst m)) batch) K = Ok (map (fun m => fst (fst m)) L) /\
     map (fun m => snd (fst m)) L = map (fun m => snd (fst m)) K /\
     Forall (fun m => is_cube (fst (fst m)) n (nx g) (ny g) (snd m)) L /\ (K <> [] -> L <> []) /\
     forall w i j, map (fun m => snd (fst m) * snd m w i j) L = map (fun m => snd (fst m) * datacube W g (snd m) n dv v0 S w i j) K).
  { clear Hne Hw. induction HK as [|[[a c] f] K Hm HK IH].
    - exists []. repeat split; try reflexivity; [constructor|congruence].
    - destruct IH as (L & E1 & E2 & E3 & _ & E4). cbn [fst snd] in Hm.
      destruct (evaluate_claim W _ _ _ _ _ _ _ batch Hm Hb) as (y & Ey & Hy).
      exists ((y, c, datacube W g f n dv v0 S) :: L). cbn [map_res fst snd map]. rewrite Ey. cbn [bind]. rewrite E1. cbn [bind].
      split; [reflexivity|]. split; [rewrite E2; reflexivity|]. split; [constructor; assumption|]. split; [congruence|].
      intros w i j. rewrite E4. reflexivity. }
  destruct E as (L & E1 & E2 & E3 & E5 & E4).
  destruct (mixture_ybar_claim n (nx g) (ny g) L (E5 Hne) E3) as (y & Ey & Hy).
  destruct (evaluate_claim W _ _ _ _ _ _ _ wbatch Hw Hb') as (y' & Ey' & Hy').
  exists (map (fun m => fst (fst m)) L), y, y'. split; [exact E1|].
  assert (E2' : map (fun m => Fin (snd (fst m))) K = map (fun m => Fin (snd (fst m))) L).
  { transitivity (map Fin (map (fun m => snd (fst m)) K)); [rewrite map_map; reflexivity|]. rewrite <- E2, map_map. reflexivity. }
  split; [rewrite map_map, E2'; exact Ey|]. split; [exact Ey'|]. split; [exact (proj1 Hy)|]. split; [exact (proj1 Hy')|].
  intros w i j Hww Hi Hj. rewrite (proj2 Hy), (proj2 Hy') by assumption. rewrite E4. split; [|reflexivity].
  f_equal. rewrite datacube_combined, map_map. reflexivity.
Qed.

(** ** flux *)
Lemma flux_claim W g f n dv v0 S i j : (0 < n)%nat ->
  (forall q, (q < nv g / 2 + 1)%nat -> W (nv g / 2 + 1)%nat (n / 2 + 1)%nat 0%nat q = if Nat.eqb 0 q then 1 else 0) ->
  Sum n (fun w => datacube W g f n dv v0 S w i j) =
  Sum (nt g) (fun t => Sum (nz g) (fun z => Sum (nv g) (bin_prob g f dv t i j z) * Sum n (S t z))).
Proof.
  intros Hn HW. unfold datacube. rewrite Sum_swap. apply Sum_ext. intros t _. rewrite Sum_swap. apply Sum_ext. intros z _.
  unfold conv. rewrite Sum_swap. rewrite <- Sum_scal. apply Sum_ext. intros s _. rewrite Sum_scal. unfold broadening.
  rewrite signal_total by exact Hn.
  rewrite (Sum_ext _ _ (fun q => (if Nat.eqb 0 q then 1 else 0) * vel_re (nv g) v0 (bin_prob g f dv t i j z) q)) by (intros q Hq; rewrite HW by exact Hq; reflexivity).
  rewrite Sum_delta by lia. unfold vel_re. rewrite Rmult_comm. f_equal. apply Sum_ext. intros v _.
  replace (2 * PI * (INR v - INR v0) * INR 0 / INR (nv g)) with 0 by (cbn [INR]; unfold Rdiv; ring). rewrite cos_0. ring.
Qed.

Definition txz : vset := VSet true false true true.
Lemma pixel_prob g f dv t i j z : (forall v, (v < nv g)%nat -> wid (vE g) v = dv) ->
  Sum (nv g) (bin_prob g f dv t i j z) = marg g (prob g f false) txz (Bin t 0 i j z).
Proof.
  intros H. unfold marg, txz. cbn [has_t has_v has_x has_z over bt bv bx by_ bz]. apply Sum_ext. intros v Hv.
  unfold bin_prob, prob, mass. rewrite H by exact Hv. ring.
Qed.

(** ** velocity grids *)
Lemma accepted_claim W self g f batch dv y : comp_on self g f -> ssp_dv (c_ssps (comp_cube self)) = Fin dv ->
  evaluate_ybar W self batch = Ok y -> exists v0, velocity_ok (nv g) (vE g) dv v0.
Proof.
  intros Hon Hdv E. pose proof (cm_cube _ _ _ Hon) as Hc. unfold evaluate_ybar in E. rewrite Hdv in E.
  destruct (validate_cases (c_v_edg (comp_cube self)) (nv g) (vE g) dv (co_v _ _ Hc)) as (_ & H2 & H3).
  destruct (classic (exists v0, velocity_ok (nv g) (vE g) dv v0)) as [H|H]; [exact H|]. exfalso.
  destruct (classic (exists v, (v < nv g)%nat /\ close (mid (vE g) v) 0)) as [Hz|Hz].
  - rewrite H3 in E; [discriminate|exact Hz|]. intros v0 Hv0. apply H. exists v0. exact Hv0.
  - rewrite H2 in E; [discriminate|]. intros v Hv Hcl. apply Hz. exists v. split; assumption.
Qed.

Lemma rejected_claim W self g f batch dv : comp_on self g f -> ssp_dv (c_ssps (comp_cube self)) = Fin dv ->
  (exists v, (v < nv g)%nat /\ close (mid (vE g) v) 0) -> (forall v0, ~ velocity_ok (nv g) (vE g) dv v0) ->
  evaluate_ybar W self batch = Err ValueError.
Proof.
  intros Hon Hdv Hz Hno. pose proof (cm_cube _ _ _ Hon) as Hc. unfold evaluate_ybar. rewrite Hdv.
  destruct (validate_cases (c_v_edg (comp_cube self)) (nv g) (vE g) dv (co_v _ _ Hc)) as (_ & _ & H3).
  rewrite H3 by assumption. reflexivity.
Qed.

Lemma no_zero_claim W self g f batch dv : comp_on self g f -> ssp_dv (c_ssps (comp_cube self)) = Fin dv ->
  (forall v, (v < nv g)%nat -> ~ close (mid (vE g) v) 0) ->
  evaluate_ybar W self batch = Err IndexError.
Proof.
  intros Hon Hdv Hz. pose proof (cm_cube _ _ _ Hon) as Hc. unfold evaluate_ybar. rewrite Hdv.
  destruct (validate_cases (c_v_edg (comp_cube self)) (nv g) (vE g) dv (co_v _ _ Hc)) as (_ & H2 & _).
  rewrite H2 by assumption. reflexivity.
Qed.

(** equal bins symmetric about zero, an even number of them *)
Lemma symmetric_claim W self g f batch dv : comp_on self g f -> ssp_dv (c_ssps (comp_cube self)) = Fin dv ->
  dv > 1 / 50000000 -> (exists h, nv g = (2 * h)%nat /\ forall v, (v <= nv g)%nat -> vE g v = (INR v - INR h) * dv) ->
  evaluate_ybar W self batch = Err IndexError.
Proof.
  intros Hon Hdv Hpos (h & Hh & HE). apply (no_zero_claim W self g f batch dv Hon Hdv). intros v Hv Hcl.
  unfold close in Hcl. rewrite Rabs_R0 in Hcl. rewrite Rminus_0_r in Hcl. unfold mid in Hcl.
  rewrite (HE v), (HE (Datatypes.S v)) in Hcl by lia. rewrite S_INR in Hcl.
  replace (((INR v - INR h) * dv + (INR v + 1 - INR h) * dv) / 2) with ((INR v - INR h + / 2) * dv) in Hcl by field.
  rewrite Rabs_mult in Hcl. rewrite (Rabs_pos_eq dv) in Hcl by lra.
  assert (Hhalf : / 2 <= Rabs (INR v - INR h + / 2)).
  { destruct (Nat.lt_ge_cases v h) as [Hl|Hl].
    - assert (INR v + 1 <= INR h) by (rewrite <- S_INR; apply le_INR; lia). rewrite Rabs_left by lra. lra.
    - assert (INR h <= INR v) by (apply le_INR; lia). rewrite Rabs_pos_eq by lra. lra. }
  assert (/ 2 * dv <= Rabs (INR v - INR h + / 2) * dv) by (apply Rmult_le_compat_r; lra). lra.
Qed.
