(** * MirrorDisk: growing disks are their own mirror images. *)
From Coq Require Import Reals Lra Lia List Bool Arith ZArith String Ascii.
From Verif Require Import Num NumLemmas Arr ArrLemmas PyStr Cube Base Spec SpecLemmas Repr DistLemmas Moments MomSpec MomArr MomLemmas MomClaims
  Parametric GrowingDisk ParSpec ParRepr ParSetSpec ParSetLemmas ParEnrich DiskLemmas ParLemmas ParDist ParBuild ParClaims
  Fft Ssps Datacube FourierSpec DatacubeSpec DatacubeClaims ParYbarSpec ParYbar ParEval ParEvalLemmas MirrorSpec Mirror MirrorClaims MirrorPar.
Import ListNotations.
Local Open Scope R_scope.

Lemma Max_ext n f h : (forall k, (k < n)%nat -> f k = h k) -> Max n f = Max n h.
Proof. induction n as [|n IH]; intros H; [reflexivity|]. cbn. rewrite IH, H by auto with arith. reflexivity. Qed.
Lemma ell_sign q a b x y : a * a = 1 -> b * b = 1 -> ell q (a * x) (b * y) = ell q x y.
Proof.
  intros Ha Hb. unfold ell. f_equal. unfold Rdiv. replace (a * x * (a * x)) with (a * a * (x * x)) by ring.
  replace (b * y * / q * (b * y * / q)) with (b * b * (y * / q * (y * / q))) by ring. rewrite Ha, Hb. ring.
Qed.

Section Model.
Context (L : stats_lib) (g : grid) (fl : flips) (ctr : coord -> R) (X Y : map2d) (f : sfh_args) (d : disk_args).
Notation ex := (other_end (fl_x1 fl) (nx g)).
Notation ey := (other_end (fl_x2 fl) (ny g)).
Context (a b : R) (Ha : a * a = 1) (Hb : b * b = 1) (Ev : a = sign fl Cv) (E0 : fl_v fl = true -> ctr Cv = 0).
Context (HX : forall x y, (x < nx g)%nat -> (y < ny g)%nat -> X (ex x) (ey y) = a * X x y).
Context (HY : forall x y, (x < nx g)%nat -> (y < ny g)%nat -> Y (ex x) (ey y) = b * Y x y).
Context (HF : fl_v fl = true -> forall r, norm_cdf L (- r) = 1 - norm_cdf L r).
Lemma disk_image : par_image g fl ctr (disk_model L g X Y f d) (disk_model L g X Y f d).
Proof.
  constructor; cbn [disk_model pm_t pm_x pm_z pm_mu pm_sig pm_F].
  - reflexivity.
  - intros t x y Ht Hx Hy. unfold disk_px, rho, cored. rewrite HX, HY, ell_sign by assumption. reflexivity.
  - intros t x y z Ht Hx Hy Hz. unfold disk_tdep. rewrite HX, HY, ell_sign by assumption. reflexivity.
  - intros t x y Ht Hx Hy. unfold disk_muv, disk_mu. rewrite HX, HY, ell_sign by assumption.
    unfold mirrored, sign, flipped in *. destruct (fl_v fl); [rewrite (E0 eq_refl)|]; rewrite Ev; unfold Rdiv; ring.
  - intros t x y Ht Hx Hy. unfold disk_sigv. rewrite HX, HY, ell_sign by assumption. reflexivity.
  - reflexivity.
  - exact HF.
Qed.
End Model.

Lemma off_axis g X0 Y0 x0 y0 rot : (exists x y, (x < nx g)%nat /\ (y < ny g)%nat /\ cos rot * (X0 x y - x0) <> sin rot * (Y0 x y - y0)) ->
  0 < max_abs g (fun x y => rot_x rot (X0 x y - x0) (Y0 x y - y0)).
Proof.
  intros (x & y & Hx & Hy & Hne). apply Rlt_le_trans with (Rabs (rot_x rot (X0 x y - x0) (Y0 x y - y0))).
  - apply Rabs_pos_lt. unfold rot_x. lra.
  - apply (max_abs_ge g (fun x y => rot_x rot (X0 x y - x0) (Y0 x y - y0))); assumption.
Qed.

Section Disk.
Context (L : stats_lib) (c : cube) (g : grid) (rot : R) (f : sfh_args) (fl : flips) (ctr : coord -> R).
Let X0 : map2d := fun x _ => mid (xE g) x.
Let Y0 : map2d := fun _ y => mid (yE g) y.
Context (Hc : cube_on c g) (Hg : good_grid g) (Hxy0 : cube_xy c g X0 Y0) (Hf : sfh_ok L f) (HN : good_norm (norm_cdf L)).
Context (HF : forall r, norm_cdf L (- r) = 1 - norm_cdf L r).
Context (Hctr : centred g fl ctr) (E0 : fl_v fl = true -> ctr Cv = 0) (HS : disk_symmetry rot fl).
Let X : map2d := fun x y => rot_x rot (X0 x y - ctr Cx1) (Y0 x y - ctr Cx2).
Let Y : map2d := fun x y => rot_y rot (X0 x y - ctr Cx1) (Y0 x y - ctr Cx2).
Lemma disk_symmetric d : disk_ok d ->
  (exists x y, (x < nx g)%nat /\ (y < ny g)%nat /\ cos rot * (mid (xE g) x - ctr Cx1) <> sin rot * (mid (yE g) y - ctr Cx2)) ->
  exists self m, build_disk L c (ctr Cx1, ctr Cx2) rot f d = Ok self /\ pa_cube self = c /\ par_on L self g m /\ good_par g m /\
    (positive_light g -> forall b, par_lw_ok g m true b) /\ par_image g fl ctr m m.
Proof.
  intros Hd Hne. pose proof (off_axis g X0 Y0 _ _ rot Hne) as Hmax.
  destruct (disk_built L c g X0 Y0 (ctr Cx1, ctr Cx2) rot f Hc Hg Hxy0 Hf HN d Hd Hmax) as (self & E & Ec & _ & _ & Hon & Hm).
  exists self, (disk_model L g X Y f d). do 4 (split; [assumption|]).
  split.
  { intros HL b. apply par_light; try assumption; [intros; apply disk_px_pos; assumption|intros; apply pz_pos; assumption|exact (some_age L g f Hg Hf)]. }
  assert (MX : forall x, (x < nx g)%nat -> mid (xE g) (other_end (fl_x1 fl) (nx g) x) = mirrored fl ctr Cx1 (mid (xE g) x)) by exact (mid_end g fl ctr Hctr Cx1).
  assert (MY : forall y, (y < ny g)%nat -> mid (yE g) (other_end (fl_x2 fl) (ny g) y) = mirrored fl ctr Cx2 (mid (yE g) y)) by exact (mid_end g fl ctr Hctr Cx2).
  assert (G : forall a b, a * a = 1 -> b * b = 1 -> a = sign fl Cv ->
     (forall p q, rot_x rot (sign fl Cx1 * p) (sign fl Cx2 * q) = a * rot_x rot p q) ->
     (forall p q, rot_y rot (sign fl Cx1 * p) (sign fl Cx2 * q) = b * rot_y rot p q) ->
     par_image g fl ctr (disk_model L g X Y f d) (disk_model L g X Y f d)).
  { intros a b Ha Hb Ea HX HY. apply (disk_image L g fl ctr X Y f d a b Ha Hb Ea E0); [| |intros _; exact HF].
    - intros x y Hx Hy. unfold X, X0, Y0. rewrite MX, MY, <- HX by assumption. f_equal; unfold mirrored, sign; destruct (flipped fl _); ring.
    - intros x y Hx Hy. unfold Y, X0, Y0. rewrite MX, MY, <- HY by assumption. f_equal; unfold mirrored, sign; destruct (flipped fl _); ring. }
  destruct HS as [Efl|[ [Hs [Efl|Efl] ]|[Hs [Efl|Efl] ] ] ]; subst fl; unfold sign, flipped in G; cbn [fl_v fl_x1 fl_x2] in G.
  - apply (G (-1) (-1)); try lra; intros; unfold rot_x, rot_y; ring.
  - apply (G (-1) 1); try lra; intros; unfold rot_x, rot_y; rewrite Hs; ring.
  - apply (G 1 (-1)); try lra; intros; unfold rot_x, rot_y; rewrite Hs; ring.
  - apply (G 1 (-1)); try lra; intros; unfold rot_x, rot_y; rewrite Hs; ring.
  - apply (G (-1) 1); try lra; intros; unfold rot_x, rot_y; rewrite Hs; ring.
Qed.
End Disk.

(** ** datacubes *)
Lemma losvd_neg n dv mu sig r : losvd n dv (- mu) sig r = losvd n dv mu sig (- r).
Proof.
  unfold losvd, signal. f_equal. apply Sum_ext. intros k _. unfold normal_re, normal_im.
  replace (- mu / dv * freq n k) with (- (mu / dv * freq n k)) by (unfold Rdiv; ring).
  replace (2 * PI * - r * INR k / INR n) with (- (2 * PI * r * INR k / INR n)) by (unfold Rdiv; ring).
  rewrite !cos_neg, !sin_neg. ring.
Qed.
Section Cube.
Context (g : grid) (fl : flips) (ctr : coord -> R) (Hc : centred g fl ctr) (m m' : par_model) (HI : par_image g fl ctr m m').
Context (L : stats_lib) (s s' : par) (Hon : par_on L s g m) (Hon' : par_on L s' g m') (Hg : good_grid g) (Hm : good_par g m).
Context (n : nat) (dv : R) (S : spectra) (HT : templates (c_ssps (pa_cube s)) g n dv S) (HT' : templates (c_ssps (pa_cube s')) g n dv S) (Hdv : dv <> 0).
Context (E0 : fl_v fl = true -> ctr Cv = 0).
Notation ex := (other_end (fl_x1 fl) (nx g)).
Notation ey := (other_end (fl_x2 fl) (ny g)).
Lemma mirror_datacube batch : is_batch batch ->
  exists y, par_evaluate_ybar L s' batch = Ok y /\ is_cube y n (nx g) (ny g) (fun w i j =>
    Sum (nt g) (fun t => Sum (nz g) (fun z => txz_mass g m t (ex i) (ey j) z *
      conv n (S t z) (fun r => losvd n dv (pm_mu m t (ex i) (ey j)) (pm_sig m t (ex i) (ey j)) (sign fl Cv * r)) w))).
Proof.
  intros Hb. destruct (component_datacube L s' g m' Hon' Hg (good_par_image g fl ctr Hc m m' HI Hm) n dv S HT' batch Hdv Hb) as (y & Ey & Hs & He).
  exists y. split; [exact Ey|]. split; [exact Hs|]. intros w i j Hw Hi Hj. rewrite He by assumption. f_equal. unfold par_datacube.
  apply Sum_ext. intros t Ht. apply Sum_ext. intros z Hz. rewrite (txz_mass_image g fl ctr Hc m m' HI) by assumption. f_equal.
  rewrite (pi_mu _ _ _ _ _ HI), (pi_sig _ _ _ _ _ HI) by assumption. unfold conv. apply Sum_ext. intros k _. f_equal.
  unfold mirrored, sign, flipped. destruct (fl_v fl).
  - rewrite (E0 eq_refl). replace (2 * 0 - pm_mu m t (ex i) (ey j)) with (- pm_mu m t (ex i) (ey j)) by ring. rewrite losvd_neg. f_equal. ring.
  - f_equal. ring.
Qed.
Lemma mirror_datacube_same batch batch' : is_batch batch -> is_batch batch' -> fl_v fl = false ->
  exists y y', par_evaluate_ybar L s batch = Ok y /\ par_evaluate_ybar L s' batch' = Ok y' /\ shp y = [n; nx g; ny g] /\ shp y' = [n; nx g; ny g] /\
    forall w i j, (w < n)%nat -> (i < nx g)%nat -> (j < ny g)%nat -> ent y' [w; i; j] = ent y [w; ex i; ey j].
Proof.
  intros Hb Hb' Ef. destruct (component_datacube L s g m Hon Hg Hm n dv S HT batch Hdv Hb) as (y & Ey & Hs & He).
  destruct (mirror_datacube batch' Hb') as (y' & Ey' & Hs' & He'). exists y, y'. do 4 (split; [assumption|]). intros w i j Hw Hi Hj.
  rewrite He', He by (auto using end_lt). f_equal. unfold par_datacube. apply Sum_ext. intros t _. apply Sum_ext. intros z _. f_equal.
  unfold conv. apply Sum_ext. intros k _. f_equal. unfold sign, flipped. rewrite Ef. f_equal. ring.
Qed.
End Cube.
