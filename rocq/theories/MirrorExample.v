(** * MirrorExample: mirror images and symmetric components. *)
From Coq Require Import Reals Lra Lia List Bool Arith ZArith String Ascii.
From Verif Require Import Num NumLemmas Arr ArrLemmas PyStr Cube Base Parametric GrowingDisk Spec SpecLemmas Repr MomSpec Build ParSpec ParRepr ParSetSpec ParSetLemmas
  ParEnrich DiskLemmas ParBuild ParExample ParMomExample Fft Ssps Datacube FourierSpec DatacubeSpec DatacubeClaims Sharing DatacubeExample EvalExample
  Particle ParticleSpec ParticleLemmas ParticleClaims ParticleExample MirrorSpec Mirror MirrorClaims MirrorPar MirrorDisk MirrorParticle.
Import ListNotations.
Local Open Scope R_scope.

Definition image_of (g : grid) (fl : flips) (f : joint) : joint := fun t v x y z =>
  f t (other_end (fl_v fl) (nv g) v) (other_end (fl_x1 fl) (nx g) x) (other_end (fl_x2 fl) (ny g) y) z.
Lemma image_of_image g fl f : image g fl f (image_of g fl f).
Proof. intros i Hi. reflexivity. Qed.
Definition par_image_of (g : grid) (fl : flips) (ctr : coord -> R) (m : par_model) : par_model :=
  let ex := other_end (fl_x1 fl) (nx g) in let ey := other_end (fl_x2 fl) (ny g) in
  ParModel (pm_t m) (fun t x y => pm_x m t (ex x) (ey y)) (fun t x y => pm_z m t (ex x) (ey y))
    (fun t x y => mirrored fl ctr Cv (pm_mu m t (ex x) (ey y))) (fun t x y => pm_sig m t (ex x) (ey y)) (pm_F m).
Lemma logistic_even r : logistic (- r) = 1 - logistic r.
Proof.
  unfold logistic. rewrite Ropp_involutive, exp_Ropp. pose proof (Exp_prop.exp_pos r) as H.
  field. split; lra.
Qed.

(** the velocities of exg are centred on 0, the positions on 1 and 1/2 *)
Definition exfl : flips := Flips true true false.
Definition exctr : coord -> R := fun k => match k with Cx1 => 1 | Cx2 => 1 / 2 | _ => 0 end.
Lemma ex_centred fl : centred exg fl exctr.
Proof.
  intros k Hk n Hn. destruct k; cbn in Hk; try discriminate; cbn [cn cedge exg nv nx ny vE xE yE] in *;
  rewrite minus_INR by exact Hn; cbn [exctr INR]; lra.
Qed.
Definition exf_im : joint := image_of exg exfl exf.
Definition exc_im : component := comp_of exg exf_im.
Lemma exc_im_on : comp_on exc_im exg exf_im.
Proof. apply comp_of_on; [apply exg_uniform_x|apply exg_uniform_y]. Qed.
Lemma exf_image : image exg exfl exf exf_im. Proof. apply image_of_image. Qed.

(** symmetric if velocity and position change sides together, rotating as it were *)
Definition exsym : joint := fun t v x y z => if Nat.eqb v x then INR t + 2 else 1.
Definition exsc : component := comp_of exg exsym.
Lemma exsc_on : comp_on exsc exg exsym.
Proof. apply comp_of_on; [apply exg_uniform_x|apply exg_uniform_y]. Qed.
Lemma exsym_nonneg : nonneg exg exsym.
Proof. intros t v x y z _ _ _ _ _. unfold exsym. pose proof (pos_INR t). destruct (Nat.eqb v x); lra. Qed.
Lemma exsym_image : image exg exfl exsym exsym.
Proof.
  intros [t v x y z] (H1 & H2 & H3 & H4 & H5). cbn in H2, H3. unfold exsym, mirror. cbn [bt bv bx by_ bz exfl fl_v fl_x1 fl_x2 other_end exg nv nx].
  small v; small x; reflexivity.
Qed.
Lemma exsym_lw lw : lw_ok exg exsym lw.
Proof. intros _. unfold total, lit, mass, exsym. ev. lra. Qed.

(** parametric *)
Definition exmod_im : par_model := par_image_of exg exfl exctr exmod.
Definition exmp_im : par := par_of exg exmod_im.
Lemma exmp_im_on : par_on exL exmp_im exg exmod_im.
Proof. apply par_of_on; [apply exg_uniform_x|apply exg_uniform_y|reflexivity]. Qed.
Lemma exmod_image : par_image exg exfl exctr exmod exmod_im.
Proof. constructor; try reflexivity. intros _. exact logistic_even. Qed.

(** the disk of the examples turned by any angle *)
Lemma ex_off_centre rot : cos rot <> 0 -> exists x y, (x < nx exg)%nat /\ (y < ny exg)%nat /\
  cos rot * (mid (xE exg) x - exctr Cx1) <> sin rot * (mid (yE exg) y - exctr Cx2).
Proof.
  intros H. exists 0%nat, 0%nat. split; [cbn; lia|]. split; [cbn; lia|]. unfold mid. cbn [exg xE yE INR exctr]. intros E. apply H. lra.
Qed.

(** on an odd number of velocity bins *)
Definition exctr7 : coord -> R := fun k => match k with Cx1 => 1 | Cx2 => 1 / 2 | _ => 0 end.
Lemma exv_centred fl : centred (exv 2 7 2) fl exctr7.
Proof.
  intros k Hk n Hn. destruct k; cbn in Hk; try discriminate; cbn [cn cedge exv nv nx ny vE xE yE] in *;
  rewrite minus_INR by exact Hn; cbn [exctr7 INR]; lra.
Qed.
Lemma exv_image_evaluable fl : evaluable (comp_for (exv 2 7 2) (image_of (exv 2 7 2) fl exD) 8 1 exS) (exv 2 7 2) (image_of (exv 2 7 2) fl exD) 8 1 exS 3.
Proof.
  constructor.
  - apply comp_for_on; [apply exv_x|apply exv_y].
  - apply exv_good; lia.
  - apply (nonneg_image _ fl exD); [apply image_of_image|apply exD_nonneg].
  - apply templates_for; cbn; lia.
  - apply exv_velocity. right. reflexivity.
  - cbn. lia.
Qed.

(** the particles of the examples *)
Lemma expw_between q : In q expw -> between_edges exg exfl (fst q).
Proof.
  assert (A : forall n, (0 < n)%nat -> (n < 2)%nat -> n = 1%nat) by (intros; lia).
  intros Hq k a Ha Hf n H0 Hn. destruct k; cbn in Hf; try discriminate; cbn [cn exg nv nx] in Hn; rewrite (A n H0 Hn); cbn [cedge exg vE xE INR];
  destruct Hq as [<-|[<-|[<-|[]]]]; cbn [fst pa pb pout p_v p_x1 p_x2 In] in Ha; destruct Ha as [Ha|[Ha|[Ha|[]]]]; try discriminate Ha;
  injection Ha as <-; intros E; injection E as E; lra.
Qed.
