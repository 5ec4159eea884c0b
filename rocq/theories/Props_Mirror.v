(** * Claim C103: mirror images and symmetric components.

    [flips]: which of velocity and the two positions change sides; [centred g
    fl ctr]: the edges of those lie symmetrically about ctr; [mirror g fl i]:
    the bin on the other side; [image g fl f f'], [par_image g fl ctr m m']: f'
    (m') is the mirror image of f (m); [mirrored], [num_mirrored]: mirror image
    of a value; [sign]: -1 for what changes sides (MirrorSpec.v). *)
From Coq Require Import Reals Lra Lia List Bool Arith ZArith String Ascii.
From Verif Require Import Num NumLemmas Arr ArrLemmas PyStr Cube Base Parametric GrowingDisk Spec SpecLemmas Repr ParSpec ParRepr MomSpec MomLemmas Moments MomRefuted
  ParMoments GaussSpec ParMomSpec ParMomOther ParMomExample Build ParSetSpec ParSetLemmas ParEnrich DiskLemmas ParBuild ParExample EvalExample
  Fft FourierSpec DatacubeSpec Datacube DatacubeClaims ParYbarSpec ParYbar ParEval ParEvalLemmas DatacubeExample
  Particle ParticleSpec ParticleLemmas ParticleClaims ParticleExample
  MirrorSpec Mirror MirrorClaims MirrorPar MirrorDisk MirrorCube MirrorParticle MirrorExample.
Import ListNotations.
Local Open Scope R_scope.
Local Open Scope string_scope.

(** ** base components *)
Theorem C103_marginals : forall g fl ctr, centred g fl ctr -> forall c c' f f', comp_on c g f -> comp_on c' g f' -> good_grid g -> nonneg g f -> image g fl f f' ->
  forall S (density lw : bool), nonempty S = true -> lw_ok g f lw ->
  exists a b, get_p c (name S) density lw = Ok a /\ get_p c' (name S) density lw = Ok b /\ shp a = dims S g /\ shp b = dims S g /\
    forall i, in_grid g i -> ent b (coords S i) = ent a (coords S (mirror g fl i)).
Proof. exact mirror_marg. Qed.
Print Assumptions C103_marginals.
Theorem C103_conditionals : forall g fl ctr, centred g fl ctr -> forall c c' f f', comp_on c g f -> comp_on c' g f' -> good_grid g -> nonneg g f -> image g fl f f' ->
  forall A C (density lw : bool), nonempty A = true -> nonempty C = true -> disjoint A C = true -> lw_ok g f lw ->
  exists a b, get_p c (cname A C) density lw = Ok a /\ get_p c' (cname A C) density lw = Ok b /\
    shp a = (dims A g ++ dims C g)%list /\ shp b = (dims A g ++ dims C g)%list /\
    forall i, in_grid g i -> ent b (coords A i ++ coords C i) = ent a (coords A (mirror g fl i) ++ coords C (mirror g fl i)).
Proof. exact mirror_cond. Qed.
Print Assumptions C103_conditionals.
Theorem C103_means : forall g fl ctr, centred g fl ctr -> forall c c' f f', comp_on c g f -> comp_on c' g f' -> good_grid g -> nonneg g f -> image g fl f f' ->
  forall C lw, lw_ok g f lw -> (nonempty C = false -> lw = false -> total g (mass g f) = 1) -> forall q, disjoint (cvar q) C = true ->
  exists a b, get_mean (base_obj c) (dname (cvar q) C) lw = Ok a /\ get_mean (base_obj c') (dname (cvar q) C) lw = Ok b /\
    shp a = mdims q C g /\ shp b = mdims q C g /\
    forall i, in_grid g i -> ent b (mcoords q C i) = num_mirrored fl ctr q (ent a (mcoords q C (mirror g fl i))).
Proof. exact mirror_mean. Qed.
Print Assumptions C103_means.
Theorem C103_central_moments : forall g fl ctr, centred g fl ctr -> forall c c' f f', comp_on c g f -> comp_on c' g f' -> good_grid g -> nonneg g f -> image g fl f f' ->
  forall C lw, lw_ok g f lw -> (nonempty C = false -> lw = false -> total g (mass g f) = 1) -> forall q, disjoint (cvar q) C = true -> forall j,
  exists a b, get_central_moment (base_obj c) (dname (cvar q) C) j lw = Ok a /\ get_central_moment (base_obj c') (dname (cvar q) C) j lw = Ok b /\
    shp a = mdims q C g /\ shp b = mdims q C g /\
    forall i, in_grid g i -> ent b (mcoords q C i) = nmul (Fin (sign fl q ^ j)) (ent a (mcoords q C (mirror g fl i))).
Proof. exact mirror_central. Qed.
Print Assumptions C103_central_moments.
Theorem C103_covariances : forall g fl ctr, centred g fl ctr -> forall c c' f f', comp_on c g f -> comp_on c' g f' -> good_grid g -> nonneg g f -> image g fl f f' ->
  forall C lw, lw_ok g f lw -> (nonempty C = false -> lw = false -> total g (mass g f) = 1) ->
  forall x y, before x y = true -> disjoint (union (cvar x) (cvar y)) C = true ->
  exists a b, get_covariance (base_obj c) (dname (union (cvar x) (cvar y)) C) lw = Ok a /\
    get_covariance (base_obj c') (dname (union (cvar x) (cvar y)) C) lw = Ok b /\ shp a = mdims (xkey x y) C g /\ shp b = mdims (xkey x y) C g /\
    forall i, in_grid g i -> ent b (mcoords (xkey x y) C i) = nmul (Fin (sign fl x * sign fl y)) (ent a (mcoords (xkey x y) C (mirror g fl i))).
Proof. exact mirror_cov. Qed.
Print Assumptions C103_covariances.
Example C103_example : exists a b c d e h k l,
  get_p exc "vx" true true = Ok a /\ get_p exc_im "vx" true true = Ok b /\ ent b [0; 1; 0]%nat = ent a [1; 0; 0]%nat /\
  get_p exc "t_v" false false = Ok c /\ get_p exc_im "t_v" false false = Ok d /\ ent d [1; 0]%nat = ent c [1; 1]%nat /\
  get_mean (base_obj exc) "v_t" false = Ok e /\ get_mean (base_obj exc_im) "v_t" false = Ok h /\ ent h [0]%nat = nsub (Fin (2 * 0)) (ent e [0]%nat) /\
  get_covariance (base_obj exc) "tv_z" true = Ok k /\ get_covariance (base_obj exc_im) "tv_z" true = Ok l /\ ent l [1]%nat = nmul (Fin (1 * -1)) (ent k [1]%nat).
Proof.
  destruct (C103_marginals exg exfl exctr (ex_centred exfl) exc exc_im exf exf_im exc_on exc_im_on exg_good exf_nonneg exf_image
    (VSet false true true false) true true eq_refl (ex_lw_ok true)) as (a & b & Ea & Eb & _ & _ & H1).
  destruct (C103_conditionals exg exfl exctr (ex_centred exfl) exc exc_im exf exf_im exc_on exc_im_on exg_good exf_nonneg exf_image
    (VSet true false false false) (VSet false true false false) false false eq_refl eq_refl eq_refl (ex_lw_ok false)) as (c & d & Ec & Ed & _ & _ & H2).
  destruct (C103_means exg exfl exctr (ex_centred exfl) exc exc_im exf exf_im exc_on exc_im_on exg_good exf_nonneg exf_image
    (VSet true false false false) false (ex_lw_ok false) ltac:(discriminate) Cv eq_refl) as (e & h & Ee & Eh & _ & _ & H3).
  destruct (C103_covariances exg exfl exctr (ex_centred exfl) exc exc_im exf exf_im exc_on exc_im_on exg_good exf_nonneg exf_image
    (VSet false false false true) true (ex_lw_ok true) ltac:(discriminate) Ct Cv eq_refl eq_refl) as (k & l & Ek & El & _ & _ & H4).
  exists a, b, c, d, e, h, k, l. repeat (split; [assumption|]).
  split; [exact (H1 (Bin 0 0 1 0 0) ltac:(repeat split; cbn; lia))|]. repeat (split; [assumption|]).
  split; [exact (H2 (Bin 1 0 0 0 0) ltac:(repeat split; cbn; lia))|]. repeat (split; [assumption|]).
  split; [exact (H3 (Bin 0 0 0 0 0) ltac:(repeat split; cbn; lia))|]. repeat (split; [assumption|]).
  exact (H4 (Bin 0 0 0 0 1) ltac:(repeat split; cbn; lia)).
Qed.

(** components which are their own mirror image: the mean of what changes
    sides is in the middle, odd central moments are 0, and so are covariances
    of two coordinates of which one changes sides *)
Theorem C103_symmetric : forall g fl ctr, centred g fl ctr -> forall c f, comp_on c g f -> good_grid g -> nonneg g f -> image g fl f f ->
  forall C lw, lw_ok g f lw -> (nonempty C = false -> lw = false -> total g (mass g f) = 1) -> untouched fl C ->
  forall q, disjoint (cvar q) C = true -> flipped fl q = true -> forall j, Nat.odd j = true ->
  exists a b, get_mean (base_obj c) (dname (cvar q) C) lw = Ok a /\ get_central_moment (base_obj c) (dname (cvar q) C) j lw = Ok b /\
    forall i, in_grid g i -> 0 < marg g (prob g f lw) C i -> ent a (mcoords q C i) = Fin (ctr q) /\ ent b (mcoords q C i) = Fin 0.
Proof. exact symmetric_one. Qed.
Print Assumptions C103_symmetric.
Theorem C103_symmetric_covariances : forall g fl ctr, centred g fl ctr -> forall c f, comp_on c g f -> good_grid g -> nonneg g f -> image g fl f f ->
  forall C lw, lw_ok g f lw -> (nonempty C = false -> lw = false -> total g (mass g f) = 1) -> untouched fl C ->
  forall x y, before x y = true -> disjoint (union (cvar x) (cvar y)) C = true -> flipped fl x <> flipped fl y ->
  exists a, get_covariance (base_obj c) (dname (union (cvar x) (cvar y)) C) lw = Ok a /\
    forall i, in_grid g i -> 0 < marg g (prob g f lw) C i -> ent a (mcoords (xkey x y) C i) = Fin 0.
Proof. exact symmetric_two. Qed.
Print Assumptions C103_symmetric_covariances.
(** velocity and position change sides together; they are correlated *)
Example C103_symmetric_case : exists a b c d e,
  get_mean (base_obj exsc) "v_t" false = Ok a /\ get_central_moment (base_obj exsc) "v_t" 3 false = Ok b /\
  ent a [1]%nat = Fin 0 /\ ent b [1]%nat = Fin 0 /\
  get_mean (base_obj exsc) "x_t" false = Ok c /\ ent c [0; 1]%nat = Fin 1 /\
  get_covariance (base_obj exsc) "tv_z" true = Ok d /\ ent d [1]%nat = Fin 0 /\
  get_p exsc "vx" false false = Ok e /\ ent e [0; 0; 0]%nat <> ent e [0; 1; 0]%nat.
Proof.
  assert (U : forall t z, untouched exfl (VSet t false false z)) by (intros; split; discriminate).
  assert (P : 0 < marg exg (prob exg exsym false) (VSet true false false false) (Bin 1 0 0 0 0)).
  { unfold prob, marg, over, mass, exsym. cbn [has_t has_v has_x has_z]. ev. lra. }
  assert (P' : 0 < marg exg (prob exg exsym true) (VSet false false false true) (Bin 0 0 0 0 1)).
  { unfold prob, light, total, lit, marg, over, mass, exsym. cbn [has_t has_v has_x has_z]. ev. lra. }
  destruct (C103_symmetric exg exfl exctr (ex_centred exfl) exsc exsym exsc_on exg_good exsym_nonneg exsym_image
    (VSet true false false false) false (exsym_lw false) ltac:(discriminate) (U _ _) Cv eq_refl eq_refl 3%nat eq_refl) as (a & b & Ea & Eb & H1).
  destruct (C103_symmetric exg exfl exctr (ex_centred exfl) exsc exsym exsc_on exg_good exsym_nonneg exsym_image
    (VSet true false false false) false (exsym_lw false) ltac:(discriminate) (U _ _) Cx1 eq_refl eq_refl 3%nat eq_refl) as (c & c' & Ec & _ & H2).
  destruct (C103_symmetric_covariances exg exfl exctr (ex_centred exfl) exsc exsym exsc_on exg_good exsym_nonneg exsym_image
    (VSet false false false true) true (exsym_lw true) ltac:(discriminate) (U _ _) Ct Cv eq_refl eq_refl ltac:(discriminate)) as (d & Ed & H3).
  destruct (DistLemmas.get_p_marg exsc exg exsym exsc_on exg_good exsym_nonneg (VSet false true true false) false false eq_refl (exsym_lw false)) as (e & Ee & _ & H4).
  exists a, b, c, d, e. repeat (split; [assumption|]).
  split; [exact (proj1 (H1 (Bin 1 0 0 0 0) ltac:(repeat split; cbn; lia) P))|].
  split; [exact (proj2 (H1 (Bin 1 0 0 0 0) ltac:(repeat split; cbn; lia) P))|].
  split; [exact Ec|]. split; [exact (proj1 (H2 (Bin 1 0 0 0 0) ltac:(repeat split; cbn; lia) P))|].
  split; [exact Ed|]. split; [exact (H3 (Bin 0 0 0 0 1) ltac:(repeat split; cbn; lia) P')|]. split; [exact Ee|].
  pose proof (H4 (Bin 0 0 0 0 0) ltac:(repeat split; cbn; lia)) as A. pose proof (H4 (Bin 0 0 1 0 0) ltac:(repeat split; cbn; lia)) as B.
  change (ent e [0; 0; 0]%nat = Fin (marg exg (mass exg exsym) (VSet false true true false) (Bin 0 0 0 0 0) / 1)) in A.
  change (ent e [0; 1; 0]%nat = Fin (marg exg (mass exg exsym) (VSet false true true false) (Bin 0 0 1 0 0) / 1)) in B.
  rewrite A, B. intros K. injection K as K. revert K. unfold marg, over, mass, exsym. cbn [has_t has_v has_x has_z]. ev. lra.
Qed.

(** ** datacubes: spectra are those of the pixel on the other side, broadened by
    the reversed distributions if the velocities change sides *)
Theorem C103_datacube : forall W g fl ctr, centred g fl ctr -> forall c' f f', image g fl f f' -> forall n dv S v0, evaluable c' g f' n dv S v0 ->
  (fl_v fl = true -> nv g = (2 * v0 + 1)%nat) -> forall batch, is_batch batch ->
  exists y, evaluate_ybar W c' batch = Ok y /\ is_cube y n (nx g) (ny g) (fun w i j =>
    Sum (nt g) (fun t => Sum (nz g) (fun z => conv n (S t z) (fun r =>
      broadening W n (nv g) v0 (bin_prob g f dv t (other_end (fl_x1 fl) (nx g) i) (other_end (fl_x2 fl) (ny g) j) z) (sign fl Cv * r)) w))).
Proof. exact mirror_ybar. Qed.
Print Assumptions C103_datacube.
Theorem C103_datacube_positions : forall W g fl ctr, centred g fl ctr -> forall c c' f f', image g fl f f' -> forall n dv S v0,
  evaluable c g f n dv S v0 -> evaluable c' g f' n dv S v0 -> fl_v fl = false -> forall batch batch', is_batch batch -> is_batch batch' ->
  exists y y', evaluate_ybar W c batch = Ok y /\ evaluate_ybar W c' batch' = Ok y' /\ shp y = [n; nx g; ny g] /\ shp y' = [n; nx g; ny g] /\
    forall w i j, (w < n)%nat -> (i < nx g)%nat -> (j < ny g)%nat ->
      ent y' [w; i; j] = ent y [w; other_end (fl_x1 fl) (nx g) i; other_end (fl_x2 fl) (ny g) j].
Proof.
  exact (fun W g fl ctr Hc c c' f f' HI n dv S v0 He He' Ef b b' Hb Hb' =>
    mirror_ybar_same W g fl ctr Hc c c' f f' HI n dv S v0 He He' (fun E => False_ind _ (diff_false_true (eq_trans (eq_sym Ef) E))) b b' Hb Hb' Ef).
Qed.
Print Assumptions C103_datacube_positions.
Example C103_datacube_case : exists y y' u,
  evaluate_ybar idW (comp_for (exv 2 7 2) exD 8 1 exS) "none" = Ok y /\
  evaluate_ybar idW (comp_for (exv 2 7 2) (image_of (exv 2 7 2) (Flips false true false) exD) 8 1 exS) "column" = Ok y' /\
  ent y' [5; 0; 0]%nat = ent y [5; 1; 0]%nat /\
  evaluate_ybar idW (comp_for (exv 2 7 2) (image_of (exv 2 7 2) (Flips true true true) exD) 8 1 exS) "none" = Ok u /\
  ent u [5; 0; 0]%nat = Fin (Sum 2 (fun t => Sum 2 (fun z => conv 8 (exS t z) (fun r =>
    broadening idW 8 7 3 (bin_prob (exv 2 7 2) exD 1 t 1 0 z) (-1 * r)) 5))).
Proof.
  assert (E : evaluable (comp_for (exv 2 7 2) exD 8 1 exS) (exv 2 7 2) exD 8 1 exS 3) by (apply exv_evaluable; try lia; apply exD_nonneg).
  destruct (C103_datacube_positions idW (exv 2 7 2) (Flips false true false) exctr7 (exv_centred _) _ _ exD _ (image_of_image _ _ _) 8 1 exS 3%nat E (exv_image_evaluable _)
    eq_refl "none" "column" (or_introl eq_refl) (or_intror (or_introl eq_refl))) as (y & y' & Ey & Ey' & _ & _ & H).
  destruct (C103_datacube idW (exv 2 7 2) (Flips true true true) exctr7 (exv_centred _) _ exD _ (image_of_image _ _ _) 8 1 exS 3%nat (exv_image_evaluable _)
    (fun _ => eq_refl) "none" (or_introl eq_refl)) as (u & Eu & _ & Hu).
  exists y, y', u. repeat (split; [assumption|]). split; [apply H; cbn; lia|]. split; [exact Eu|]. apply (Hu 5 0 0)%nat; cbn; lia.
Qed.

(** ** parametric components *)
Theorem C103_parametric_marginals : forall g fl ctr, centred g fl ctr -> forall m m', par_image g fl ctr m m' ->
  forall L s s', par_on L s g m -> par_on L s' g m' -> good_grid g -> good_par g m ->
  forall S (density lw : bool), nonempty S = true -> par_lw_ok g m lw (has_v S) ->
  exists a b, par_get_p L s (name S) density lw = Ok a /\ par_get_p L s' (name S) density lw = Ok b /\ shp a = dims S g /\ shp b = dims S g /\
    forall i, in_grid g i -> ent b (coords S i) = ent a (coords S (mirror g fl i)).
Proof. exact mirror_par_marg. Qed.
Print Assumptions C103_parametric_marginals.
Theorem C103_parametric_conditionals : forall g fl ctr, centred g fl ctr -> forall m m', par_image g fl ctr m m' ->
  forall L s s', par_on L s g m -> par_on L s' g m' -> good_grid g -> good_par g m ->
  forall A C (density lw : bool), nonempty A = true -> nonempty C = true -> disjoint A C = true ->
  par_lw_ok g m lw (has_v (union A C)) -> par_lw_ok g m lw (has_v C) -> (lw = true -> cname A C <> "v_tx") ->
  exists a b, par_get_p L s (cname A C) density lw = Ok a /\ par_get_p L s' (cname A C) density lw = Ok b /\
    shp a = (dims A g ++ dims C g)%list /\ shp b = (dims A g ++ dims C g)%list /\
    forall i, in_grid g i -> 0 < par_prob g m' lw C i \/ lw = true ->
      ent b (coords A i ++ coords C i) = ent a (coords A (mirror g fl i) ++ coords C (mirror g fl i)).
Proof. exact mirror_par_cond. Qed.
Print Assumptions C103_parametric_conditionals.
Theorem C103_parametric_means : forall g fl ctr, centred g fl ctr -> forall m m', par_image g fl ctr m m' ->
  forall L s s', par_on L s g m -> par_on L s' g m' -> good_grid g -> good_par g m ->
  forall lw C, has_v C = false -> par_lw_ok g m lw false ->
  exists a b, get_mean (par_obj L (Fin 1) s) (dname V_v C) lw = Ok a /\ get_mean (par_obj L (Fin 1) s') (dname V_v C) lw = Ok b /\
    shp a = dims C g /\ shp b = dims C g /\
    forall i, in_grid g i -> 0 < par_prob g m' lw C i -> (nonempty C = false -> lw = false -> par_prob g m' false no_vars i = 1) ->
      ent b (coords C i) = num_mirrored fl ctr Cv (ent a (coords C (mirror g fl i))).
Proof. exact mirror_par_mean. Qed.
Print Assumptions C103_parametric_means.
Theorem C103_parametric_moments : forall g fl ctr, centred g fl ctr -> forall m m', par_image g fl ctr m m' ->
  forall L s s', par_on L s g m -> par_on L s' g m' -> good_grid g -> good_par g m ->
  forall lw C, has_v C = false -> par_lw_ok g m lw false -> forall j,
  exists a b, get_central_moment (par_obj L (Fin 1) s) (dname V_v C) j lw = Ok a /\ get_central_moment (par_obj L (Fin 1) s') (dname V_v C) j lw = Ok b /\
    shp a = dims C g /\ shp b = dims C g /\
    forall i, in_grid g i -> 0 < par_prob g m' lw C i -> (nonempty C = false -> lw = false -> par_prob g m' false no_vars i = 1) ->
      ent b (coords C i) = nmul (Fin (sign fl Cv ^ j)) (ent a (coords C (mirror g fl i))).
Proof. exact mirror_par_central. Qed.
Print Assumptions C103_parametric_moments.
Example C103_parametric_example : exists a b c d e h,
  par_get_p exL exmp "tv" true false = Ok a /\ par_get_p exL exmp_im "tv" true false = Ok b /\ ent b [0; 0]%nat = ent a [0; 1]%nat /\
  get_mean (par_obj exL (Fin 1) exmp) "v" true = Ok c /\ get_mean (par_obj exL (Fin 1) exmp_im) "v" true = Ok d /\
  ent d [] = nsub (Fin (2 * 0)) (ent c []) /\
  get_central_moment (par_obj exL (Fin 1) exmp) "v" 3 true = Ok e /\ get_central_moment (par_obj exL (Fin 1) exmp_im) "v" 3 true = Ok h /\
  ent h [] = nmul (Fin ((-1) ^ 3)) (ent e []).
Proof.
  destruct (C103_parametric_marginals exg exfl exctr (ex_centred exfl) exmod exmod_im exmod_image exL exmp exmp_im exmp_on exmp_im_on exg_good exmod_good
    (VSet true true false false) true false eq_refl ltac:(discriminate)) as (a & b & Ea & Eb & _ & _ & H1).
  destruct (C103_parametric_means exg exfl exctr (ex_centred exfl) exmod exmod_im exmod_image exL exmp exmp_im exmp_on exmp_im_on exg_good exmod_good
    true no_vars eq_refl (exmod_lw true)) as (c & d & Ec & Ed & _ & _ & H2).
  destruct (C103_parametric_moments exg exfl exctr (ex_centred exfl) exmod exmod_im exmod_image exL exmp exmp_im exmp_on exmp_im_on exg_good exmod_good
    true no_vars eq_refl (exmod_lw true) 3%nat) as (e & h & Ee & Eh & _ & _ & H3).
  assert (I : in_grid exg (Bin 0 0 0 0 0)) by (repeat split; cbn; lia).
  assert (P : 0 < par_prob exg exmod_im true no_vars (Bin 0 0 0 0 0)).
  { rewrite (par_prob_mirror exg exfl exctr (ex_centred exfl) exmod exmod_im exmod_image) by exact I.
    unfold par_prob, marg, over, pprob, light, total, lit, pjoint, txz_mass. cbn [has_t has_v has_x has_z no_vars pgrid]. ev. lra. }
  exists a, b, c, d, e, h. repeat (split; [assumption|]). split; [exact (H1 _ I)|]. repeat (split; [assumption|]).
  split; [exact (H2 _ I P ltac:(discriminate))|]. repeat (split; [assumption|]). exact (H3 _ I P ltac:(discriminate)).
Qed.
Theorem C103_parametric_datacube : forall g fl ctr, centred g fl ctr -> forall m m', par_image g fl ctr m m' ->
  forall L s', par_on L s' g m' -> good_grid g -> good_par g m -> forall n dv S, templates (c_ssps (pa_cube s')) g n dv S -> dv <> 0 ->
  (fl_v fl = true -> ctr Cv = 0) -> forall batch, is_batch batch ->
  exists y, par_evaluate_ybar L s' batch = Ok y /\ is_cube y n (nx g) (ny g) (fun w i j =>
    let x1 := other_end (fl_x1 fl) (nx g) i in let x2 := other_end (fl_x2 fl) (ny g) j in
    Sum (nt g) (fun t => Sum (nz g) (fun z => txz_mass g m t x1 x2 z *
      conv n (S t z) (fun r => losvd n dv (pm_mu m t x1 x2) (pm_sig m t x1 x2) (sign fl Cv * r)) w))).
Proof. exact mirror_datacube. Qed.
Print Assumptions C103_parametric_datacube.
Theorem C103_parametric_datacube_positions : forall g fl ctr, centred g fl ctr -> forall m m', par_image g fl ctr m m' ->
  forall L s s', par_on L s g m -> par_on L s' g m' -> good_grid g -> good_par g m ->
  forall n dv S, templates (c_ssps (pa_cube s)) g n dv S -> templates (c_ssps (pa_cube s')) g n dv S -> dv <> 0 ->
  fl_v fl = false -> forall batch batch', is_batch batch -> is_batch batch' ->
  exists y y', par_evaluate_ybar L s batch = Ok y /\ par_evaluate_ybar L s' batch' = Ok y' /\ shp y = [n; nx g; ny g] /\ shp y' = [n; nx g; ny g] /\
    forall w i j, (w < n)%nat -> (i < nx g)%nat -> (j < ny g)%nat ->
      ent y' [w; i; j] = ent y [w; other_end (fl_x1 fl) (nx g) i; other_end (fl_x2 fl) (ny g) j].
Proof.
  exact (fun g fl ctr Hc m m' HI L s s' H H' Hg Hm n dv S HT HT' Hd Ef b b' Hb Hb' =>
    mirror_datacube_same g fl ctr Hc m m' HI L s s' H H' Hg Hm n dv S HT HT' Hd (fun E => False_ind _ (diff_false_true (eq_trans (eq_sym Ef) E))) b b' Hb Hb' Ef).
Qed.
Print Assumptions C103_parametric_datacube_positions.

(** ** a growing disk in the middle of the image is its own mirror image under
    half a turn, and under reflections about its axes if those are along the
    image; [disk_symmetry] says which sides are swapped *)
Theorem C103_disk : forall L c g rot f fl ctr, cube_on c g -> good_grid g -> cube_xy c g (fun x _ => mid (xE g) x) (fun _ y => mid (yE g) y) ->
  sfh_ok L f -> good_norm (norm_cdf L) -> (forall r, norm_cdf L (- r) = 1 - norm_cdf L r) ->
  centred g fl ctr -> (fl_v fl = true -> ctr Cv = 0) -> disk_symmetry rot fl -> forall d, disk_ok d ->
  (exists x y, (x < nx g)%nat /\ (y < ny g)%nat /\ cos rot * (mid (xE g) x - ctr Cx1) <> sin rot * (mid (yE g) y - ctr Cx2)) ->
  exists self m, build_disk L c (ctr Cx1, ctr Cx2) rot f d = Ok self /\ pa_cube self = c /\ par_on L self g m /\ good_par g m /\
    (ParClaims.positive_light g -> forall b, par_lw_ok g m true b) /\ par_image g fl ctr m m.
Proof. exact disk_symmetric. Qed.
Print Assumptions C103_disk.
(** where it swaps the velocities the mean is in the middle and odd moments are
    0, given variables that it leaves alone *)
Theorem C103_parametric_symmetric : forall g fl ctr, centred g fl ctr -> forall m, par_image g fl ctr m m ->
  forall L s, par_on L s g m -> good_grid g -> good_par g m ->
  forall lw C, has_v C = false -> par_lw_ok g m lw false -> untouched fl C -> fl_v fl = true -> forall j, Nat.odd j = true ->
  exists a b, get_mean (par_obj L (Fin 1) s) (dname V_v C) lw = Ok a /\ get_central_moment (par_obj L (Fin 1) s) (dname V_v C) j lw = Ok b /\
    forall i, in_grid g i -> 0 < par_prob g m lw C i -> (nonempty C = false -> lw = false -> par_prob g m false no_vars i = 1) ->
      ent a (coords C i) = Fin (ctr Cv) /\ ent b (coords C i) = Fin 0.
Proof. exact symmetric_par. Qed.
Print Assumptions C103_parametric_symmetric.
Example C103_disk_case : exists self m a b y,
  build_disk exL (exseen exlit) (1, 1 / 2) (PI / 6) exsfh exdisk = Ok self /\ par_on exL self exg m /\ par_image exg (Flips true true true) exctr m m /\
  get_mean (par_obj exL (Fin 1) self) "v" true = Ok a /\ get_central_moment (par_obj exL (Fin 1) self) "v" 3 true = Ok b /\
  ent a [] = Fin 0 /\ ent b [] = Fin 0 /\
  par_evaluate_ybar exL self "none" = Ok y /\
  ent y [1; 0; 0]%nat = Fin (Sum 2 (fun t => Sum 2 (fun z => txz_mass exg m t 1 0 z *
    conv 2 (exlit t z) (fun r => losvd 2 1 (pm_mu m t 1 0) (pm_sig m t 1 0) (-1 * r)) 1))).
Proof.
  assert (Hc : cos (PI / 6) <> 0) by (rewrite cos_PI6; pose proof (sqrt_lt_R0 3 ltac:(lra)); lra).
  destruct (C103_disk exL (exseen exlit) exg (PI / 6) exsfh (Flips true true true) exctr (exseen_on exlit) exg_good (exseen_xy exlit) exsfh_ok exL_norm
    logistic_even (ex_centred _) (fun _ => eq_refl) (or_introl eq_refl) exdisk exdisk_ok (ex_off_centre _ Hc)) as (self & m & E & Ec & Hon & Hm & Hl0 & HI).
  assert (HT : templates (c_ssps (pa_cube self)) exg 2 1 exlit) by (rewrite Ec; apply exseen_templates).
  pose proof (Hl0 exg_light false) as Hl.
  destruct (C103_parametric_symmetric exg (Flips true true true) exctr (ex_centred _) m HI exL self Hon exg_good Hm true no_vars
    eq_refl Hl ltac:(split; discriminate) eq_refl 3%nat eq_refl) as (a & b & Ea & Eb & H1).
  destruct (C103_parametric_datacube exg (Flips true true true) exctr (ex_centred _) m m HI exL self Hon exg_good Hm 2%nat 1 exlit HT ltac:(lra) (fun _ => eq_refl)
    "none" (or_introl eq_refl)) as (y & Ey & _ & Hy).
  exists self, m, a, b, y. repeat (split; [assumption|]).
  assert (P : 0 < par_prob exg m true no_vars (Bin 0 0 0 0 0)) by (rewrite (ParMomClaims.norm_lw exg m true Hl) by reflexivity; lra).
  destruct (H1 (Bin 0 0 0 0 0) ltac:(repeat split; cbn; lia) P ltac:(discriminate)) as [Z1 Z2].
  split; [exact Z1|]. split; [exact Z2|]. split; [exact Ey|]. apply (Hy 1 0 0)%nat; cbn; lia.
Qed.

(** ** particles: if none is at an edge between bins, mirrored particles give
    the mirror image *)
Theorem C103_particles : forall g fl ctr, centred g fl ctr -> good_grid g -> forall c pw, cube_on c g ->
  (forall q, In q pw -> 0 <= snd q) -> 0 < weight (in_bounds g) pw -> (forall q, In q pw -> between_edges g fl (fst q)) ->
  exists n n' comp comp', from_particle c (map fst pw) (Some (map Fin (map snd pw))) = Ok (n, comp) /\
    from_particle c (map (mirror_particle fl ctr) (map fst pw)) (Some (map Fin (map snd pw))) = Ok (n', comp') /\ n_lost n = n_lost n' /\
    forall S (density lw : bool), nonempty S = true -> lw_ok g (particle_density g pw) lw ->
      exists a b, get_p comp (name S) density lw = Ok a /\ get_p comp' (name S) density lw = Ok b /\ shp a = dims S g /\ shp b = dims S g /\
        forall i, in_grid g i -> ent b (coords S i) = ent a (coords S (mirror g fl i)).
Proof. exact mirror_particles_marg. Qed.
Print Assumptions C103_particles.
(** one at such an edge is in the bin above it, and so is its mirror image *)
Theorem C103_on_edges_refuted : forall g fl ctr, centred g fl ctr -> forall i p, in_grid g i -> fl_v fl = true -> (0 < bv i)%nat ->
  p_v p = Fin (vE g (bv i)) -> inside g i p = true -> inside g (mirror g fl i) (mirror_particle fl ctr p) = false.
Proof. exact on_edge. Qed.
Print Assumptions C103_on_edges_refuted.
Example C103_particles_case : (exists n n' comp comp' a b,
    from_particle ParticleExample.excube [pa; pb; pout] (Some [Fin 1; Fin 3; Fin 2]) = Ok (n, comp) /\
    from_particle ParticleExample.excube (map (mirror_particle exfl exctr) [pa; pb; pout]) (Some [Fin 1; Fin 3; Fin 2]) = Ok (n', comp') /\
    get_p comp "tv" false false = Ok a /\ get_p comp' "tv" false false = Ok b /\ ent b [1; 1]%nat = ent a [1; 0]%nat) /\
  (let p := Particle (Fin 1) (Fin 0) (Fin (1 / 2)) (Fin (1 / 2)) (Fin 6) in
    inside exg (Bin 1 1 0 0 1) p = true /\ inside exg (Bin 1 0 1 0 1) (mirror_particle exfl exctr p) = false).
Proof.
  split.
  - destruct (C103_particles exg exfl exctr (ex_centred exfl) exg_good ParticleExample.excube expw ParticleExample.excube_on ParticleExample.exp_pos ltac:(rewrite exp_total; lra) expw_between)
      as (n & n' & comp & comp' & E & E' & _ & H).
    destruct (H (VSet true true false false) false false eq_refl ltac:(discriminate)) as (a & b & Ea & Eb & _ & _ & He).
    exists n, n', comp, comp', a, b. repeat (split; [assumption|]). exact (He (Bin 1 1 0 0 0) ltac:(repeat split; cbn; lia)).
  - intros p. assert (Hp : inside exg (Bin 1 1 0 0 1) p = true) by (unfold inside, in_bin, p, exg; cbn; rbool; reflexivity). split; [exact Hp|].
    refine (C103_on_edges_refuted exg exfl exctr (ex_centred exfl) (Bin 1 1 0 0 1) p _ eq_refl _ _ Hp); [repeat split; cbn; lia|cbn; lia|].
    cbn. f_equal. lra.
Qed.
