(** * MirrorParticle: mirror images of particles. *)
From Coq Require Import Reals Lra Lia List Bool Arith ZArith String Ascii.
From Verif Require Import Num NumLemmas Arr ArrLemmas PyStr Cube Base Spec SpecLemmas Repr DistLemmas Moments MomSpec MomArr MomLemmas MomClaims
  Particle ParticleSpec ParticleLemmas ParticleClaims ParticleCells MirrorSpec Mirror MirrorClaims.
Import ListNotations.
Local Open Scope R_scope.

Section Particle.
Context (g : grid) (fl : flips) (ctr : coord -> R) (Hc : centred g fl ctr) (Hg : good_grid g).
Lemma edges_up k n : (n < cn g k)%nat -> cedge g k n < cedge g k (S n).
Proof. destruct k; intros Hn; [apply (gg_tE _ Hg)|apply (gg_vE _ Hg)|apply (gg_xE _ Hg)|apply (gg_yE _ Hg)|apply (gg_zE _ Hg)]; exact Hn. Qed.
Lemma in_bin_mirror k j a : (j < cn g k)%nat -> (flipped fl k = true -> forall n, (0 < n)%nat -> (n < cn g k)%nat -> a <> Fin (cedge g k n)) ->
  in_bin (cn g k) (cedge g k) j (num_mirrored fl ctr k a) = in_bin (cn g k) (cedge g k) (other_end (flipped fl k) (cn g k) j) a.
Proof.
  intros Hj Ha. unfold num_mirrored. destruct (flipped fl k) eqn:E; cbn [other_end]; [|reflexivity]. specialize (Ha eq_refl).
  destruct a as [r| | |]; try reflexivity. rewrite nsub_Fin. unfold in_bin. set (n := cn g k) in *.
  pose proof (Hc k E j ltac:(fold n; lia)) as E1. pose proof (Hc k E (S j) ltac:(fold n; lia)) as E2. pose proof (Hc k E n ltac:(fold n; lia)) as E3.
  fold n in E1, E2, E3. rewrite Nat.sub_diag in E3.
  replace (S (n - 1 - j)) with (n - j)%nat by lia. replace (n - 1 - j)%nat with (n - S j)%nat by lia.
  apply eq_true_iff_eq. rewrite !orb_true_iff, !andb_true_iff, !Rleb_iff, !Rltb_iff, !Reqb_iff, !Nat.eqb_eq. rewrite E1, E2.
  assert (N1 : (0 < j)%nat -> r <> 2 * ctr k - cedge g k j) by (intros H -> ; apply (Ha (n - j)%nat); [lia|fold n; lia|rewrite E1; reflexivity]).
  assert (N2 : (S j < n)%nat -> r <> 2 * ctr k - cedge g k (S j)) by (intros H ->; apply (Ha (n - S j)%nat); [lia|fold n; lia|rewrite E2; reflexivity]).
  pose proof (edges_up k j Hj) as U.
  split.
  - intros [[A B]|[A B]].
    + destruct (Req_dec r (2 * ctr k - cedge g k j)) as [D|D].
      * destruct j as [|j]; [|exfalso; apply N1; [lia|exact D]]. right. split; [lia|]. rewrite Nat.sub_0_r in E1. rewrite E1. exact D.
      * left. lra.
    + left. rewrite A in *. lra.
  - intros [[A B]|[A B]].
    + destruct (Req_dec r (2 * ctr k - cedge g k (S j))) as [D|D].
      * destruct (Nat.eq_dec (S j) n) as [F|F]; [|exfalso; apply N2; [lia|exact D]]. right. split; [exact F|]. rewrite F in D. lra.
      * left. lra.
    + left. assert (j = 0)%nat by lia. subst j. rewrite Nat.sub_0_r in E1. rewrite E1 in B. lra.
Qed.
Lemma in_range_mirror k a : in_range (cn g k) (cedge g k) (num_mirrored fl ctr k a) = in_range (cn g k) (cedge g k) a.
Proof.
  unfold num_mirrored. destruct (flipped fl k) eqn:E; [|reflexivity]. destruct a as [r| | |]; try reflexivity. rewrite nsub_Fin. unfold in_range.
  pose proof (Hc k E (cn g k) ltac:(lia)) as E3. rewrite Nat.sub_diag in E3. rewrite E3.
  apply eq_true_iff_eq. rewrite !andb_true_iff, !Rleb_iff. lra.
Qed.
Lemma inside_mirror i p : in_grid g i -> between_edges g fl p -> inside g i (mirror_particle fl ctr p) = inside g (mirror g fl i) p.
Proof.
  intros (H1 & H2 & H3 & H4 & H5) Hp. unfold inside, mirror_particle, mirror. cbn [bt bv bx by_ bz p_t p_v p_x1 p_x2 p_z].
  pose proof (in_bin_mirror Cv _ (p_v p) H2 (Hp Cv (p_v p) ltac:(cbn; auto))) as A1.
  pose proof (in_bin_mirror Cx1 _ (p_x1 p) H3 (Hp Cx1 (p_x1 p) ltac:(cbn; auto))) as A2.
  pose proof (in_bin_mirror Cx2 _ (p_x2 p) H4 (Hp Cx2 (p_x2 p) ltac:(cbn; auto))) as A3.
  cbn [cn cedge flipped] in *. rewrite A1, A2, A3. reflexivity.
Qed.
Lemma bounds_mirror p : in_bounds g (mirror_particle fl ctr p) = in_bounds g p.
Proof.
  unfold in_bounds, mirror_particle. cbn [p_t p_v p_x1 p_x2 p_z].
  pose proof (in_range_mirror Cv (p_v p)) as A1. pose proof (in_range_mirror Cx1 (p_x1 p)) as A2. pose proof (in_range_mirror Cx2 (p_x2 p)) as A3.
  cbn [cn cedge] in *. rewrite A1, A2, A3. reflexivity.
Qed.
Definition mirror_all (pw : list (particle * R)) := map (fun q => (mirror_particle fl ctr (fst q), snd q)) pw.
Lemma weight_mirror P Q pw : (forall q, In q pw -> P (mirror_particle fl ctr (fst q)) = Q (fst q)) -> weight P (mirror_all pw) = weight Q pw.
Proof.
  intros H. unfold weight, mirror_all. f_equal. rewrite map_map. apply map_ext_in. intros q Hq. cbn [fst snd]. rewrite H by exact Hq. reflexivity.
Qed.
Lemma density_image pw : (forall q, In q pw -> between_edges g fl (fst q)) -> image g fl (particle_density g pw) (particle_density g (mirror_all pw)).
Proof.
  intros Hp i Hi. cbv zeta. unfold particle_density.
  rewrite (weight_mirror (in_bounds g) (in_bounds g) pw) by (intros; apply bounds_mirror).
  rewrite (weight_mirror (inside g (Bin (bt i) (bv i) (bx i) (by_ i) (bz i))) (inside g (mirror g fl i)) pw)
    by (intros q Hq; destruct i; apply inside_mirror; [exact Hi|apply Hp; exact Hq]).
  destruct Hi as (H1 & H2 & H3 & H4 & H5).
  pose proof (wid_end g fl ctr Hc Cv _ H2) as A. pose proof (wid_end g fl ctr Hc Cx1 _ H3) as B. pose proof (wid_end g fl ctr Hc Cx2 _ H4) as D.
  unfold mirror. cbn [bt bv bx by_ bz cedge cn flipped] in *. rewrite A, B, D. reflexivity.
Qed.
Lemma mirror_particles c pw : cube_on c g -> (forall q, In q pw -> 0 <= snd q) -> 0 < weight (in_bounds g) pw -> (forall q, In q pw -> between_edges g fl (fst q)) ->
  exists n n' comp comp' f f', from_particle c (map fst pw) (Some (map Fin (map snd pw))) = Ok (n, comp) /\
    from_particle c (map (mirror_particle fl ctr) (map fst pw)) (Some (map Fin (map snd pw))) = Ok (n', comp') /\
    comp_on comp g f /\ comp_on comp' g f' /\ nonneg g f /\ image g fl f f'.
Proof.
  intros Hcube Hw Hb Hp. destruct (density_claim c g Hcube Hg pw Hb) as (comp & E & Hon).
  assert (Hb' : 0 < weight (in_bounds g) (mirror_all pw)) by (rewrite (weight_mirror _ (in_bounds g)); [exact Hb|intros; apply bounds_mirror]).
  destruct (density_claim c g Hcube Hg (mirror_all pw) Hb') as (comp' & E' & Hon').
  assert (M1 : map fst (mirror_all pw) = map (mirror_particle fl ctr) (map fst pw)) by (unfold mirror_all; rewrite !map_map; reflexivity).
  assert (M2 : map snd (mirror_all pw) = map snd pw) by (unfold mirror_all; rewrite map_map; reflexivity).
  rewrite M1, M2 in E'. exists (note_of g (map fst pw)), (note_of g (map (mirror_particle fl ctr) (map fst pw))), comp, comp'.
  exists (particle_density g pw), (particle_density g (mirror_all pw)).
  do 4 (split; [assumption|]). split; [|apply density_image; exact Hp].
  intros t v x y z H1 H2 H3 H4 H5. apply Rmult_le_pos; [apply Rmult_le_pos|].
  - apply weight_nonneg. exact Hw.
  - left. apply Rinv_0_lt_compat. exact Hb.
  - left. apply Rinv_0_lt_compat. pose proof (gg_tE _ Hg t H1). pose proof (gg_vE _ Hg v H2). pose proof (gg_xE _ Hg x H3).
    pose proof (gg_yE _ Hg y H4). pose proof (gg_zE _ Hg z H5). repeat apply Rmult_lt_0_compat; unfold wid; lra.
Qed.
Lemma lost_mirror l : n_lost (note_of g l) = n_lost (note_of g (map (mirror_particle fl ctr) l)).
Proof.
  unfold note_of, count. cbn [n_lost]. induction l as [|p l IH]; [reflexivity|]. cbn [map filter]. rewrite bounds_mirror.
  destruct (in_bounds g p); cbn [negb List.length]; rewrite ?IH; reflexivity.
Qed.
Lemma mirror_particles_marg c pw : cube_on c g -> (forall q, In q pw -> 0 <= snd q) -> 0 < weight (in_bounds g) pw -> (forall q, In q pw -> between_edges g fl (fst q)) ->
  exists n n' comp comp', from_particle c (map fst pw) (Some (map Fin (map snd pw))) = Ok (n, comp) /\
    from_particle c (map (mirror_particle fl ctr) (map fst pw)) (Some (map Fin (map snd pw))) = Ok (n', comp') /\ n_lost n = n_lost n' /\
    forall S (density lw : bool), nonempty S = true -> lw_ok g (particle_density g pw) lw ->
      exists a b, get_p comp (name S) density lw = Ok a /\ get_p comp' (name S) density lw = Ok b /\ shp a = dims S g /\ shp b = dims S g /\
        forall i, in_grid g i -> ent b (coords S i) = ent a (coords S (mirror g fl i)).
Proof.
  intros Hcube Hw Hb Hp. destruct (density_claim c g Hcube Hg pw Hb) as (comp & E & Hon).
  destruct (mirror_particles c pw Hcube Hw Hb Hp) as (n & n' & k & k' & f & f' & E1 & E2 & H1 & H2 & Hn & HI).
  assert (Hb' : 0 < weight (in_bounds g) (mirror_all pw)) by (rewrite (weight_mirror _ (in_bounds g)); [exact Hb|intros; apply bounds_mirror]).
  destruct (density_claim c g Hcube Hg (mirror_all pw) Hb') as (comp' & E' & Hon').
  assert (M1 : map fst (mirror_all pw) = map (mirror_particle fl ctr) (map fst pw)) by (unfold mirror_all; rewrite !map_map; reflexivity).
  assert (M2 : map snd (mirror_all pw) = map snd pw) by (unfold mirror_all; rewrite map_map; reflexivity).
  rewrite M1, M2 in E'. eexists _, _, comp, comp'. split; [exact E|]. split; [exact E'|]. split.
  - apply lost_mirror.
  - intros S density lw HS Hl. apply (mirror_marg g fl ctr Hc comp comp' _ _ Hon Hon' Hg (particle_density_nonneg g Hg pw Hw Hb) (density_image pw Hp)); assumption.
Qed.
Lemma on_edge i p : in_grid g i -> fl_v fl = true -> (0 < bv i)%nat -> p_v p = Fin (vE g (bv i)) ->
  inside g i p = true -> inside g (mirror g fl i) (mirror_particle fl ctr p) = false.
Proof.
  intros (H1 & H2 & H3 & H4 & H5) Ef Hv Ep _. unfold inside, mirror, mirror_particle. cbn [bt bv bx by_ bz p_t p_v p_x1 p_x2 p_z].
  rewrite Ep, Ef. cbn [other_end]. unfold num_mirrored. cbn [flipped]. rewrite Ef, nsub_Fin. 
  assert (B : in_bin (nv g) (vE g) (nv g - 1 - bv i) (Fin (2 * ctr Cv - vE g (bv i))) = false); [|rewrite B, andb_false_r; reflexivity].
  unfold in_bin. replace (S (nv g - 1 - bv i)) with (nv g - bv i)%nat by lia.
  pose proof (Hc Cv Ef (bv i) ltac:(cbn; lia)) as E1. cbn [cn cedge] in E1. rewrite <- E1.
  apply orb_false_iff. split.
  - apply andb_false_iff. right. apply not_true_iff_false. rewrite Rltb_iff. lra.
  - apply andb_false_iff. left. apply Nat.eqb_neq. lia.
Qed.
End Particle.
