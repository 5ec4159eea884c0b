(** * SaveLemmas: proofs of claims C69 and C72. *)
From Coq Require Import Reals Lra Lia List Bool Arith ZArith String Ascii.
From Verif Require Import Num NumLemmas Arr ArrLemmas PyStr Cube Base Spec SpecLemmas Repr CubeLemmas BaseLemmas CondLemmas
  DistLemmas Build Moments Ssps SspLemmas Noise Mixture MixSpec MixGen MixLemmas MixCond MixExample Save.
Import ListNotations.
Local Open Scope R_scope.

Lemma plain_fails_claim f c ybar p fname yobs direc :
  snd (save_numpy f (plain_saved c ybar p) fname yobs direc) = Err TypeError /\
  fs_files (fst (save_numpy f (plain_saved c ybar p) fname yobs direc)) = fs_files f.
Proof.
  destruct direc as [d|]; [|split; reflexivity]. unfold save_numpy.
  change (npz_args (plain_saved c ybar p) yobs) with (@Err npz TypeError). cbn [snd fst].
  split; [reflexivity|]. unfold mkdir. destruct (isdir f d); reflexivity.
Qed.

Lemma no_directory_claim f self fname yobs :
  save_numpy f self fname yobs None = (f, Err TypeError) /\ dill_dump f self fname None = (f, Err TypeError).
Proof. split; reflexivity. Qed.

Section mixture.
Context (self : mixture) (g : grid) (comps : list component) (l : parts).
Context (Hm : mix_on self g comps l) (Hg : good_grid g).

Lemma density_ok : exists p, mix_get_p self "tvxz" true true false = Ok p /\
  arr_is p [nt g; nv g; nx g; ny g; nz g]
    (fun idx => match idx with [t; v; x; y; z] => Fin (mixf l t v x y z) | _ => NaN end).
Proof.
  destruct (mix_p_marg self g (fun _ => l) (mix_on_gen _ _ _ _ Hm Hg) Hg all_vars true true false eq_refl) as (p & E & Hs & Hp).
  { discriminate. }
  change (name all_vars) with "tvxz"%string in E. exists p. split; [exact E|]. split; [exact Hs|].
  intros idx Hi. inb_inv. etransitivity; [apply (Hp (Bin i i0 i1 i2 i3)); repeat split; assumption|].
  f_equal. rewrite marg_all. cbn [bt bv bx by_ bz]. unfold prob, mass. cbn [vol].
  assert (0 < vol g all_vars (Bin i i0 i1 i2 i3)) by (apply vol_pos; [exact Hg|repeat split; assumption]).
  transitivity (mixf l i i0 i1 i2 i3 * vol g all_vars (Bin i i0 i1 i2 i3) / vol g all_vars (Bin i i0 i1 i2 i3)).
  - f_equal. unfold vol. cbn [all_vars has_t has_v has_x has_z ifw bt bv bx by_ bz]. ring.
  - field. lra.
Qed.

Definition mixture_npz (n : npz) (y : arr num) (yobs : option (arr num)) (nl : nat) : Prop :=
  z_yobs n = yobs /\ z_ybar n = y /\ z_nx1 n = nx g /\ z_nx2 n = ny g /\
  z_x1rng n = (Fin (xE g 0), Fin (xE g (nx g))) /\ z_x2rng n = (Fin (yE g 0), Fin (yE g (ny g))) /\
  vec (z_z_bin_edges n) (nz g + 1) (zE g) /\ vec (z_t_bin_edges n) (nt g + 1) (tE g) /\ vec (z_v_edg n) (nv g + 1) (vE g) /\
  arr_is (z_S n) [nl; nz g; nt g]
    (fun idx => match idx with [w; z; t] => ent (Xw (c_ssps (mx_cube self))) [w; (z * nt g + t)%nat] | _ => NaN end) /\
  arr_is (z_f_xvtz n) [nx g; ny g; nv g; nz g; nt g]
    (fun idx => match idx with [x; y; v; z; t] => Fin (mixf l t v x y z) | _ => NaN end).

Lemma mixture_args nl yobs y : shp (Xw (c_ssps (mx_cube self))) = [nl; (nz g * nt g)%nat] ->
  exists n, npz_args (mixture_saved self (Some y)) yobs = Ok n /\ mixture_npz n y yobs nl.
Proof.
  intros HX. unfold npz_args. cbn [sv_params sv_get_p mixture_saved sv_cube sv_ybar].
  change (check_keywords _ _) with (Ok tt). cbn [bind].
  destruct density_ok as (p & E & Hp). rewrite E. cbn [bind]. clear E.
  s_mov. rename r into f. rename Hr into Hf.
  pose proof (mo_cube _ _ _ _ Hm) as Hc. pose proof (co_ssps _ _ Hc) as Hs.
  rewrite (so_dims _ _ Hs). cbn [fst snd].
  assert (EX : exists x3, reshape3 (Xw (c_ssps (mx_cube self))) (nz g) (nt g) = Ok x3 /\
     arr_is x3 [nl; nz g; nt g] (fun idx => match idx with [w; z; t] => ent (Xw (c_ssps (mx_cube self))) [w; (z * nt g + t)%nat] | _ => NaN end)).
  { pose proof (gg_t _ Hg). pose proof (gg_z _ Hg).
    unfold reshape3. destruct (Nat.eqb_spec (nz g * nt g) 0); [nia|]. rewrite HX. cbn [size_of fold_right]. rewrite Nat.mul_1_r.
    rewrite Nat.mod_mul, Nat.div_mul by lia. cbn [Nat.eqb]. unfold reshape. rewrite HX. cbn [size_of fold_right].
    rewrite !Nat.mul_1_r, Nat.eqb_refl. eexists; split; [reflexivity|]. split; [reflexivity|].
    intros idx Hi. cbn [shp] in Hi. inb_inv. cbn [ent]. rewrite unravel_merge by assumption. reflexivity. }
  destruct EX as (x3 & EX & Hx3). rewrite EX. cbn [bind attr]. eexists; split; [reflexivity|].
  unfold mixture_npz. cbn [z_yobs z_ybar z_nx1 z_nx2 z_x1rng z_x2rng z_z_bin_edges z_t_bin_edges z_v_edg z_S z_f_xvtz].
  split; [reflexivity|]. split; [reflexivity|]. split; [apply Hc|]. split; [apply Hc|]. split; [apply Hc|]. split; [apply Hc|].
  split; [apply Hs|]. split; [apply Hs|]. split; [apply Hc|]. split; [exact Hx3|].
  destruct Hf as [Hfs Hfe]. split; [exact Hfs|]. intros idx Hi. rewrite (Hfe idx Hi). inb_inv. reflexivity.
Qed.

Lemma mixture_saved_claim f nl fname yobs y d : shp (Xw (c_ssps (mx_cube self))) = [nl; (nz g * nt g)%nat] ->
  exists n, save_numpy f (mixture_saved self (Some y)) fname yobs (Some d) =
    (write (mkdir f d) (npz_name (d ++ fname)) (FNpz n), Ok tt) /\ mixture_npz n y yobs nl.
Proof.
  intros HX. destruct (mixture_args nl yobs y HX) as (n & E & Hn). exists n. unfold save_numpy. rewrite E. auto.
Qed.

Lemma mixture_unevaluated_claim f nl fname yobs d : shp (Xw (c_ssps (mx_cube self))) = [nl; (nz g * nt g)%nat] ->
  snd (save_numpy f (mixture_saved self None) fname yobs (Some d)) = Err AttributeError.
Proof.
  intros HX. destruct (mixture_args nl yobs (scal NaN) HX) as (n & E & _). unfold save_numpy.
  assert (E' : npz_args (mixture_saved self None) yobs = Err AttributeError); [|rewrite E'; reflexivity].
  revert E. unfold npz_args. cbn [sv_params sv_get_p mixture_saved sv_cube sv_ybar].
  change (check_keywords _ _) with (Ok tt). cbn [bind].
  destruct (mix_get_p self "tvxz" true true false) as [p|e]; cbn [bind]; [|discriminate].
  destruct (moveaxis p _ _) as [q|e]; cbn [bind]; [|discriminate].
  destruct (reshape3 _ _ _) as [r|e]; cbn [bind]; [|discriminate]. reflexivity.
Qed.
End mixture.

(** ** C72: where the file goes *)
Lemma dill_claim f self fname d : dill_dump f self fname (Some d) =
  (Fs (fs_dirs (mkdir f d)) ((d ++ fname, FDill self)%string :: fs_files f), Ok tt).
Proof. unfold dill_dump, write, mkdir. destruct (isdir f d); reflexivity. Qed.

Lemma isdir_mkdir f d : isdir (mkdir f d) d = true.
Proof. unfold mkdir. destruct (isdir f d) eqn:E; [exact E|]. unfold isdir. cbn [fs_dirs existsb]. rewrite String.eqb_refl. reflexivity. Qed.

(** a file name lies in directory [d] when it is the directory name, a slash
    (either end of the join) and something more *)
Definition in_directory (d p : string) : Prop :=
  exists r, p = (d ++ r)%string /\ ((exists d', d = (d' ++ "/")%string) \/ exists r', r = String "/" r').

Lemma append_cancel_l (d a b : string) : (d ++ a = d ++ b)%string -> a = b.
Proof. induction d as [|c d IH]; cbn; [auto|]. intros H. injection H as H. auto. Qed.

Lemma outside_claim f self fname d : (forall d', d <> (d' ++ "/")%string) -> (forall r, fname <> String "/" r) ->
  exists p x, fs_files (fst (dill_dump f self fname (Some d))) = (p, x) :: fs_files f /\
    isdir (fst (dill_dump f self fname (Some d))) d = true /\ ~ in_directory d p.
Proof.
  intros Hd Hn. rewrite dill_claim. cbn [fst fs_files]. exists (d ++ fname)%string, (FDill self). split; [reflexivity|]. split.
  - exact (isdir_mkdir f d).
  - intros (r & E & [(d' & H)|(r' & H)]); [exact (Hd d' H)|]. apply append_cancel_l in E. rewrite <- E in H. exact (Hn r' H).
Qed.

Lemma inside_claim f self fname d : (exists d', d = (d' ++ "/")%string) \/ (exists r, fname = String "/" r) ->
  exists p x, fs_files (fst (dill_dump f self fname (Some d))) = (p, x) :: fs_files f /\ in_directory d p.
Proof.
  intros H. rewrite dill_claim. cbn [fst fs_files]. eexists _, _. split; [reflexivity|]. exists fname. split; [reflexivity|exact H].
Qed.

Lemma save_outside_claim f self n fname yobs d : npz_args self yobs = Ok n ->
  (forall d', d <> (d' ++ "/")%string) -> (forall r, fname <> String "/" r) -> fname <> ""%string ->
  exists p x, fs_files (fst (save_numpy f self fname yobs (Some d))) = (p, x) :: fs_files f /\
    isdir (fst (save_numpy f self fname yobs (Some d))) d = true /\ ~ in_directory d p.
Proof.
  intros En Hd Hn Hne. unfold save_numpy. rewrite En. cbn [fst fs_files write].
  exists (npz_name (d ++ fname)), (FNpz n). split; [unfold mkdir; destruct (isdir f d); reflexivity|]. split.
  - exact (isdir_mkdir f d).
  - intros (r & E & [(d' & H)|(r' & H)]); [exact (Hd d' H)|].
    assert (E' : exists e, npz_name (d ++ fname) = (d ++ (fname ++ e))%string).
    { unfold npz_name. destruct (ends_npz (d ++ fname)).
      - exists ""%string. f_equal. clear. induction fname as [|c s IH]; cbn; [reflexivity|f_equal; exact IH].
      - exists ".npz"%string. clear. induction d as [|c s IH]; cbn; [reflexivity|]. f_equal. exact IH. }
    destruct E' as [e E']. rewrite E' in E. apply append_cancel_l in E. rewrite <- E in H.
    destruct fname as [|c s]; [contradiction|]. cbn in H. injection H as -> _. exact (Hn s eq_refl).
Qed.

(** ** example: the mixture of MixExample on a cube with template spectra *)
Definition exS : ssps :=
  let s := ssps_of exg in
  Ssps (par_edges_z s) (par_edges_t s) (par_cents_z s) (par_cents_t s) (delta_t s) (delta_z s) (par_dims s) (light_weights s)
    (ssp_dv s) (Arr [3; 4]%nat (fun idx => Fin (INR (hd 0%nat idx) + 10 * INR (hd 0%nat (tl idx))))) (FXw s) (n_fft s).
Definition exScube : cube :=
  let c := cube_of exg in
  Cube exS (c_nx c) (c_ny c) (c_x1rng c) (c_x2rng c) (c_dx c) (c_dy c) (c_x c) (c_y c) (c_xx c) (c_yy c) (c_nv c) (c_v_edg c).
Definition exSmix : mixture := Mixture exScube (mx_members exm) (mx_weights exm).
Lemma exSmix_on : exists comps, mix_on exSmix exg comps expts.
Proof.
  destruct exm_on as [Hc Hm Hw Hl Hn Hk]. eexists. constructor; try eassumption.
  destruct Hc as [Hs]. constructor; try assumption. destruct Hs. constructor; assumption.
Qed.
