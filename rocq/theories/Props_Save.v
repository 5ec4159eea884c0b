(** * Claims C69 and C72: saving components. *)
From Coq Require Import Reals Lra Lia List Bool Arith ZArith String Ascii.
From Verif Require Import Num NumLemmas Arr ArrLemmas Cube Base Spec Repr Build Mixture MixSpec MixExample Save SaveLemmas.
Import ListNotations.
Local Open Scope R_scope.

(** ** C69 *)
(** save_numpy of any component with the inherited get_p raises TypeError and
    writes nothing, whatever the arguments *)
Theorem C69_save_numpy_refuted : forall f c ybar p fname yobs direc,
  snd (save_numpy f (plain_saved c ybar p) fname yobs direc) = Err TypeError /\
  fs_files (fst (save_numpy f (plain_saved c ybar p) fname yobs direc)) = fs_files f.
Proof. exact plain_fails_claim. Qed.
Print Assumptions C69_save_numpy_refuted.
Example C69_save_numpy_case :
  snd (save_numpy (Fs [] []) (plain_saved (comp_cube exc) (Some (scal (Fin 1))) (get_p exc)) "a" None (Some "out/"%string)) = Err TypeError.
Proof. apply C69_save_numpy_refuted. Qed.
(** the default directory None fails for every component and both methods *)
Theorem C69_no_directory_refuted : forall f self fname yobs,
  save_numpy f self fname yobs None = (f, Err TypeError) /\ dill_dump f self fname None = (f, Err TypeError).
Proof. exact no_directory_claim. Qed.
Print Assumptions C69_no_directory_refuted.
(** a mixture with ybar evaluated is saved: p(x,v,z,t) is its density rearranged,
    S the spectra by (z,t), the rest as in the cube *)
Theorem C69_mixture : forall self g comps l, mix_on self g comps l -> good_grid g ->
  forall f nl fname yobs y d, shp (Xw (c_ssps (mx_cube self))) = [nl; (nz g * nt g)%nat] ->
  exists n, save_numpy f (mixture_saved self (Some y)) fname yobs (Some d) =
      (write (mkdir f d) (npz_name (d ++ fname)) (FNpz n), Ok tt) /\
    z_yobs n = yobs /\ z_ybar n = y /\ z_nx1 n = nx g /\ z_nx2 n = ny g /\
    z_x1rng n = (Fin (xE g 0), Fin (xE g (nx g))) /\ z_x2rng n = (Fin (yE g 0), Fin (yE g (ny g))) /\
    vec (z_z_bin_edges n) (nz g + 1) (zE g) /\ vec (z_t_bin_edges n) (nt g + 1) (tE g) /\ vec (z_v_edg n) (nv g + 1) (vE g) /\
    arr_is (z_S n) [nl; nz g; nt g]
      (fun idx => match idx with [w; z; t] => ent (Xw (c_ssps (mx_cube self))) [w; (z * nt g + t)%nat] | _ => NaN end) /\
    arr_is (z_f_xvtz n) [nx g; ny g; nv g; nz g; nt g]
      (fun idx => match idx with [x; y; v; z; t] => Fin (mixf l t v x y z) | _ => NaN end).
Proof. exact mixture_saved_claim. Qed.
Print Assumptions C69_mixture.
Example C69_mixture_case : exists n, save_numpy (Fs [] []) (mixture_saved exSmix (Some (scal (Fin 1)))) "a" None (Some "out/"%string) =
  (Fs ["out/"] [("out/a.npz", FNpz n)], Ok tt)%string /\ ent (z_f_xvtz n) [1; 0; 1; 0; 0]%nat = Fin (mixf expts 0%nat 1%nat 1%nat 0%nat 0%nat) /\
  ent (z_S n) [2; 1; 1]%nat = Fin (2 + 10 * 3).
Proof.
  destruct exSmix_on as [cs Hon].
  destruct (C69_mixture exSmix exg cs expts Hon exg_good (Fs [] []) 3%nat "a" None (scal (Fin 1)) "out/" eq_refl)
    as (n & E & _ & _ & _ & _ & _ & _ & _ & _ & _ & [_ HS] & [_ Hf]).
  exists n. split; [exact E|]. split.
  - apply (Hf [1; 0; 1; 0; 0]%nat). repeat (constructor; [cbn; lia|]). constructor.
  - etransitivity; [apply (HS [2; 1; 1]%nat); repeat (constructor; [cbn; lia|]); constructor|]. cbn. f_equal. lra.
Qed.
Theorem C69_mixture_not_evaluated : forall self g comps l, mix_on self g comps l -> good_grid g ->
  forall f nl fname yobs d, shp (Xw (c_ssps (mx_cube self))) = [nl; (nz g * nt g)%nat] ->
  snd (save_numpy f (mixture_saved self None) fname yobs (Some d)) = Err AttributeError.
Proof. exact mixture_unevaluated_claim. Qed.
Print Assumptions C69_mixture_not_evaluated.

(** ** C72 *)
Theorem C72_dill_dump_refuted : forall f self fname d, (forall d', d <> (d' ++ "/")%string) -> (forall r, fname <> String "/" r) ->
  exists p x, fs_files (fst (dill_dump f self fname (Some d))) = (p, x) :: fs_files f /\
    isdir (fst (dill_dump f self fname (Some d))) d = true /\ ~ in_directory d p.
Proof. exact outside_claim. Qed.
Print Assumptions C72_dill_dump_refuted.
Example C72_dill_dump_case : forall self, fst (dill_dump (Fs [] []) self "a" (Some "out"%string)) = Fs ["out"%string] [("outa"%string, FDill self)].
Proof. reflexivity. Qed.
Theorem C72_save_numpy_refuted : forall f self n fname yobs d, npz_args self yobs = Ok n ->
  (forall d', d <> (d' ++ "/")%string) -> (forall r, fname <> String "/" r) -> fname <> ""%string ->
  exists p x, fs_files (fst (save_numpy f self fname yobs (Some d))) = (p, x) :: fs_files f /\
    isdir (fst (save_numpy f self fname yobs (Some d))) d = true /\ ~ in_directory d p.
Proof. exact save_outside_claim. Qed.
Print Assumptions C72_save_numpy_refuted.
(** with a separator in either name the dump is inside and is the component *)
Theorem C72_with_separator : forall f self fname d, (exists d', d = (d' ++ "/")%string) \/ (exists r, fname = String "/" r) ->
  exists p x, fs_files (fst (dill_dump f self fname (Some d))) = (p, x) :: fs_files f /\ in_directory d p.
Proof. exact inside_claim. Qed.
Print Assumptions C72_with_separator.
Theorem C72_contents : forall f self fname d, dill_dump f self fname (Some d) =
  (Fs (fs_dirs (mkdir f d)) ((d ++ fname, FDill self)%string :: fs_files f), Ok tt).
Proof. exact dill_claim. Qed.
Print Assumptions C72_contents.
