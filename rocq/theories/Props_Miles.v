(** * Props_Miles: claims C32-C37 and C70 about read_miles.py. *)
From Coq Require Import Reals Lra Lia List Bool Arith ZArith String Ascii.
From Verif Require Import Num NumLemmas Arr ArrLemmas PyStr ReadMiles MilesSpec MilesLemmas MilesLemmas2 MilesLemmas3 MilesClaims MilesExample.
Import ListNotations.
Local Open Scope R_scope.

(** C32: names of the MILES form are parsed to the values they spell, and rebuilding the
    name of a file from its values gives the name back. *)
Theorem C32_names_round_trip : forall fs, Forall miles_form fs -> NoDup fs ->
  exists q, split_modfiles (map file_name fs) = Ok q /\
    zval q = map file_z fs /\ tval q = map file_t fs /\
    forall f, In f fs -> (forall h, In h fs -> file_z h = file_z f -> file_t h = file_t f -> h = f) ->
      join_modfiles q (file_z f) (file_t f) = Ok (file_name f).
Proof. exact round_trip_claim. Qed.
Print Assumptions C32_names_round_trip.
Example C32_case : file_name fa = "Mch1.30Zm0.25T00.0300_iTp0.00_baseFe.fits"%string /\
  exists q, split_modfiles ["Mch1.30Zm0.25T00.0300_iTp0.00_baseFe.fits"%string] = Ok q /\
    zval q = [-0.25] /\ tval q = [0.03].
Proof.
  split; [reflexivity|]. destruct (C32_names_round_trip [fa]) as (q & E & Ez & Et & _).
  - constructor; [|constructor]. pose proof form4 as F. inversion F; assumption.
  - repeat constructor; cbn; tauto.
  - exists q. split; [exact E|]. rewrite Ez, Et. cbn [map]. rewrite za, ta. split; reflexivity.
Qed.

(** C33: limits keep exactly the files inside the closed ranges, in listing order, and
    every per-file list still describes the same files. *)
Theorem C33_limits : forall fs al zl, Forall miles_form fs ->
  exists q q' K, split_modfiles (map file_name fs) = Ok q /\ filter_age_metallicity_limits al zl q = Ok q' /\
    kept (fun f => within (age_range al) (file_t f) /\ within (z_range zl) (file_z f)) fs K /\ describes q' K.
Proof. exact filter_claim. Qed.
Print Assumptions C33_limits.
Example C33_case : kept (fun f => within (0, 0.5) (file_t f) /\ within (-3, 3) (file_z f)) exfiles [fa; fc].
Proof.
  unfold exfiles, within; cbn [fst snd].
  apply kept_no; [rewrite td; lra|]. apply kept_yes; [rewrite za, ta; lra|].
  apply kept_yes; [rewrite zc, tc; lra|]. apply kept_no; [rewrite tb; lra|]. constructor.
Qed.

(** C33: with limits given, a surviving set that is not a complete grid raises ValueError,
    and an empty one IndexError. *)
Theorem C33_ragged : forall d fs md al zl K, holds d fs -> md <> EmptyString -> given al zl -> limited al zl fs K ->
  readable d K (List.length default_lmd) ->
  (K <> [] -> ~ full_grid K -> init d (Some md) al zl 1 1 = (d, Err ValueError)) /\
  (K = [] -> init d (Some md) al zl 1 1 = (d, Err IndexError)).
Proof. exact ragged_claim. Qed.
Print Assumptions C33_ragged.
Example C33_ragged_case : init (exdisk exragged) (Some "M"%string) (Some (0, 2)) None 1 1 = (exdisk exragged, Err ValueError).
Proof.
  apply (C33_ragged (exdisk exragged) exragged "M"%string (Some (0, 2)) None exragged).
  - exact exragged_holds. - discriminate. - left; discriminate. - exact exragged_kept. - apply exreadable.
  - discriminate. - exact exragged_not_full.
Qed.

(** C34: column iz*nt+it is the spectrum of the it-th smallest age at the iz-th smallest
    metallicity; and C70 (thinning) through [thinned]. *)
Theorem C34_columns : forall d fs md al zl ka kz K1 K, holds d fs -> md <> EmptyString -> (0 < ka)%nat -> (0 < kz)%nat ->
  given al zl -> limited al zl fs K1 -> thinned ka kz K1 K -> K <> [] -> full_grid K ->
  readable d K (List.length default_lmd) ->
  exists m x, init d (Some md) al zl ka kz = (d, Ok m) /\ m_X m = Some x /\ describes (m_names m) K /\
    distinct_sorted (map file_z K) (z_unq m) /\ distinct_sorted (map file_t K) (t_unq m) /\
    m_nz m = List.length (z_unq m) /\ m_nt m = List.length (t_unq m) /\
    lmd m = default_lmd /\ shp x = [List.length default_lmd; (m_nz m * m_nt m)%nat] /\
    (forall f s iz it, In f K -> fits_data d (file_name f) = Ok s ->
      (iz < m_nz m)%nat -> (it < m_nt m)%nat -> nth iz (z_unq m) 0 = file_z f -> nth it (t_unq m) 0 = file_t f ->
      forall i, (i < List.length default_lmd)%nat -> ent x [i; (iz * m_nt m + it)%nat] = nth i s NaN).
Proof. exact column_claim. Qed.
Print Assumptions C34_columns.
Theorem C34_listing_order : forall d d' fs fs' md al zl K K', holds d fs -> holds d' fs' -> md <> EmptyString -> given al zl ->
  (forall f, In f fs <-> In f fs') -> (forall f, In f fs -> fits_data d (file_name f) = fits_data d' (file_name f)) ->
  limited al zl fs K -> limited al zl fs' K' -> K <> [] -> full_grid K -> readable d K (List.length default_lmd) ->
  exists m m' x x', init d (Some md) al zl 1 1 = (d, Ok m) /\ init d' (Some md) al zl 1 1 = (d', Ok m') /\
    z_unq m' = z_unq m /\ t_unq m' = t_unq m /\ m_X m = Some x /\ m_X m' = Some x' /\
    shp x' = shp x /\ forall idx, inb idx (shp x) -> ent x' idx = ent x idx.
Proof. exact order_claim. Qed.
Print Assumptions C34_listing_order.
Example C34_case : exists m x, init (exdisk exfiles) (Some "M"%string) (Some (0, 2)) None 1 1 = (exdisk exfiles, Ok m) /\ m_X m = Some x.
Proof.
  destruct (C34_columns (exdisk exfiles) exfiles "M"%string (Some (0, 2)) None 1 1 exfiles exfiles) as (m & x & E & Hx & _).
  - exact exholds. - discriminate. - lia. - lia. - left; discriminate. - exact exkept. - apply thinned_1. - discriminate.
  - exact exfull. - apply exreadable.
  - exists m, x. auto.
Qed.

(** C70: thinning by (ka, kz) keeps exactly the files whose age is the (i*ka)-th and whose
    metallicity the (j*kz)-th smallest, for some i and j. *)
Theorem C70_thinning : forall ka kz fs, (0 < ka)%nat -> (0 < kz)%nat -> Forall miles_form fs ->
  exists q q' K, split_modfiles (map file_name fs) = Ok q /\ thin_model_grid ka kz q = Ok q' /\ describes q' K /\
    kept (fun f => (exists i, nth_smallest (map file_t fs) (file_t f) (i * ka)) /\
                   (exists j, nth_smallest (map file_z fs) (file_z f) (j * kz))) fs K.
Proof. exact thinning_claim. Qed.
Print Assumptions C70_thinning.
Example C70_case : nth_smallest (map file_t exfiles) (file_t fb) 1.
Proof.
  exists [0.03; 1]. split; [|split; [cbn; lia|cbn; rewrite tb; reflexivity]].
  split.
  - intros x. cbn [map exfiles In]. rewrite ta, tb, tc, td. intuition lra.
  - intros i j Hij Hj. cbn in Hj. assert (i = 0 /\ j = 1)%nat as [-> ->] by lia. cbn. lra.
Qed.

(** C35: truncation keeps exactly the (wavelength, row) pairs inside the closed request. *)
Theorem C35_truncation : forall m lo hi x p, lmd m <> [] -> m_X m = Some x -> shp x = [List.length (lmd m); p] ->
  ~ below_all lo (lmd m) -> ~ above_all hi (lmd m) ->
  exists m' x', truncate_wavelengths m lo hi = Ok m' /\ m_X m' = Some x' /\
    shp x' = [List.length (lmd m'); p] /\
    kept (fun r => in_request lo hi (fst r))
      (combine (lmd m) (rows x (List.length (lmd m)) p)) (combine (lmd m') (rows x' (List.length (lmd m')) p)) /\
    m_names m' = m_names m /\ z_unq m' = z_unq m /\ t_unq m' = t_unq m /\ m_nz m' = m_nz m /\ m_nt m' = m_nt m.
Proof. exact truncate_ok. Qed.
Print Assumptions C35_truncation.
Theorem C35_out_of_range : forall m lo hi, lmd m <> [] -> below_all lo (lmd m) \/ above_all hi (lmd m) ->
  truncate_wavelengths m lo hi = Err ValueError.
Proof. exact truncate_raises. Qed.
Print Assumptions C35_out_of_range.
Example C35_case : ~ below_all (Some 2) [1; 2; 3] /\ ~ above_all (Some 2.5) [1; 2; 3] /\ below_all (Some 0.5) [1; 2; 3] /\
  kept (fun r => in_request (Some 2) (Some 2.5) (fst r))
    (combine [1; 2; 3] [[Fin 4]; [Fin 5]; [Fin 6]]) (combine [2] [[Fin 5]]).
Proof.
  split; [intros (x & E & H); injection E as <-; specialize (H 1); cbn in H; lra|].
  split; [intros (x & E & H); injection E as <-; specialize (H 3); cbn in H; lra|].
  split; [exists 0.5; split; [reflexivity|]; intros y; cbn; lra|].
  cbn. apply kept_no; [unfold in_request; cbn; lra|]. apply kept_yes; [unfold in_request; cbn; lra|].
  apply kept_no; [unfold in_request; cbn; lra|]. constructor.
Qed.

(** C36, refuted: when the factor divides the number of pixels every pixel is dropped. *)
Theorem C36_divisible_refuted : forall m k n p X, spectra_are m n p X -> (2 <= k)%nat -> (0 < p)%nat -> (n mod k = 0)%nat ->
  exists m', bin_pixels m k = Ok m' /\ lmd m' = [] /\ spectra_are m' 0 p (fun _ _ => 0).
Proof. exact bin_drop_claim. Qed.
Print Assumptions C36_divisible_refuted.
(** otherwise pixels j, j+n/k, j+2n/k, ... are added: flux is conserved but not locally *)
Theorem C36_strided : forall m k n p X, spectra_are m n p X -> (2 <= k)%nat -> (0 < p)%nat -> (n mod k <> 0)%nat ->
  exists m' X', bin_pixels m k = Ok m' /\ spectra_are m' (n / k) p X' /\
    (forall j c, (j < n / k)%nat -> (c < p)%nat -> X' j c = Sum k (fun b => X (b * (n / k) + j)%nat c)) /\
    (forall j, (j < n / k)%nat -> nth j (lmd m') 0 = Sum k (fun b => nth (b * (n / k) + j) (lmd m) 0)) /\
    (forall c, (c < p)%nat -> Sum (n / k) (fun j => X' j c) = Sum (n - n mod k) (fun i => X i c)).
Proof. exact bin_strided_claim. Qed.
Print Assumptions C36_strided.
(** refuted: light in pixel 1 does not reach the bin that should hold pixels 0 and 1 *)
Theorem C36_adjacent_refuted : forall m k n p X, spectra_are m n p X -> (2 <= k)%nat -> (0 < p)%nat -> (n mod k <> 0)%nat -> (2 <= n / k)%nat ->
  (forall i c, X i c = if Nat.eqb i 1 then 1 else 0) ->
  exists m' X', bin_pixels m k = Ok m' /\ spectra_are m' (n / k) p X' /\
    Sum k (fun i => X i O) = 1 /\ X' O O = 0.
Proof. exact bin_adjacent_claim. Qed.
Print Assumptions C36_adjacent_refuted.
(** refuted: the wavelength of a bin is a sum, beyond the whole wavelength range *)
Theorem C36_wavelength_refuted : forall m k n p X a b, spectra_are m n p X -> (2 <= k)%nat -> (0 < p)%nat -> (n mod k <> 0)%nat ->
  (forall l, In l (lmd m) -> a <= l <= b) -> b < INR k * a ->
  exists m', bin_pixels m k = Ok m' /\ List.length (lmd m') = (n / k)%nat /\ forall l, In l (lmd m') -> b < l.
Proof. exact bin_wavelength_claim. Qed.
Print Assumptions C36_wavelength_refuted.
Definition exm : miles := Miles (Names [] [] [] [] [] [] []) None None 1 1 [] [] 0 0 [4; 5; 6; 7; 7.5]
  (Some (Arr [5; 1]%nat (fun idx => match idx with [i; c] => Fin (if Nat.eqb i 1 then 1 else 0) | _ => NaN end))).
Example C36_case : spectra_are exm 5 1 (fun i _ => if Nat.eqb i 1 then 1 else 0) /\ (5 mod 2 <> 0)%nat /\ (2 <= 5 / 2)%nat /\
  (forall l, In l (lmd exm) -> 4 <= l <= 7.5) /\ 7.5 < INR 2 * 4.
Proof.
  split; [split; [reflexivity|]; eexists; split; [reflexivity|]; split; [reflexivity|]; intros; reflexivity|].
  split; [cbn; lia|]. split; [cbn; lia|]. split; [intros l; cbn; lra|cbn; lra].
Qed.

(** C37, refuted: after any history of constructor calls starting without the cache file,
    there is still no cache file and a default construction fails; for a proper template
    directory with AttributeError. *)
Theorem C37_no_cache_refuted : forall d rs md, has_cache d = false ->
  has_cache (after d rs) = false /\ (exists e, snd (init (after d rs) md None None 1 1) = Err e).
Proof. exact cache_history_claim. Qed.
Print Assumptions C37_no_cache_refuted.
Theorem C37_default_error_refuted : forall d fs rs md K, holds d fs -> md <> EmptyString -> has_cache d = false ->
  limited None None fs K -> full_grid K ->
  init (after d rs) (Some md) None None 1 1 = (after d rs, Err AttributeError).
Proof. exact cache_error_claim. Qed.
Print Assumptions C37_default_error_refuted.
Example C37_case : init (exdisk exfiles) (Some "M"%string) None None 1 1 = (exdisk exfiles, Err AttributeError).
Proof.
  apply (C37_default_error_refuted (exdisk exfiles) exfiles [] "M"%string exfiles).
  - exact exholds. - discriminate. - reflexivity. - exact exkept_default. - exact exfull.
Qed.
(** with the cache present a default construction loads it, and truncation is undone by reset *)
Theorem C37_cached : forall d fs md K lo hi, holds d fs -> md <> EmptyString -> has_cache d = true ->
  limited None None fs K -> full_grid K ->
  exists m, init d (Some md) None None 1 1 = (d, Ok m) /\ m_X m = Some (npy d) /\ lmd m = default_lmd /\
    forall m', truncate_wavelengths m lo hi = Ok m' -> reset d m' = (d, Ok m).
Proof. exact reset_claim. Qed.
Print Assumptions C37_cached.
(** refuted: if the cache file has gone, reset writes the object's current (possibly truncated)
    spectra as the cache, and later default constructions load them against the full
    wavelength array *)
Theorem C37_reset_refuted : forall d fs md K m x, holds d fs -> md <> EmptyString -> has_cache d = false ->
  limited None None fs K -> full_grid K -> default_request m = true -> m_X m = Some x ->
  exists d' m', reset d m = (d', Ok m') /\ m_X m' = Some x /\ lmd m' = default_lmd /\
    exists m2, init d' (Some md) None None 1 1 = (d', Ok m2) /\ m_X m2 = Some x /\ lmd m2 = default_lmd.
Proof. exact reset_stores_claim. Qed.
Print Assumptions C37_reset_refuted.
Example C37_reset_case : default_request exm = true /\
  (exists x, m_X exm = Some x /\ hd O (shp x) <> List.length default_lmd).
Proof.
  split; [reflexivity|]. eexists. split; [reflexivity|]. cbn [shp hd]. intros E.
  pose proof default_lmd_length as L. rewrite <- E in L. discriminate L.
Qed.
