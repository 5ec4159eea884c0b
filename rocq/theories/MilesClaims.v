(** * MilesClaims: the claims about read_miles.py in their final form. *)
From Coq Require Import Reals Lra Lia List Bool Arith ZArith String Ascii.
From Verif Require Import Num NumLemmas Arr ArrLemmas PyStr ReadMiles MilesSpec MilesLemmas MilesLemmas2 MilesLemmas3.
Import ListNotations.
Local Open Scope R_scope.

Lemma round_trip_claim fs : Forall miles_form fs -> NoDup fs ->
  exists q, split_modfiles (map file_name fs) = Ok q /\
    zval q = map file_z fs /\ tval q = map file_t fs /\
    forall f, In f fs -> (forall h, In h fs -> file_z h = file_z f -> file_t h = file_t f -> h = f) ->
      join_modfiles q (file_z f) (file_t f) = Ok (file_name f).
Proof.
  intros H Nd. exists (names_of fs). split; [apply split_modfiles_ok; exact H|].
  split; [reflexivity|]. split; [reflexivity|]. intros f Hf U. apply join_one.
  apply NoDup_single; [exact Nd|exact Hf|apply matches_true; auto|].
  intros k Hk M. apply matches_true in M as [? ?]. auto.
Qed.

(** the per-file lists of [q] describe exactly the files [K], position by position *)
Definition describes (q : names) (K : list mfile) : Prop :=
  modfiles q = map file_name K /\ IMFstr q = map f_imf K /\ zstr q = map z_text K /\ zval q = map file_z K /\
  tstr q = map t_text K /\ tval q = map file_t K /\ endstr q = map f_end K.
Lemma describes_names K : describes (names_of K) K.
Proof. repeat split. Qed.

Lemma filter_claim fs al zl : Forall miles_form fs ->
  exists q q' K, split_modfiles (map file_name fs) = Ok q /\ filter_age_metallicity_limits al zl q = Ok q' /\
    kept (fun f => within (age_range al) (file_t f) /\ within (z_range zl) (file_z f)) fs K /\ describes q' K.
Proof.
  intros H. exists (names_of fs), (names_of (filter (in_limitsb al zl) fs)), (filter (in_limitsb al zl) fs).
  split; [apply split_modfiles_ok; exact H|]. split; [apply filter_ok|].
  split; [apply filter_kept, in_limitsb_ok|apply describes_names].
Qed.

(** files kept by the constructor's limits *)
Definition limited (al zl : option (R * R)) (fs K : list mfile) : Prop :=
  kept (fun f => within (age_range al) (file_t f) /\ within (z_range zl) (file_z f)) fs K.

Definition given (al zl : option (R * R)) : Prop := al <> None \/ zl <> None.
Lemma given_defaults al zl ka kz : given al zl -> defaults al zl ka kz = false.
Proof. unfold defaults. destruct al, zl; intros [H|H]; congruence. Qed.

Lemma ragged_claim d fs md al zl K : holds d fs -> md <> EmptyString -> given al zl -> limited al zl fs K ->
  readable d K (List.length default_lmd) ->
  (K <> [] -> ~ full_grid K -> init d (Some md) al zl 1 1 = (d, Err ValueError)) /\
  (K = [] -> init d (Some md) al zl 1 1 = (d, Err IndexError)).
Proof.
  intros Hd Hm Hg HK Hr. split.
  - intros Hne Nf. eapply init_not_full; try eassumption; try lia; [apply thinned_1|apply given_defaults; exact Hg].
  - intros ->. eapply init_empty; try eassumption; try lia; [apply thinned_1|apply given_defaults; exact Hg].
Qed.

Lemma column_claim d fs md al zl ka kz K1 K : holds d fs -> md <> EmptyString -> (0 < ka)%nat -> (0 < kz)%nat ->
  given al zl -> limited al zl fs K1 -> thinned ka kz K1 K -> K <> [] -> full_grid K ->
  readable d K (List.length default_lmd) ->
  exists m x, init d (Some md) al zl ka kz = (d, Ok m) /\ m_X m = Some x /\ describes (m_names m) K /\
    distinct_sorted (map file_z K) (z_unq m) /\ distinct_sorted (map file_t K) (t_unq m) /\
    m_nz m = List.length (z_unq m) /\ m_nt m = List.length (t_unq m) /\
    lmd m = default_lmd /\ shp x = [List.length default_lmd; (m_nz m * m_nt m)%nat] /\
    (forall f s iz it, In f K -> fits_data d (file_name f) = Ok s ->
      (iz < m_nz m)%nat -> (it < m_nt m)%nat -> nth iz (z_unq m) 0 = file_z f -> nth it (t_unq m) 0 = file_t f ->
      forall i, (i < List.length default_lmd)%nat -> ent x [i; (iz * m_nt m + it)%nat] = nth i s NaN).
Proof.
  intros Hd Hm Hka Hkz Hg HK1 HK Hne Fg Hr.
  assert (Nd : NoDup K).
  { apply (kept_NoDup _ _ _ HK). apply (kept_NoDup _ _ _ HK1). apply Hd. }
  rewrite (init_full d fs md al zl ka kz K1 K) by (try assumption; apply given_defaults; exact Hg).
  eexists; eexists. split; [reflexivity|]. cbn [m_X m_names z_unq t_unq m_nz m_nt lmd].
  split; [reflexivity|]. split; [apply describes_names|]. split; [apply unique_ok|]. split; [apply unique_ok|].
  split; [reflexivity|]. split; [reflexivity|]. split; [reflexivity|]. split; [reflexivity|].
  intros f s iz it Hf Es Hiz Hit Ez Et i Hi. cbn [matrix ent].
  rewrite (nth_concat (fun z t => the_spectrum d K z t)) by assumption. rewrite Ez, Et.
  rewrite (the_spectrum_file d K f s Nd Fg Hf Es). reflexivity.
Qed.

(** the same files listed in another order give the same matrix *)
Lemma order_claim d d' fs fs' md al zl K K' : holds d fs -> holds d' fs' -> md <> EmptyString -> given al zl ->
  (forall f, In f fs <-> In f fs') -> (forall f, In f fs -> fits_data d (file_name f) = fits_data d' (file_name f)) ->
  limited al zl fs K -> limited al zl fs' K' -> K <> [] -> full_grid K -> readable d K (List.length default_lmd) ->
  exists m m' x x', init d (Some md) al zl 1 1 = (d, Ok m) /\ init d' (Some md) al zl 1 1 = (d', Ok m') /\
    z_unq m' = z_unq m /\ t_unq m' = t_unq m /\ m_X m = Some x /\ m_X m' = Some x' /\
    shp x' = shp x /\ forall idx, inb idx (shp x) -> ent x' idx = ent x idx.
Proof.
  intros Hd Hd' Hm Hg Hin Hfits HK HK' Hne Fg Hr.
  assert (Nd : NoDup K) by (apply (kept_NoDup _ _ _ HK); apply Hd).
  assert (Nd' : NoDup K') by (apply (kept_NoDup _ _ _ HK'); apply Hd').
  assert (S1 : incl K fs) by (apply (kept_NoDup _ _ _ HK); apply Hd).
  assert (HKK : forall f, In f K <-> In f K').
  { intros f. rewrite (kept_filter _ _ _ _ (in_limitsb_ok al zl) HK), (kept_filter _ _ _ _ (in_limitsb_ok al zl) HK').
    rewrite !filter_In, Hin. reflexivity. }
  assert (Fg' : full_grid K').
  { intros f h Hf Hh. apply HKK in Hf, Hh. destruct (Fg f h Hf Hh) as (k & Hk & Ez & Et & U).
    exists k. split; [apply HKK; exact Hk|]. split; [exact Ez|]. split; [exact Et|].
    intros k' Hk'. apply U. apply HKK; exact Hk'. }
  assert (Hne' : K' <> []).
  { destruct K as [|f K0]; [contradiction|]. intros E. assert (In f K') by (apply HKK; left; reflexivity). rewrite E in H; contradiction. }
  assert (Hr' : readable d' K' (List.length default_lmd)).
  { intros f Hf. apply HKK in Hf. rewrite <- Hfits by (apply S1; exact Hf). apply Hr; exact Hf. }
  rewrite (init_full d fs md al zl 1 1 K K) by (first [assumption|lia|apply thinned_1|apply given_defaults; exact Hg]).
  rewrite (init_full d' fs' md al zl 1 1 K' K') by (first [assumption|lia|apply thinned_1|apply given_defaults; exact Hg]).
  assert (Uz : unique (map file_z K') = unique (map file_z K)).
  { apply distinct_sorted_unique. destruct (unique_ok (map file_z K')) as [A B]. split; [|exact B].
    intros x. rewrite A, !in_map_iff. split; intros (f & E & Hf); exists f; split; try exact E; apply HKK; exact Hf. }
  assert (Ut : unique (map file_t K') = unique (map file_t K)).
  { apply distinct_sorted_unique. destruct (unique_ok (map file_t K')) as [A B]. split; [|exact B].
    intros x. rewrite A, !in_map_iff. split; intros (f & E & Hf); exists f; split; try exact E; apply HKK; exact Hf. }
  rewrite Uz, Ut.
  do 4 eexists. split; [reflexivity|]. split; [reflexivity|]. cbn [m_X z_unq t_unq].
  split; [reflexivity|]. split; [reflexivity|]. split; [reflexivity|]. split; [reflexivity|]. split; [reflexivity|].
  intros idx Hi. cbn [matrix shp] in Hi. inb_inv. cbn [matrix ent]. f_equal. f_equal.
  f_equal. apply map_ext_in. intros z Hz. apply map_ext_in. intros t Ht.
  rewrite unique_in in Hz, Ht. apply in_map_iff in Hz as (f & <- & Hf). apply in_map_iff in Ht as (h & <- & Hh).
  destruct (Fg f h Hf Hh) as (k & Hk & Ez & Et & U). rewrite <- Ez, <- Et.
  destruct (Hr k Hk) as (s & Es & _).
  rewrite (the_spectrum_file d K k s Nd Fg Hk Es).
  apply the_spectrum_file; [exact Nd'|exact Fg'|apply HKK; exact Hk|]. rewrite <- Hfits by (apply S1; exact Hk). exact Es.
Qed.

(** ** the cache over a history of constructor calls *)
Record request := Req { r_dir : option string; r_age : option (R * R); r_z : option (R * R); r_ka : nat; r_kz : nat }.
Definition run (d : disk) (r : request) : disk * res miles := init d (r_dir r) (r_age r) (r_z r) (r_ka r) (r_kz r).
Definition after (d : disk) (rs : list request) : disk := fold_left (fun d r => fst (run d r)) rs d.

Lemma after_same d rs : after d rs = d.
Proof.
  unfold after. induction rs as [|r rs IH]; cbn; [reflexivity|]. unfold run at 2. rewrite init_keeps_disk. exact IH.
Qed.
Lemma cache_history_claim d rs md : has_cache d = false ->
  has_cache (after d rs) = false /\ (exists e, snd (init (after d rs) md None None 1 1) = Err e).
Proof. intros H. rewrite after_same. split; [exact H|]. apply default_no_cache; exact H. Qed.
Lemma cache_error_claim d fs rs md K : holds d fs -> md <> EmptyString -> has_cache d = false ->
  limited None None fs K -> full_grid K ->
  init (after d rs) (Some md) None None 1 1 = (after d rs, Err AttributeError).
Proof. intros. rewrite after_same. eapply default_attribute_error; eassumption. Qed.

(** with the cache present, truncating and resetting gives the full spectra back *)
Lemma reset_claim d fs md K lo hi : holds d fs -> md <> EmptyString -> has_cache d = true ->
  limited None None fs K -> full_grid K ->
  exists m, init d (Some md) None None 1 1 = (d, Ok m) /\ m_X m = Some (npy d) /\ lmd m = default_lmd /\
    forall m', truncate_wavelengths m lo hi = Ok m' -> reset d m' = (d, Ok m).
Proof.
  intros Hd Hm Hc HK Fg. destruct (default_cached d fs md K Hd Hm Hc HK Fg) as (m & E & Hx & Hl & Hdef).
  exists m. split; [exact E|]. split; [exact Hx|]. split; [exact Hl|]. intros m' T.
  unfold truncate_wavelengths in T.
  destruct (np_min (lmd m)); cbn [bind] in T; [|discriminate]. destruct (np_max (lmd m)); cbn [bind] in T; [|discriminate].
  cbv zeta in T. destruct (orb _ _) in T; [discriminate|].
  unfold get_X in T. rewrite Hx in T. cbn [bind] in T.
  destruct (take_rows _ _) in T; cbn [bind] in T; [|discriminate]. destruct (take_idx _ _) in T; cbn [bind] in T; [|discriminate].
  injection T as <-. unfold reset, read_spectra.
  assert (D : forall l l' x, default_request (with_lmd (with_lmd (with_X m x) l) l') = true) by (intros; exact Hdef).
  rewrite D, Hc. cbn [andb negb]. f_equal. f_equal. destruct m; cbn in *. subst. reflexivity.
Qed.

(** without it, reset stores whatever the object currently holds as "all spectra" *)
Lemma reset_stores_claim d fs md K m x : holds d fs -> md <> EmptyString -> has_cache d = false ->
  limited None None fs K -> full_grid K -> default_request m = true -> m_X m = Some x ->
  exists d' m', reset d m = (d', Ok m') /\ m_X m' = Some x /\ lmd m' = default_lmd /\
    exists m2, init d' (Some md) None None 1 1 = (d', Ok m2) /\ m_X m2 = Some x /\ lmd m2 = default_lmd.
Proof.
  intros Hd Hm Hc HK Fg Hdef Hx. unfold reset, read_spectra.
  assert (D : default_request (with_lmd m default_lmd) = true) by exact Hdef. rewrite D, Hc. cbn [andb negb].
  unfold get_X. cbn [with_lmd m_X]. rewrite Hx. eexists; eexists. split; [reflexivity|]. cbn [m_X lmd].
  split; [exact Hx || reflexivity|]. split; [reflexivity|].
  edestruct (default_cached (Disk (listing d ++ [cache_name]) (fits_data d) x) fs md K) as (m2 & E & Hx2 & Hl2 & _).
  - destruct Hd as (F & N & L). split; [exact F|]. split; [exact N|]. right. exists (listing d), []. cbn [listing].
    split; [reflexivity|]. rewrite app_nil_r. destruct L as [L|(l1 & l2 & L & _)]; [symmetry; exact L|].
    exfalso. unfold has_cache in Hc. rewrite L, existsb_app in Hc. cbn [existsb] in Hc. rewrite String.eqb_refl, orb_true_r in Hc. discriminate.
  - exact Hm.
  - unfold has_cache. cbn [listing]. rewrite existsb_app. cbn [existsb]. rewrite String.eqb_refl. rewrite orb_true_r. reflexivity.
  - exact HK.
  - exact Fg.
  - exists m2. split; [exact E|]. split; [exact Hx2|exact Hl2].
Qed.

(** ** binning *)
(** a matrix of finite numbers [X] with n rows and p columns, with its wavelengths *)
Definition spectra_are (m : miles) (n p : nat) (X : nat -> nat -> R) : Prop :=
  List.length (lmd m) = n /\
  exists x, m_X m = Some x /\ shp x = [n; p] /\
    forall i c, (i < n)%nat -> (c < p)%nat -> ent x [i; c] = Fin (X i c).

Lemma bin_drop_claim m k n p X : spectra_are m n p X -> (2 <= k)%nat -> (0 < p)%nat -> (n mod k = 0)%nat ->
  exists m', bin_pixels m k = Ok m' /\ lmd m' = [] /\ spectra_are m' 0 p (fun _ _ => 0).
Proof.
  intros (Hl & x & Hx & Hs & HX) Hk Hp Hr.
  destruct (bin_divides m k x n p) as (m' & x' & E & Hx' & Hs' & Hl'); try assumption.
  exists m'. split; [exact E|]. split; [exact Hl'|]. split; [rewrite Hl'; reflexivity|].
  exists x'. split; [exact Hx'|]. split; [exact Hs'|]. intros; lia.
Qed.
Lemma bin_strided_claim m k n p X : spectra_are m n p X -> (2 <= k)%nat -> (0 < p)%nat -> (n mod k <> 0)%nat ->
  exists m' X', bin_pixels m k = Ok m' /\ spectra_are m' (n / k) p X' /\
    (forall j c, (j < n / k)%nat -> (c < p)%nat -> X' j c = Sum k (fun b => X (b * (n / k) + j)%nat c)) /\
    (forall j, (j < n / k)%nat -> nth j (lmd m') 0 = Sum k (fun b => nth (b * (n / k) + j) (lmd m) 0)) /\
    (forall c, (c < p)%nat -> Sum (n / k) (fun j => X' j c) = Sum (n - n mod k) (fun i => X i c)).
Proof.
  intros (Hl & x & Hx & Hs & HX) Hk Hp Hr.
  destruct (bin_general m k x n p X) as (m' & x' & E & Hx' & Hs' & Hl' & HX' & HL'); try assumption.
  exists m', (fun j c => Sum k (fun b => X (b * (n / k) + j)%nat c)). split; [exact E|]. split.
  - split; [exact Hl'|]. exists x'. auto.
  - split; [reflexivity|]. split; [exact HL'|]. intros c Hc.
    exact (bin_conserves n k (fun i => X i c) ltac:(lia)).
Qed.
(** light in pixel 1 alone never reaches the bin of pixels 0 and 1 *)
Lemma bin_adjacent_claim m k n p X : spectra_are m n p X -> (2 <= k)%nat -> (0 < p)%nat -> (n mod k <> 0)%nat -> (2 <= n / k)%nat ->
  (forall i c, X i c = if Nat.eqb i 1 then 1 else 0) ->
  exists m' X', bin_pixels m k = Ok m' /\ spectra_are m' (n / k) p X' /\
    Sum k (fun i => X i O) = 1 /\ X' O O = 0.
Proof.
  intros H Hk Hp Hr Hq HX. destruct (bin_strided_claim m k n p X H Hk Hp Hr) as (m' & X' & E & S' & HX' & _ & _).
  exists m', X'. split; [exact E|]. split; [exact S'|]. split.
  - rewrite (Sum_single _ _ 1%nat); [rewrite HX; reflexivity|lia|]. intros i _ Hi. rewrite HX. destruct (Nat.eqb_spec i 1); [contradiction|reflexivity].
  - rewrite HX' by lia. rewrite (Sum_ext _ _ (fun _ => 0)); [apply Sum_0|]. intros b Hb. rewrite HX.
    destruct (Nat.eqb_spec (b * (n / k) + 0) 1); [|reflexivity]. exfalso. destruct b as [|[|b]]; nia.
Qed.
(** binned "wavelengths" lie outside the wavelength range *)
Lemma bin_wavelength_claim m k n p X a b : spectra_are m n p X -> (2 <= k)%nat -> (0 < p)%nat -> (n mod k <> 0)%nat ->
  (forall l, In l (lmd m) -> a <= l <= b) -> b < INR k * a ->
  exists m', bin_pixels m k = Ok m' /\ List.length (lmd m') = (n / k)%nat /\ forall l, In l (lmd m') -> b < l.
Proof.
  intros H Hk Hp Hr Hab Hb. destruct (bin_strided_claim m k n p X H Hk Hp Hr) as (m' & X' & E & S' & _ & HL & _).
  exists m'. split; [exact E|]. destruct S' as [S' _]. split; [exact S'|]. intros l Hl.
  destruct (In_nth _ _ 0 Hl) as (j & Hj & <-). rewrite S' in Hj. rewrite HL by exact Hj.
  apply Rlt_le_trans with (INR k * a); [exact Hb|]. rewrite <- Sum_const. apply Sum_le. intros i Hi.
  apply Hab, nth_In. destruct H as [-> _]. pose proof (Nat.mul_div_le n k). nia.
Qed.

Lemma thinning_claim ka kz fs : (0 < ka)%nat -> (0 < kz)%nat -> Forall miles_form fs ->
  exists q q' K, split_modfiles (map file_name fs) = Ok q /\ thin_model_grid ka kz q = Ok q' /\ describes q' K /\
    kept (fun f => (exists i, nth_smallest (map file_t fs) (file_t f) (i * ka)) /\
                   (exists j, nth_smallest (map file_z fs) (file_z f) (j * kz))) fs K.
Proof.
  intros Ha Hz H. destruct (thin_ok ka kz fs Ha Hz) as (b & Hb & E).
  exists (names_of fs), (names_of (filter b fs)), (filter b fs).
  split; [apply split_modfiles_ok; exact H|]. split; [exact E|]. split; [apply describes_names|].
  apply filter_kept. exact Hb.
Qed.
