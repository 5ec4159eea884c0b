(** * Props_Thin: claim C111, thinning by any integer or None. *)
From Coq Require Import Reals Lra Lia List Bool Arith ZArith String.
From Verif Require Import Num NumLemmas Arr ArrLemmas PyStr ReadMiles MilesSpec MilesLemmas MilesLemmas2 MilesLemmas3 MilesClaims MilesExample Thin ThinSpec ThinClaims.
Import ListNotations.
Local Open Scope R_scope.

(** C111: thinning keeps exactly the files whose age and metallicity are picked:
    a positive factor counts from the smallest value, a negative one from the
    largest, None keeps everything. *)
Theorem C111_thinning : forall ka kz fs, ka <> Some 0%Z -> kz <> Some 0%Z -> Forall miles_form fs ->
  exists q q' K, split_modfiles (map file_name fs) = Ok q /\ thin_any ka kz q = Ok q' /\ describes q' K /\
    thinned_by ka kz fs K.
Proof. exact thinning_any_claim. Qed.
Print Assumptions C111_thinning.

(** C111: opposite factors keep the same values exactly when the factor divides
    the number of distinct values less one. *)
Theorem C111_opposite : forall l u k, distinct_sorted l u -> u <> [] -> (0 < k)%Z ->
  ((forall x, picked (Some k) l x <-> picked (Some (- k)%Z) l x) <->
   ((List.length u - 1) mod Z.abs_nat k = 0)%nat).
Proof. exact opposite_claim. Qed.
Print Assumptions C111_opposite.

(** C111: the constructor places the spectrum of each kept file in its column,
    in increasing order of metallicity and age whatever the sign of the factors. *)
Theorem C111_columns : forall d fs md al zl ka kz K1 K, holds d fs -> md <> EmptyString ->
  ka <> Some 0%Z -> kz <> Some 0%Z ->
  (al <> None \/ zl <> None \/ ka <> Some 1%Z \/ kz <> Some 1%Z) ->
  limited al zl fs K1 -> thinned_by ka kz K1 K -> K <> [] -> full_grid K ->
  readable d K (List.length default_lmd) ->
  exists m x, init_any d (Some md) al zl ka kz = (d, Ok m) /\ m_X m = Some x /\ describes (m_names m) K /\
    distinct_sorted (map file_z K) (z_unq m) /\ distinct_sorted (map file_t K) (t_unq m) /\
    m_nz m = List.length (z_unq m) /\ m_nt m = List.length (t_unq m) /\
    lmd m = default_lmd /\ shp x = [List.length default_lmd; (m_nz m * m_nt m)%nat] /\
    (forall f s iz it, In f K -> fits_data d (file_name f) = Ok s ->
      (iz < m_nz m)%nat -> (it < m_nt m)%nat -> nth iz (z_unq m) 0 = file_z f -> nth it (t_unq m) 0 = file_t f ->
      forall i, (i < List.length default_lmd)%nat -> ent x [i; (iz * m_nt m + it)%nat] = nth i s NaN).
Proof. exact columns_any_claim. Qed.
Print Assumptions C111_columns.

(** C111: a factor of zero raises ValueError. *)
Theorem C111_zero : forall d fs md al zl ka kz, holds d fs -> md <> EmptyString -> ka = Some 0%Z \/ kz = Some 0%Z ->
  init_any d (Some md) al zl ka kz = (d, Err ValueError).
Proof. exact zero_claim. Qed.
Print Assumptions C111_zero.

(** C111: None, 1 and -1 keep every file. *)
Theorem C111_keep_all : forall ka kz fs, keeps_all ka -> keeps_all kz -> thinned_by ka kz fs fs.
Proof. exact keeps_all_claim. Qed.
Print Assumptions C111_keep_all.

(** C111, refuted: "factors that keep every file give what the default request
    gives": without the cache file the default request raises AttributeError,
    with None or -1 the spectra are read. *)
Theorem C111_same_as_default_refuted : forall d fs md ka kz K, holds d fs -> md <> EmptyString -> has_cache d = false ->
  keeps_all ka -> keeps_all kz -> (ka <> Some 1%Z \/ kz <> Some 1%Z) ->
  limited None None fs K -> K <> [] -> full_grid K -> readable d K (List.length default_lmd) ->
  init_any d (Some md) None None (Some 1%Z) (Some 1%Z) = (d, Err AttributeError) /\
  exists m x, init_any d (Some md) None None ka kz = (d, Ok m) /\ m_X m = Some x /\ describes (m_names m) K /\
    shp x = [List.length default_lmd; (m_nz m * m_nt m)%nat] /\
    forall f s iz it, In f K -> fits_data d (file_name f) = Ok s ->
      (iz < m_nz m)%nat -> (it < m_nt m)%nat -> nth iz (z_unq m) 0 = file_z f -> nth it (t_unq m) 0 = file_t f ->
      forall i, (i < List.length default_lmd)%nat -> ent x [i; (iz * m_nt m + it)%nat] = nth i s NaN.
Proof. exact uncached_claim. Qed.
Print Assumptions C111_same_as_default_refuted.

(** C111: such a request does not depend on the cache file, present or not. *)
Theorem C111_cache_ignored : forall d d' fs md ka kz K, holds d fs -> holds d' fs -> md <> EmptyString ->
  (forall f, In f fs -> fits_data d' (file_name f) = fits_data d (file_name f)) ->
  ka <> Some 0%Z -> kz <> Some 0%Z -> (ka <> Some 1%Z \/ kz <> Some 1%Z) ->
  limited None None fs K -> forall K', thinned_by ka kz K K' -> K' <> [] -> full_grid K' -> readable d K' (List.length default_lmd) ->
  exists m m' x x', init_any d (Some md) None None ka kz = (d, Ok m) /\ init_any d' (Some md) None None ka kz = (d', Ok m') /\
    m_X m = Some x /\ m_X m' = Some x' /\ describes (m_names m) K' /\ describes (m_names m') K' /\ shp x' = shp x /\
    forall f iz it i, In f K' -> (iz < m_nz m)%nat -> (it < m_nt m)%nat -> nth iz (z_unq m) 0 = file_z f ->
      nth it (t_unq m) 0 = file_t f -> (i < List.length default_lmd)%nat ->
      ent x' [i; (iz * m_nt m + it)%nat] = ent x [i; (iz * m_nt m + it)%nat].
Proof. exact bypass_claim. Qed.
Print Assumptions C111_cache_ignored.

(** C111: on natural factors this is the constructor of C32-C37 and C70. *)
Theorem C111_naturals : forall d md al zl ka kz,
  init_any d md al zl (Some (Z.of_nat ka)) (Some (Z.of_nat kz)) = init d md al zl ka kz.
Proof. exact naturals_claim. Qed.
Print Assumptions C111_naturals.

(** of two ages, factor 2 keeps the younger and -2 the older *)
Example C111_case : picked (Some (-2)%Z) [1; 0.03; 1] 1 /\ ~ picked (Some (-2)%Z) [1; 0.03; 1] 0.03 /\
  picked (Some 2%Z) [1; 0.03; 1] 0.03 /\ ~ picked (Some 2%Z) [1; 0.03; 1] 1.
Proof.
  assert (U : distinct_sorted [1; 0.03; 1] [0.03; 1]).
  { split; [intros x; cbn; intuition lra|]. intros i j Hij Hj. cbn in Hj. assert (i = 0 /\ j = 1)%nat as [-> ->] by lia. cbn. lra. }
  assert (V : distinct_sorted (map Ropp [1; 0.03; 1]) [-1; -0.03]).
  { split; [intros x; cbn; intuition lra|]. intros i j Hij Hj. cbn in Hj. assert (i = 0 /\ j = 1)%nat as [-> ->] by lia. cbn. lra. }
  repeat split.
  - right. split; [lia|]. exists O, [-1; -0.03]. split; [exact V|]. cbn. split; [lia|lra].
  - intros [[H _]|[_ (i & u & Hu & Hi & E)]]; [lia|].
    apply distinct_sorted_unique in Hu. rewrite <- (distinct_sorted_unique _ _ V) in Hu. subst u. cbn in Hi.
    destruct i; cbn in *; [lra|lia].
  - left. split; [lia|]. exists O, [0.03; 1]. split; [exact U|]. cbn. split; [lia|lra].
  - intros [[_ (i & u & Hu & Hi & E)]|[H _]]; [|lia].
    apply distinct_sorted_unique in Hu. rewrite <- (distinct_sorted_unique _ _ U) in Hu. subst u. cbn in Hi.
    destruct i; cbn in *; [lra|lia].
Qed.
Example C111_constructor_case :
  init_any (exdisk exfiles) (Some "M"%string) None None (Some 1%Z) (Some 1%Z) = (exdisk exfiles, Err AttributeError) /\
  init_any (exdisk exfiles) (Some "M"%string) None None (Some 0%Z) None = (exdisk exfiles, Err ValueError) /\
  exists m x, init_any (exdisk exfiles) (Some "M"%string) None None None (Some (-1)%Z) = (exdisk exfiles, Ok m) /\ m_X m = Some x.
Proof.
  destruct (C111_same_as_default_refuted (exdisk exfiles) exfiles "M"%string None (Some (-1)%Z) exfiles) as (E & m & x & E' & Ex & _).
  - exact exholds. - discriminate. - reflexivity. - left; reflexivity. - right; right; reflexivity. - left; discriminate.
  - exact exkept_default. - discriminate. - exact exfull. - apply exreadable.
  - split; [exact E|]. split; [|exists m, x; auto].
    apply (C111_zero _ exfiles); [exact exholds|discriminate|left; reflexivity].
Qed.
