(** * ThinClaims: proofs for Props_Thin.v. *)
From Coq Require Import Reals Lra Lia List Bool Arith ZArith String.
From Verif Require Import Num NumLemmas Arr ArrLemmas PyStr ReadMiles MilesSpec MilesLemmas MilesLemmas2 MilesLemmas3 MilesClaims Thin ThinSpec.
Import ListNotations.
Local Open Scope R_scope.

(** the distinct values of the opposites, in increasing order *)
Lemma nth_rev_opp u i : (i < List.length u)%nat -> nth i (rev (map Ropp u)) 0 = - nth (List.length u - S i) u 0.
Proof.
  intros Hi. rewrite rev_nth by (rewrite map_length; exact Hi). rewrite map_length.
  replace 0 with (- 0) at 1 by lra. rewrite map_nth. reflexivity.
Qed.
Lemma opp_sorted l : distinct_sorted (map Ropp l) (rev (map Ropp (unique l))).
Proof.
  destruct (unique_ok l) as [A B]. split.
  - intros x. rewrite <- in_rev, !in_map_iff. split; intros (y & E & Hy); exists y; split; try exact E; apply A; exact Hy.
  - intros i j Hij Hj. rewrite rev_length, map_length in Hj. rewrite !nth_rev_opp by lia.
    apply Ropp_lt_contravar. apply B; lia.
Qed.
Lemma nth_largest_ok l x k : nth_largest l x k <->
  (k < List.length (unique l))%nat /\ nth k (rev (unique l)) 0 = x.
Proof.
  assert (G : forall k, (k < List.length (unique l))%nat -> nth k (rev (map Ropp (unique l))) 0 = - nth k (rev (unique l)) 0).
  { intros i Hi. rewrite nth_rev_opp by exact Hi. rewrite rev_nth by exact Hi. reflexivity. }
  unfold nth_largest. split.
  - intros (u & Hu & Hk & E). rewrite (distinct_sorted_unique _ _ Hu), <- (distinct_sorted_unique _ _ (opp_sorted l)) in Hk, E.
    rewrite rev_length, map_length in Hk. split; [exact Hk|]. rewrite G in E by exact Hk. lra.
  - intros [Hk E]. exists (rev (map Ropp (unique l))). split; [apply opp_sorted|].
    split; [rewrite rev_length, map_length; exact Hk|]. rewrite G by exact Hk. rewrite E. reflexivity.
Qed.

Lemma in_stride_rev k l x : (0 < k)%nat ->
  (In x (map (fun i => nth (i * k) (rev (unique l)) 0) (seq 0 (stride_len (List.length (rev (unique l))) k))) <->
   exists i, nth_largest l x (i * k)).
Proof.
  intros Hk. rewrite in_map_iff, rev_length. split.
  - intros (i & E & Hi). apply in_seq in Hi. exists i. apply nth_largest_ok. split; [|exact E].
    apply stride_len_lt; lia.
  - intros (i & H). apply nth_largest_ok in H as [Hi E]. exists i. split; [exact E|].
    apply in_seq. split; [lia|]. apply stride_len_lt; lia.
Qed.

Lemma stride_any_ok k l : k <> Some 0%Z ->
  exists s, stride_any k (unique l) = Ok s /\ forall x, In x s <-> picked k l x.
Proof.
  intros Hk. unfold stride_any. destruct k as [k|].
  - destruct (Z.ltb_spec k 0) as [Hn|Hp].
    + rewrite stride_ok by lia. eexists. split; [reflexivity|]. intros x. rewrite in_stride_rev by lia.
      cbn [picked]. replace (Z.to_nat (- k)) with (Z.abs_nat k) by lia. split; [intros H; right; auto|].
      intros [[H _]|[_ H]]; [lia|exact H].
    + assert (0 < k)%Z by (destruct (Z.eq_dec k 0); [congruence|lia]).
      rewrite stride_ok by lia. eexists. split; [reflexivity|]. intros x. rewrite in_stride by lia.
      cbn [picked]. replace (Z.to_nat k) with (Z.abs_nat k) by lia. split; [intros H'; left; auto|].
      intros [[_ H']|[H' _]]; [exact H'|lia].
  - rewrite stride_1. eexists. split; [reflexivity|]. intros x. apply unique_in.
Qed.

Lemma thin_any_ok ka kz fs : ka <> Some 0%Z -> kz <> Some 0%Z ->
  exists b, (forall f, b f = true <-> picked ka (map file_t fs) (file_t f) /\ picked kz (map file_z fs) (file_z f)) /\
  thin_any ka kz (names_of fs) = Ok (names_of (filter b fs)).
Proof.
  intros Ha Hz. unfold thin_any. cbn [tval zval names_of].
  destruct (stride_any_ok ka (map file_t fs) Ha) as (sa & -> & Ia).
  destruct (stride_any_ok kz (map file_z fs) Hz) as (sz & -> & Iz).
  cbn [bind]. rewrite combine_map, map_map. eexists. split; [|apply take_names_ok].
  intros f. cbn [fst snd]. rewrite andb_true_iff, !isin_true, Ia, Iz. reflexivity.
Qed.

Lemma thinning_any_claim ka kz fs : ka <> Some 0%Z -> kz <> Some 0%Z -> Forall miles_form fs ->
  exists q q' K, split_modfiles (map file_name fs) = Ok q /\ thin_any ka kz q = Ok q' /\ describes q' K /\
    thinned_by ka kz fs K.
Proof.
  intros Ha Hz H. destruct (thin_any_ok ka kz fs Ha Hz) as (b & Hb & E).
  exists (names_of fs), (names_of (filter b fs)), (filter b fs).
  split; [apply split_modfiles_ok; exact H|]. split; [exact E|]. split; [apply describes_names|].
  apply filter_kept. exact Hb.
Qed.

Lemma init_any_names d fs md al zl ka kz K1 K : holds d fs -> md <> EmptyString -> ka <> Some 0%Z -> kz <> Some 0%Z ->
  kept (in_limits al zl) fs K1 -> thinned_by ka kz K1 K ->
  init_any d (Some md) al zl ka kz =
    (let zu := unique (map file_z K) in let tu := unique (map file_t K) in
     match (if negb (Nat.eqb (List.length K) (List.length zu * List.length tu)) then Err ValueError
            else Ok (Miles (names_of K) al zl (recorded ka) (recorded kz) zu tu (List.length zu) (List.length tu) default_lmd None)) with
     | Err e => (d, Err e)
     | Ok m => read_spectra d m
     end).
Proof.
  intros Hd Hmd Hka Hkz HK1 HK. unfold init_any. destruct md as [|c md]; [contradiction|].
  rewrite (files_ok d fs Hd), split_modfiles_ok by apply Hd. cbn [bind].
  rewrite filter_ok. cbn [bind]. rewrite <- (kept_filter _ (in_limitsb al zl) _ _ (in_limitsb_ok al zl) HK1).
  destruct (thin_any_ok ka kz K1 Hka Hkz) as (b & Hb & E). rewrite E. cbn [bind].
  rewrite <- (kept_filter _ b _ _ Hb HK). cbn [zval tval modfiles names_of]. rewrite map_length. reflexivity.
Qed.

(** the request is not the one served from the cache *)
Definition special (al zl : option (R * R)) (ka kz : option Z) : Prop :=
  al <> None \/ zl <> None \/ ka <> Some 1%Z \/ kz <> Some 1%Z.
Lemma recorded_1 k : recorded k = 1%nat -> k = Some 1%Z.
Proof. destruct k as [[|p|p]|]; cbn; intros H; try discriminate. f_equal. f_equal. lia. Qed.
Lemma special_ok al zl ka kz : special al zl ka kz -> defaults al zl (recorded ka) (recorded kz) = false.
Proof.
  unfold special, defaults. intros H. destruct al, zl; try reflexivity.
  destruct (Nat.eqb_spec (recorded ka) 1) as [Ea|]; [|reflexivity].
  destruct (Nat.eqb_spec (recorded kz) 1) as [Ez|]; [|reflexivity].
  apply recorded_1 in Ea, Ez. destruct H as [H|[H|[H|H]]]; congruence.
Qed.

Lemma columns_any_claim d fs md al zl ka kz K1 K : holds d fs -> md <> EmptyString -> ka <> Some 0%Z -> kz <> Some 0%Z ->
  special al zl ka kz -> limited al zl fs K1 -> thinned_by ka kz K1 K -> K <> [] -> full_grid K ->
  readable d K (List.length default_lmd) ->
  exists m x, init_any d (Some md) al zl ka kz = (d, Ok m) /\ m_X m = Some x /\ describes (m_names m) K /\
    distinct_sorted (map file_z K) (z_unq m) /\ distinct_sorted (map file_t K) (t_unq m) /\
    m_nz m = List.length (z_unq m) /\ m_nt m = List.length (t_unq m) /\
    lmd m = default_lmd /\ shp x = [List.length default_lmd; (m_nz m * m_nt m)%nat] /\
    (forall f s iz it, In f K -> fits_data d (file_name f) = Ok s ->
      (iz < m_nz m)%nat -> (it < m_nt m)%nat -> nth iz (z_unq m) 0 = file_z f -> nth it (t_unq m) 0 = file_t f ->
      forall i, (i < List.length default_lmd)%nat -> ent x [i; (iz * m_nt m + it)%nat] = nth i s NaN).
Proof.
  intros Hd Hmd Hka Hkz Hs HK1 HK Hne Fg Hr.
  assert (Nd : NoDup K).
  { apply (kept_NoDup _ _ _ HK). apply (kept_NoDup _ _ _ HK1). apply Hd. }
  apply special_ok in Hs.
  rewrite (init_any_names d fs md al zl ka kz K1 K) by assumption. cbv zeta.
  rewrite (proj2 (Nat.eqb_eq _ _) (full_grid_count K Nd Fg)). cbn [negb].
  unfold read_spectra, default_request. cbn [m_age_lim m_z_lim m_thin_age m_thin_z z_unq t_unq m_names lmd m_nz m_nt].
  fold (defaults al zl (recorded ka) (recorded kz)). rewrite Hs. cbn [andb].
  destruct (unique (map file_z K)) as [|z0 zu] eqn:Ez.
  { apply unique_nil in Ez. destruct K; [contradiction|discriminate]. }
  destruct (unique (map file_t K)) as [|t0 tu] eqn:Et.
  { apply unique_nil in Et. destruct K; [contradiction|discriminate]. }
  cbn [item nth_error bind].
  destruct (spectrum_cases d K (List.length default_lmd) z0 t0 Hr) as [(k & s & _ & _ & Ls & E)|[C _]].
  - rewrite E. cbn [bind]. rewrite Ls, Nat.eqb_refl. cbn [negb].
    rewrite <- Ez, <- Et. rewrite read_columns_full by assumption. cbn [bind].
    eexists; eexists. split; [reflexivity|]. cbn [with_X m_X m_names z_unq t_unq m_nz m_nt lmd].
    split; [reflexivity|]. split; [apply describes_names|]. split; [apply unique_ok|]. split; [apply unique_ok|].
    split; [reflexivity|]. split; [reflexivity|]. split; [reflexivity|]. split; [reflexivity|].
    intros f s' iz it Hf Es Hiz Hit Ezf Etf i Hi. cbn [matrix ent].
    rewrite (nth_concat (fun z t => the_spectrum d K z t)) by assumption. rewrite Ezf, Etf.
    rewrite (the_spectrum_file d K f s' Nd Fg Hf Es). reflexivity.
  - exfalso. assert (Hz : In z0 (unique (map file_z K))) by (rewrite Ez; left; reflexivity).
    assert (Ht : In t0 (unique (map file_t K))) by (rewrite Et; left; reflexivity).
    rewrite unique_in in Hz, Ht. apply in_map_iff in Hz as (f & <- & Hf). apply in_map_iff in Ht as (h & <- & Hh).
    destruct (Fg f h Hf Hh) as (k & Hk & E1 & E2 & U). apply C.
    rewrite (NoDup_single _ _ k Nd Hk); [reflexivity|apply matches_true; auto|].
    intros k' Hk' M. apply matches_true in M as [? ?]. auto.
Qed.

(** natural factors: the model of ReadMiles.v *)
Lemma stride_any_nat {A} k (l : list A) : stride_any (Some (Z.of_nat k)) l = stride k l.
Proof. unfold stride_any. destruct (Z.ltb_spec (Z.of_nat k) 0); [lia|]. rewrite Nat2Z.id. reflexivity. Qed.
Lemma recorded_nat k : recorded (Some (Z.of_nat k)) = k.
Proof. destruct k as [|k]; [reflexivity|]. cbn [recorded Z.of_nat]. apply SuccNat2Pos.id_succ. Qed.
Lemma naturals_claim d md al zl ka kz :
  init_any d md al zl (Some (Z.of_nat ka)) (Some (Z.of_nat kz)) = init d md al zl ka kz.
Proof.
  unfold init_any, init, thin_any, thin_model_grid. destruct md as [[|c md]|]; try reflexivity.
  rewrite !recorded_nat. 
  destruct (split_modfiles _) as [q|e]; cbn [bind]; [|reflexivity].
  destruct (filter_age_metallicity_limits al zl q) as [q'|e]; cbn [bind]; [|reflexivity].
  rewrite !stride_any_nat. reflexivity.
Qed.

(** a factor of zero *)
Lemma zero_claim d fs md al zl ka kz : holds d fs -> md <> EmptyString -> ka = Some 0%Z \/ kz = Some 0%Z ->
  init_any d (Some md) al zl ka kz = (d, Err ValueError).
Proof.
  intros Hd Hmd H0. unfold init_any. destruct md as [|c md]; [contradiction|].
  rewrite (files_ok d fs Hd), split_modfiles_ok by apply Hd. cbn [bind].
  rewrite filter_ok. cbn [bind]. unfold thin_any. cbn [tval zval names_of].
  set (K := filter _ _). 
  assert (Z0 : forall l : list R, stride_any (Some 0%Z) l = Err ValueError) by reflexivity.
  assert (D : ka = Some 0%Z \/ ka <> Some 0%Z).
  { destruct ka as [k|]; [destruct (Z.eq_dec k 0); [left|right]; congruence|right; discriminate]. }
  destruct D as [->|Ha]; [rewrite Z0; reflexivity|].
  destruct H0 as [->| ->]; [contradiction|].
  destruct (stride_any_ok ka (map file_t K) Ha) as (s & -> & _). cbn [bind]. rewrite Z0. reflexivity.
Qed.

(** factors that drop nothing *)
Definition keeps_all (k : option Z) : Prop := k = None \/ k = Some 1%Z \/ k = Some (-1)%Z.
Lemma keeps_all_picked k l x : keeps_all k -> In x l -> picked k l x.
Proof.
  intros [->|[->| ->]] Hx; cbn [picked]; [exact Hx|left|right]; (split; [lia|]); rewrite <- unique_in in Hx.
  - destruct (In_nth _ _ 0 Hx) as (i & Hi & E). exists i, (unique l). rewrite Nat.mul_1_r. split; [apply unique_ok|auto].
  - rewrite in_rev in Hx. destruct (In_nth _ _ 0 Hx) as (i & Hi & E). rewrite rev_length in Hi.
    exists i. rewrite Nat.mul_1_r. apply nth_largest_ok. auto.
Qed.
Lemma keeps_all_claim ka kz fs : keeps_all ka -> keeps_all kz -> thinned_by ka kz fs fs.
Proof.
  intros Ha Hz. apply kept_self. intros f Hf. split; apply keeps_all_picked; try assumption; apply in_map; exact Hf.
Qed.
Lemma keeps_all_0 k : keeps_all k -> k <> Some 0%Z.
Proof. intros [->|[->| ->]]; discriminate. Qed.

(** without the cache file the default request fails, yet the same files can be
    read by asking for them with None or -1 *)
Lemma uncached_claim d fs md ka kz K : holds d fs -> md <> EmptyString -> has_cache d = false ->
  keeps_all ka -> keeps_all kz -> (ka <> Some 1%Z \/ kz <> Some 1%Z) ->
  limited None None fs K -> K <> [] -> full_grid K -> readable d K (List.length default_lmd) ->
  init_any d (Some md) None None (Some 1%Z) (Some 1%Z) = (d, Err AttributeError) /\
  exists m x, init_any d (Some md) None None ka kz = (d, Ok m) /\ m_X m = Some x /\ describes (m_names m) K /\
    shp x = [List.length default_lmd; (m_nz m * m_nt m)%nat] /\
    forall f s iz it, In f K -> fits_data d (file_name f) = Ok s ->
      (iz < m_nz m)%nat -> (it < m_nt m)%nat -> nth iz (z_unq m) 0 = file_z f -> nth it (t_unq m) 0 = file_t f ->
      forall i, (i < List.length default_lmd)%nat -> ent x [i; (iz * m_nt m + it)%nat] = nth i s NaN.
Proof.
  intros Hd Hmd Hc Ha Hz Hs HK Hne Fg Hr. split.
  - change (Some 1%Z) with (Some (Z.of_nat 1)). rewrite naturals_claim.
    eapply default_attribute_error; eassumption.
  - destruct (columns_any_claim d fs md None None ka kz K K) as (m & x & E & Ex & D & _ & _ & _ & _ & _ & S & C);
      try assumption; try (apply keeps_all_0; assumption); [right; right; exact Hs|apply keeps_all_claim; assumption|].
    exists m, x. auto.
Qed.

(** with the cache file present, its contents do not matter to such a request *)
Lemma bypass_claim d d' fs md ka kz K : holds d fs -> holds d' fs -> md <> EmptyString ->
  (forall f, In f fs -> fits_data d' (file_name f) = fits_data d (file_name f)) ->
  ka <> Some 0%Z -> kz <> Some 0%Z -> (ka <> Some 1%Z \/ kz <> Some 1%Z) ->
  limited None None fs K -> forall K', thinned_by ka kz K K' -> K' <> [] -> full_grid K' -> readable d K' (List.length default_lmd) ->
  exists m m' x x', init_any d (Some md) None None ka kz = (d, Ok m) /\ init_any d' (Some md) None None ka kz = (d', Ok m') /\
    m_X m = Some x /\ m_X m' = Some x' /\ describes (m_names m) K' /\ describes (m_names m') K' /\ shp x' = shp x /\
    forall f iz it i, In f K' -> (iz < m_nz m)%nat -> (it < m_nt m)%nat -> nth iz (z_unq m) 0 = file_z f ->
      nth it (t_unq m) 0 = file_t f -> (i < List.length default_lmd)%nat ->
      ent x' [i; (iz * m_nt m + it)%nat] = ent x [i; (iz * m_nt m + it)%nat].
Proof.
  intros Hd Hd' Hmd Hf Ha Hz Hs HK K' HK' Hne Fg Hr.
  assert (I : incl K' fs).
  { intros f Hi. apply (kept_NoDup _ _ _ HK); [apply Hd|]. eapply (kept_NoDup _ _ _ HK'); [|exact Hi].
    apply (kept_NoDup _ _ _ HK). apply Hd. }
  assert (Hr' : readable d' K' (List.length default_lmd)).
  { intros f Hi. rewrite Hf by (apply I; exact Hi). apply Hr; exact Hi. }
  destruct (columns_any_claim d fs md None None ka kz K K') as (m & x & E & Ex & D & Uz & Ut & Nz & Nt & _ & S & C);
    try assumption; [right; right; exact Hs|].
  destruct (columns_any_claim d' fs md None None ka kz K K') as (m' & x' & E' & Ex' & D' & Uz' & Ut' & Nz' & Nt' & _ & S' & C');
    try assumption; [right; right; exact Hs|].
  assert (z_unq m' = z_unq m) as Qz by (rewrite (distinct_sorted_unique _ _ Uz), (distinct_sorted_unique _ _ Uz'); reflexivity).
  assert (t_unq m' = t_unq m) as Qt by (rewrite (distinct_sorted_unique _ _ Ut), (distinct_sorted_unique _ _ Ut'); reflexivity).
  rewrite Qz in Nz', C'. rewrite Qt in Nt', C'. rewrite <- Nz in Nz'. rewrite <- Nt in Nt'. rewrite Nz', Nt' in C', S'.
  exists m, m', x, x'. split; [exact E|]. split; [exact E'|]. split; [exact Ex|]. split; [exact Ex'|].
  split; [exact D|]. split; [exact D'|]. split; [congruence|].
  intros f iz it i Hi H1 H2 H3 H4 H5. destruct (Hr f Hi) as (s & Es & _).
  rewrite (C f s iz it Hi Es H1 H2 H3 H4 i H5). apply (C' f s iz it Hi); try assumption.
  rewrite Hf by (apply I; exact Hi). exact Es.
Qed.

(** opposite factors *)
Lemma largest_smallest l x j : nth_largest l x j <->
  (j < List.length (unique l))%nat /\ nth_smallest l x (List.length (unique l) - 1 - j).
Proof.
  rewrite nth_largest_ok. split.
  - intros [Hj E]. split; [exact Hj|]. exists (unique l). split; [apply unique_ok|]. split; [lia|].
    rewrite rev_nth in E by exact Hj. rewrite <- E. f_equal. lia.
  - intros [Hj (u & Hu & Hl & E)]. apply distinct_sorted_unique in Hu. subst u. split; [exact Hj|].
    rewrite rev_nth by exact Hj. rewrite <- E. f_equal. lia.
Qed.
Lemma opposite_claim l u k : distinct_sorted l u -> u <> [] -> (0 < k)%Z ->
  ((forall x, picked (Some k) l x <-> picked (Some (- k)%Z) l x) <->
   ((List.length u - 1) mod Z.abs_nat k = 0)%nat).
Proof.
  intros Hu Hne Hk. rewrite (distinct_sorted_unique _ _ Hu) in *. clear Hu u.
  assert (Hn : (0 < List.length (unique l))%nat) by (destruct (unique l); [contradiction|cbn; lia]).
  set (n := List.length (unique l)) in *. set (k' := Z.abs_nat k). assert (Hk' : (0 < k')%nat) by (unfold k'; lia).
  assert (P : forall x, picked (Some k) l x <-> exists i, nth_smallest l x (i * k')).
  { intros x. cbn [picked]. split; [intros [[_ H]|[H _]]; [exact H|lia]|intros H; left; auto]. }
  assert (N : forall x, picked (Some (- k)%Z) l x <-> exists i, (i * k' < n)%nat /\ nth_smallest l x (n - 1 - i * k')).
  { intros x. cbn [picked]. replace (Z.abs_nat (- k)) with k' by (unfold k'; lia).
    split; [intros [[H _]|[_ (i & H)]]; [lia|]; exists i; apply largest_smallest; exact H|].
    intros (i & H). right. split; [lia|]. exists i. apply largest_smallest; exact H. }
  assert (I : forall x i j, nth_smallest l x i -> nth_smallest l x j -> i = j).
  { intros x i j (u & Hu & Hi & E) (v & Hv & Hj & E'). apply distinct_sorted_unique in Hu, Hv. subst u v.
    destruct (unique_ok l) as [_ B]. destruct (lt_eq_lt_dec i j) as [[H| ->]|H]; [|reflexivity|].
    - specialize (B i j H Hj). lra.
    - specialize (B j i H Hi). lra. }
  assert (At : forall i, (i < n)%nat -> nth_smallest l (nth i (unique l) 0) i).
  { intros i Hi. exists (unique l). split; [apply unique_ok|auto]. }
  split.
  - intros H. specialize (H (nth 0 (unique l) 0)). rewrite P, N in H.
    destruct (proj1 H) as (i & Hi & E). { exists O. apply At; exact Hn. }
    specialize (I _ _ _ (At O Hn) E). assert (D : (n - 1 = i * k')%nat) by lia. rewrite D. apply Nat.mod_mul. lia.
  - intros H x. rewrite P, N. apply Nat.div_exact in H; [|lia]. set (m := ((n - 1) / k')%nat) in *.
    split; intros (i & Hx).
    + assert (Hi : (i * k' < n)%nat) by (destruct Hx as (v & Hv & Hi & _); apply distinct_sorted_unique in Hv; subst v; exact Hi).
      exists (m - i)%nat. split; [nia|]. replace (n - 1 - (m - i) * k')%nat with (i * k')%nat by nia. exact Hx.
    + destruct Hx as [Hi Hx]. exists (m - i)%nat. replace ((m - i) * k')%nat with (n - 1 - i * k')%nat by nia. exact Hx.
Qed.
