(** * MilesLemmas2: constructor, truncation, binning and cache of read_miles.py. *)
From Coq Require Import Reals Lra Lia List Bool Arith ZArith String Ascii Permutation Sorted.
From Verif Require Import Num NumLemmas Arr ArrLemmas PyStr StrLemmas ReadMiles MilesSpec MilesLemmas.
Import ListNotations.
Local Open Scope R_scope.

Lemma unique_intro l y : In y l -> In y (unique l). Proof. apply unique_in. Qed.
Definition matches (z t : R) (f : mfile) : bool := (Reqb (file_t f) t && Reqb (file_z f) z)%bool.
Lemma matches_true z t f : matches z t f = true <-> file_z f = z /\ file_t f = t.
Proof. unfold matches. rewrite andb_true_iff, !Reqb_true. tauto. Qed.

Lemma where_filter_length {A} (P : A -> bool) l : List.length (where_ (map P l)) = List.length (filter P l).
Proof.
  induction l as [|a l IH]; [reflexivity|]. rewrite where_cons, app_length, map_length, IH.
  cbn [filter]. destruct (P a); reflexivity.
Qed.

Lemma join_one fs z t k : filter (matches z t) fs = [k] -> join_modfiles (names_of fs) z t = Ok (file_name k).
Proof.
  intros H. unfold join_modfiles. cbn [tval zval names_of]. rewrite combine_map, map_map.
  change (fun x => (Reqb (fst (file_t x, file_z x)) t && Reqb (snd (file_t x, file_z x)) z)%bool) with (matches z t).
  pose proof (where_filter_length (matches z t) fs) as L. rewrite H in L.
  destruct (where_ (map (matches z t) fs)) as [|i [|? ?]] eqn:E; try discriminate.
  assert (G : forall (B : Type) (h : mfile -> B), item (map h fs) i = Ok (h k)).
  { intros B h. pose proof (take_where (matches z t) h fs) as T. rewrite E, H in T.
    unfold take_idx in T. cbn [map_res bind map] in T. destruct (item (map h fs) i); cbn [bind] in T; congruence. }
  cbn [IMFstr zstr tstr endstr names_of]. rewrite !G. reflexivity.
Qed.
Lemma join_many fs z t : List.length (filter (matches z t) fs) <> 1%nat -> join_modfiles (names_of fs) z t = Err ValueError.
Proof.
  intros H. unfold join_modfiles. cbn [tval zval names_of]. rewrite combine_map, map_map.
  change (fun x => (Reqb (fst (file_t x, file_z x)) t && Reqb (snd (file_t x, file_z x)) z)%bool) with (matches z t).
  pose proof (where_filter_length (matches z t) fs) as L.
  destruct (where_ (map (matches z t) fs)) as [|i [|? ?]]; try reflexivity. cbn in L. congruence.
Qed.

Lemma NoDup_single {A} (P : A -> bool) l k : NoDup l -> In k l -> P k = true ->
  (forall k', In k' l -> P k' = true -> k' = k) -> filter P l = [k].
Proof.
  intros Nd Hk Pk U. assert (Nf : NoDup (filter P l)) by (apply NoDup_filter; exact Nd).
  assert (Hf : In k (filter P l)) by (apply filter_In; auto).
  destruct (filter P l) as [|a [|b r]] eqn:E.
  - contradiction.
  - f_equal. apply U; [|]; assert (In a (filter P l)) by (rewrite E; left; reflexivity); apply filter_In in H; tauto.
  - exfalso. assert (Ha : In a (filter P l)) by (rewrite E; left; reflexivity).
    assert (Hb : In b (filter P l)) by (rewrite E; right; left; reflexivity).
    apply filter_In in Ha as [Ha1 Ha2]. apply filter_In in Hb as [Hb1 Hb2].
    rewrite (U a), (U b) in Nf by assumption. inversion Nf as [|? ? N _]. apply N. left; reflexivity.
Qed.

Lemma NoDup_prod {A B} (l : list A) (m : list B) : NoDup l -> NoDup m -> NoDup (list_prod l m).
Proof.
  intros Hl Hm. induction Hl as [|a l Ha _ IH]; [constructor|]. cbn.
  assert (G : forall m', NoDup m' -> NoDup (map (pair a) m' ++ list_prod l m)); [|apply G; exact Hm].
  induction 1 as [|b m' Hb _ IH']; cbn; [exact IH|]. constructor; [|exact IH'].
  rewrite in_app_iff. intros [H|H].
  - apply in_map_iff in H as (c & E & Hc). injection E as ->. contradiction.
  - apply in_prod_iff in H as [H _]. contradiction.
Qed.
(** ** which grids are complete *)
Lemma full_grid_count K : NoDup K -> full_grid K ->
  List.length K = (List.length (unique (map file_z K)) * List.length (unique (map file_t K)))%nat.
Proof.
  intros Nd Fg.
  set (pr := fun f => (file_z f, file_t f)).
  assert (N1 : NoDup (map pr K)).
  {
    assert (Inj : forall a b, In a K -> In b K -> pr a = pr b -> a = b).
    { intros a b Ha Hb E. injection E as Ez Et.
      destruct (Fg a a Ha Ha) as (k & _ & _ & _ & U). rewrite (U a Ha), (U b Hb); auto. }
    clear Fg. induction K as [|a K IH]; [constructor|]. inversion Nd as [|? ? Na Nd']; subst.
    cbn. constructor.
    - intros Hi. apply in_map_iff in Hi as (b & E & Hb). apply Na. rewrite <- (Inj b a); auto; [right; exact Hb|left; reflexivity].
    - apply IH; [exact Nd'|]. intros x y Hx Hy. apply Inj; right; assumption. }
  rewrite <- prod_length, <- (map_length pr K). apply Nat.le_antisymm.
  - apply NoDup_incl_length; [exact N1|]. intros [z t] Hi. apply in_map_iff in Hi as (f & E & Hf).
    injection E as <- <-. apply in_prod; apply unique_intro, in_map; exact Hf.
  - apply NoDup_incl_length.
    + apply NoDup_prod; apply sorted_NoDup, unique_sorted.
    + intros [z t] Hi. apply in_prod_iff in Hi as [Hz Ht]. rewrite unique_in in Hz, Ht.
      apply in_map_iff in Hz as (f & <- & Hf). apply in_map_iff in Ht as (h & <- & Hh).
      destruct (Fg f h Hf Hh) as (k & Hk & Ez & Et & _). apply in_map_iff. exists k.
      unfold pr. rewrite Ez, Et. split; [reflexivity|exact Hk].
Qed.

(** ** reading all spectra *)
Definition readable (d : disk) (fs : list mfile) (n : nat) : Prop :=
  forall f, In f fs -> exists s, fits_data d (file_name f) = Ok s /\ List.length s = n.

Lemma map_res_cases {A B} (f : A -> res B) e l :
  (forall a, In a l -> (exists b, f a = Ok b) \/ f a = Err e) ->
  (exists bs, map_res f l = Ok bs /\ forall a, In a l -> exists b, f a = Ok b) \/ map_res f l = Err e.
Proof.
  induction l as [|a l IH]; intros H; [left; exists []; cbn; split; [reflexivity|contradiction]|].
  cbn [map_res]. destruct (H a) as [[b E]|E]; [left; reflexivity| |]; rewrite E; cbn [bind]; [|right; reflexivity].
  destruct IH as [(bs & E' & G)|E']; [intros; apply H; right; assumption| |]; rewrite E'; cbn [bind]; [|right; reflexivity].
  left. exists (b :: bs). split; [reflexivity|]. intros x [<-|Hx]; [exists b; exact E|auto].
Qed.

Lemma column_ok n s : List.length s = n -> column n s = Ok s.
Proof. intros H. unfold column. rewrite H, Nat.eqb_refl. reflexivity. Qed.

Lemma spectrum_cases d K n z t : readable d K n ->
  (exists k s, filter (matches z t) K = [k] /\ fits_data d (file_name k) = Ok s /\ List.length s = n /\
      read_spectrum d (names_of K) z t = Ok s) \/
  (List.length (filter (matches z t) K) <> 1%nat /\ read_spectrum d (names_of K) z t = Err ValueError).
Proof.
  intros Hr. unfold read_spectrum. destruct (filter (matches z t) K) as [|k [|k' r]] eqn:E.
  - right. split; [discriminate|]. rewrite join_many by (rewrite E; discriminate). reflexivity.
  - left. assert (Hk : In k (filter (matches z t) K)) by (rewrite E; left; reflexivity).
    apply filter_In in Hk as [Hk _]. destruct (Hr k Hk) as (s & Es & Ls).
    exists k, s. rewrite (join_one _ _ _ _ E). cbn [bind]. auto.
  - right. split; [discriminate|]. rewrite join_many by (rewrite E; discriminate). reflexivity.
Qed.

(** columns in z-major order *)
Lemma nth_concat {A} (g : R -> R -> A) zs ts d iz it : (iz < List.length zs)%nat -> (it < List.length ts)%nat ->
  nth (iz * List.length ts + it) (List.concat (map (fun z => map (fun t => g z t) ts) zs)) d = g (nth iz zs 0) (nth it ts 0).
Proof.
  revert iz; induction zs as [|z zs IH]; intros iz Hz Ht; cbn in Hz; [lia|]. cbn [map List.concat].
  destruct iz as [|iz].
  - rewrite app_nth1 by (rewrite map_length; lia). cbn [Nat.mul Nat.add nth].
    rewrite (nth_indep _ d (g z 0)) by (rewrite map_length; lia).
    rewrite map_nth. reflexivity.
  - rewrite app_nth2; rewrite map_length; [|nia].
    replace (S iz * List.length ts + it - List.length ts)%nat with (iz * List.length ts + it)%nat by nia.
    cbn [nth]. apply IH; [lia|exact Ht].
Qed.

Definition the_spectrum (d : disk) (K : list mfile) (z t : R) : list num :=
  match read_spectrum d (names_of K) z t with Ok s => s | Err _ => [] end.

Lemma read_columns_full d K n : NoDup K -> full_grid K -> readable d K n ->
  read_columns d (names_of K) n (unique (map file_z K)) (unique (map file_t K)) =
  Ok (List.concat (map (fun z => map (fun t => the_spectrum d K z t) (unique (map file_t K))) (unique (map file_z K)))).
Proof.
  intros Nd Fg Hr. unfold read_columns.
  rewrite (map_res_ok _ (fun z => map (fun t => the_spectrum d K z t) (unique (map file_t K)))); [reflexivity|].
  intros z Hz. apply map_res_ok. intros t Ht. rewrite unique_in in Hz, Ht.
  apply in_map_iff in Hz as (f & <- & Hf). apply in_map_iff in Ht as (h & <- & Hh).
  destruct (Fg f h Hf Hh) as (k & Hk & Ez & Et & U).
  unfold the_spectrum.
  destruct (spectrum_cases d K n (file_z f) (file_t h) Hr) as [(k' & s & _ & _ & Ls & E)|[C _]].
  - rewrite E. cbn [bind]. apply column_ok. exact Ls.
  - exfalso. apply C. rewrite (NoDup_single _ _ k Nd Hk); [reflexivity|apply matches_true; auto|].
    intros k' Hk' M. apply matches_true in M as [? ?]. auto.
Qed.

Lemma the_spectrum_file d K f s : NoDup K -> full_grid K -> In f K -> fits_data d (file_name f) = Ok s ->
  the_spectrum d K (file_z f) (file_t f) = s.
Proof.
  intros Nd Fg Hf Es. unfold the_spectrum, read_spectrum.
  rewrite (join_one K _ _ f); [cbn [bind]; rewrite Es; reflexivity|].
  destruct (Fg f f Hf Hf) as (k & Hk & _ & _ & U).
  apply NoDup_single; [exact Nd|exact Hf|apply matches_true; auto|].
  intros k' Hk' M. apply matches_true in M as [? ?]. rewrite (U f), (U k'); auto.
Qed.

Lemma read_columns_not_full d K n : readable d K n -> ~ full_grid K ->
  read_columns d (names_of K) n (unique (map file_z K)) (unique (map file_t K)) = Err ValueError.
Proof.
  intros Hr Nf. unfold read_columns.
  edestruct (map_res_cases (fun z => map_res (fun t => s <- read_spectrum d (names_of K) z t;; column n s) (unique (map file_t K))) ValueError (unique (map file_z K))) as [(bs & E & G)|E].
  - intros z _. edestruct (map_res_cases (fun t => s <- read_spectrum d (names_of K) z t;; column n s) ValueError (unique (map file_t K))) as [(cs & E & _)|E].
    + intros t _. destruct (spectrum_cases d K n z t Hr) as [(k & s & _ & _ & Ls & E)|[_ E]]; rewrite E; cbn [bind].
      * left. exists s. apply column_ok; exact Ls.
      * right; reflexivity.
    + left; exists cs; exact E.
    + right; exact E.
  - exfalso. apply Nf. intros f h Hf Hh.
    destruct (G (file_z f)) as (cs & Ec); [apply unique_intro, in_map; exact Hf|].
    edestruct (map_res_cases (fun t => s <- read_spectrum d (names_of K) (file_z f) t;; column n s) ValueError (unique (map file_t K))) as [(cs' & E' & G')|E'].
    + intros t _. destruct (spectrum_cases d K n (file_z f) t Hr) as [(k & s & _ & _ & Ls & E'')|[_ E'']]; rewrite E''; cbn [bind].
      * left. exists s. apply column_ok; exact Ls.
      * right; reflexivity.
    + destruct (G' (file_t h)) as (s & Es); [apply unique_intro, in_map; exact Hh|].
      destruct (spectrum_cases d K n (file_z f) (file_t h) Hr) as [(k & s' & Ek & _)|[_ Ee]].
      * exists k. assert (Hk : In k (filter (matches (file_z f) (file_t h)) K)) by (rewrite Ek; left; reflexivity).
        apply filter_In in Hk as [Hk M]. apply matches_true in M as [? ?]. repeat split; try assumption.
        intros k' Hk' Ez Et. assert (Hk'' : In k' (filter (matches (file_z f) (file_t h)) K)).
        { apply filter_In. split; [exact Hk'|]. apply matches_true; auto. }
        rewrite Ek in Hk''. destruct Hk'' as [->|[]]. reflexivity.
      * rewrite Ee in Es. discriminate.
    + cbv beta in Ec. rewrite E' in Ec. discriminate.
  - rewrite E. reflexivity.
Qed.

(** ** the constructor *)
(** the directory holds exactly the files [fs], and possibly the cache *)
Definition holds (d : disk) (fs : list mfile) : Prop :=
  Forall miles_form fs /\ NoDup fs /\
  (listing d = map file_name fs \/
   exists l1 l2, listing d = (l1 ++ cache_name :: l2)%list /\ map file_name fs = (l1 ++ l2)%list).

Lemma not_cache f : file_name f <> cache_name.
Proof.
  intros E. apply (f_equal (has_char "Z"%char)) in E. unfold file_name in E.
  rewrite !has_char_app in E. cbn in E. rewrite orb_true_r in E. discriminate.
Qed.
Lemma not_cache_existsb l : (forall x, In x l -> exists f, x = file_name f) -> existsb (String.eqb cache_name) l = false.
Proof.
  intros H. destruct (existsb _ l) eqn:E; [|reflexivity]. exfalso.
  apply existsb_exists in E as (x & Hx & E). apply String.eqb_eq in E. subst x.
  destruct (H _ Hx) as (f & Ef). apply (not_cache f). congruence.
Qed.
Lemma in_names fs x : In x (map file_name fs) -> exists f, x = file_name f.
Proof. rewrite in_map_iff. intros (f & <- & _). exists f; reflexivity. Qed.
Lemma list_remove_app l1 l2 : existsb (String.eqb cache_name) l1 = false ->
  list_remove cache_name (l1 ++ cache_name :: l2) = (l1 ++ l2)%list.
Proof.
  induction l1 as [|x l1 IH]; intros H; cbn [app list_remove existsb] in *.
  - rewrite String.eqb_refl; reflexivity.
  - apply orb_false_iff in H as [H1 H2]. rewrite H1. f_equal. auto.
Qed.
Lemma files_ok d fs : holds d fs ->
  (if has_cache d then list_remove cache_name (listing d) else listing d) = map file_name fs.
Proof.
  intros (_ & _ & [E|(l1 & l2 & E & E')]); unfold has_cache; rewrite E.
  - rewrite not_cache_existsb by apply in_names. reflexivity.
  - assert (N1 : existsb (String.eqb cache_name) l1 = false).
    { apply not_cache_existsb. intros x Hx. apply (in_names fs). rewrite E'. apply in_or_app; auto. }
    rewrite existsb_app. cbn [existsb]. rewrite String.eqb_refl, orb_true_r.
    rewrite list_remove_app by exact N1. symmetry; exact E'.
Qed.

Definition thinned (ka kz : nat) (K1 K : list mfile) : Prop := kept (thin_keeps ka kz K1) K1 K.

Lemma kept_NoDup {A} (P : A -> Prop) l l' : kept P l l' -> NoDup l -> NoDup l' /\ incl l' l.
Proof.
  induction 1 as [|x l l' Hx _ IH|x l l' Hx _ IH]; intros N.
  - split; [exact N|apply incl_refl].
  - inversion N as [|? ? Nx N']; subst. destruct (IH N') as [H1 H2]. split.
    + constructor; [|exact H1]. intros Hi. apply Nx, H2, Hi.
    + intros y [->|Hy]; [left; reflexivity|right; apply H2; exact Hy].
  - inversion N as [|? ? Nx N']; subst. destruct (IH N') as [H1 H2]. split; [exact H1|].
    intros y Hy; right; apply H2; exact Hy.
Qed.

Lemma init_names d fs md al zl ka kz K1 K : holds d fs -> md <> EmptyString -> (0 < ka)%nat -> (0 < kz)%nat ->
  kept (in_limits al zl) fs K1 -> thinned ka kz K1 K ->
  init d (Some md) al zl ka kz =
    (let zu := unique (map file_z K) in let tu := unique (map file_t K) in
     match (if negb (Nat.eqb (List.length K) (List.length zu * List.length tu)) then Err ValueError
            else Ok (Miles (names_of K) al zl ka kz zu tu (List.length zu) (List.length tu) default_lmd None)) with
     | Err e => (d, Err e)
     | Ok m => read_spectra d m
     end).
Proof.
  intros Hd Hmd Hka Hkz HK1 HK. unfold init. destruct md as [|c md]; [contradiction|].
  rewrite (files_ok d fs Hd), split_modfiles_ok by apply Hd. cbn [bind].
  rewrite filter_ok. cbn [bind]. rewrite <- (kept_filter _ (in_limitsb al zl) _ _ (in_limitsb_ok al zl) HK1).
  destruct (thin_ok ka kz K1 Hka Hkz) as (b & Hb & E). rewrite E. cbn [bind].
  rewrite <- (kept_filter _ b _ _ Hb HK). cbn [zval tval modfiles names_of]. rewrite map_length. reflexivity.
Qed.

Definition defaults (al zl : option (R * R)) (ka kz : nat) : bool :=
  match al, zl with None, None => (Nat.eqb ka 1 && Nat.eqb kz 1)%bool | _, _ => false end.

Lemma unique_nil l : unique l = [] -> l = [].
Proof.
  intros H. destruct l as [|a l]; [reflexivity|]. exfalso.
  assert (In a (unique (a :: l))) by (apply unique_intro; left; reflexivity). rewrite H in H0. contradiction.
Qed.

Lemma init_full d fs md al zl ka kz K1 K : holds d fs -> md <> EmptyString -> (0 < ka)%nat -> (0 < kz)%nat ->
  kept (in_limits al zl) fs K1 -> thinned ka kz K1 K -> defaults al zl ka kz = false ->
  K <> [] -> full_grid K -> readable d K (List.length default_lmd) ->
  init d (Some md) al zl ka kz =
    (d, Ok (Miles (names_of K) al zl ka kz (unique (map file_z K)) (unique (map file_t K))
              (List.length (unique (map file_z K))) (List.length (unique (map file_t K))) default_lmd
              (Some (matrix (List.length default_lmd)
                       (List.length (unique (map file_z K)) * List.length (unique (map file_t K)))
                       (List.concat (map (fun z => map (fun t => the_spectrum d K z t) (unique (map file_t K)))
                                         (unique (map file_z K)))))))).
Proof.
  intros Hd Hmd Hka Hkz HK1 HK Hdef Hne Fg Hr.
  rewrite (init_names d fs md al zl ka kz K1 K) by assumption. cbv zeta.
  assert (Nd : NoDup K).
  { apply (kept_NoDup _ _ _ HK). apply (kept_NoDup _ _ _ HK1). apply Hd. }
  rewrite <- (full_grid_count K Nd Fg) at 1. rewrite Nat.eqb_refl. cbn [negb].
  unfold read_spectra, default_request. cbn [m_age_lim m_z_lim m_thin_age m_thin_z z_unq t_unq m_names lmd m_nz m_nt].
  fold (defaults al zl ka kz). rewrite Hdef. cbn [andb].
  destruct (unique (map file_z K)) as [|z0 zu] eqn:Ez.
  { apply unique_nil in Ez. destruct K; [contradiction|discriminate]. }
  destruct (unique (map file_t K)) as [|t0 tu] eqn:Et.
  { apply unique_nil in Et. destruct K; [contradiction|discriminate]. }
  cbn [item nth_error bind].
  destruct (spectrum_cases d K (List.length default_lmd) z0 t0 Hr) as [(k & s & _ & _ & Ls & E)|[C _]].
  - rewrite E. cbn [bind]. rewrite Ls, Nat.eqb_refl. cbn [negb].
    rewrite <- Ez, <- Et. rewrite read_columns_full by assumption. cbn [bind]. reflexivity.
  - exfalso. assert (Hz : In z0 (unique (map file_z K))) by (rewrite Ez; left; reflexivity).
    assert (Ht : In t0 (unique (map file_t K))) by (rewrite Et; left; reflexivity).
    rewrite unique_in in Hz, Ht. apply in_map_iff in Hz as (f & <- & Hf). apply in_map_iff in Ht as (h & <- & Hh).
    destruct (Fg f h Hf Hh) as (k & Hk & E1 & E2 & U). apply C.
    rewrite (NoDup_single _ _ k Nd Hk); [reflexivity|apply matches_true; auto|].
    intros k' Hk' M. apply matches_true in M as [? ?]. auto.
Qed.

Lemma init_not_full d fs md al zl ka kz K1 K : holds d fs -> md <> EmptyString -> (0 < ka)%nat -> (0 < kz)%nat ->
  kept (in_limits al zl) fs K1 -> thinned ka kz K1 K -> defaults al zl ka kz = false ->
  K <> [] -> ~ full_grid K -> readable d K (List.length default_lmd) ->
  init d (Some md) al zl ka kz = (d, Err ValueError).
Proof.
  intros Hd Hmd Hka Hkz HK1 HK Hdef Hne Fg Hr.
  rewrite (init_names d fs md al zl ka kz K1 K) by assumption. cbv zeta.
  destruct (Nat.eqb (List.length K) _); [cbn [negb]|reflexivity].
  unfold read_spectra, default_request. cbn [m_age_lim m_z_lim m_thin_age m_thin_z z_unq t_unq m_names lmd m_nz m_nt].
  fold (defaults al zl ka kz). rewrite Hdef. cbn [andb].
  destruct (unique (map file_z K)) as [|z0 zu] eqn:Ez.
  { apply unique_nil in Ez. destruct K; [contradiction|discriminate]. }
  destruct (unique (map file_t K)) as [|t0 tu] eqn:Et.
  { apply unique_nil in Et. destruct K; [contradiction|discriminate]. }
  cbn [item nth_error bind].
  destruct (spectrum_cases d K (List.length default_lmd) z0 t0 Hr) as [(k & s & _ & _ & Ls & E)|[_ E]];
    rewrite E; cbn [bind]; [|reflexivity].
  rewrite Ls, Nat.eqb_refl. cbn [negb].
  rewrite <- Ez, <- Et. rewrite read_columns_not_full by assumption. reflexivity.
Qed.

Lemma init_empty d fs md al zl ka kz K1 : holds d fs -> md <> EmptyString -> (0 < ka)%nat -> (0 < kz)%nat ->
  kept (in_limits al zl) fs K1 -> thinned ka kz K1 [] -> defaults al zl ka kz = false ->
  init d (Some md) al zl ka kz = (d, Err IndexError).
Proof.
  intros Hd Hmd Hka Hkz HK1 HK Hdef.
  rewrite (init_names d fs md al zl ka kz K1 []) by assumption. cbn.
  unfold read_spectra, default_request. cbn [m_age_lim m_z_lim m_thin_age m_thin_z z_unq t_unq m_names lmd m_nz m_nt].
  fold (defaults al zl ka kz). rewrite Hdef. reflexivity.
Qed.

(** ** the cache *)
Lemma init_keeps_disk d md al zl ka kz : fst (init d md al zl ka kz) = d.
Proof.
  unfold init. destruct md as [[|c md]|]; try reflexivity.
  match goal with |- fst (match ?r with _ => _ end) = _ => destruct r as [m|e] eqn:E end; [|reflexivity].
  assert (X : m_X m = None).
  { repeat match goal with
           | H : bind ?r _ = Ok _ |- _ => destruct r eqn:?; cbn [bind] in H; [|discriminate]
           end. 
    cbv zeta in E. match goal with H : (if ?b then _ else _) = _ |- _ => destruct b; [discriminate|] end.
    injection E as <-. reflexivity. }
  unfold read_spectra.
  destruct (default_request m).
  - destruct (has_cache d); [reflexivity|]. cbn [andb negb]. unfold get_X. rewrite X. reflexivity.
  - cbn [andb]. match goal with |- fst (match ?r with _ => _ end) = _ => destruct r end; reflexivity.
Qed.

Lemma default_no_cache d md : has_cache d = false -> exists e, snd (init d md None None 1 1) = Err e.
Proof.
  intros H. unfold init. destruct md as [[|c md]|]; try (eexists; reflexivity).
  match goal with |- exists e, snd (match ?r with _ => _ end) = _ => destruct r as [m|e] eqn:E end; [|exists e; reflexivity].
  assert (X : m_X m = None /\ default_request m = true).
  { repeat match goal with
           | H : bind ?r _ = Ok _ |- _ => destruct r eqn:?; cbn [bind] in H; [|discriminate]
           end. 
    cbv zeta in E. match goal with H : (if ?b then _ else _) = _ |- _ => destruct b; [discriminate|] end.
    injection E as <-. split; reflexivity. }
  destruct X as [X D]. unfold read_spectra. rewrite D, H. cbn [andb negb]. unfold get_X. rewrite X.
  eexists; reflexivity.
Qed.

Lemma kept_self {A} (P : A -> Prop) l : (forall a, In a l -> P a) -> kept P l l.
Proof. induction l as [|a l IH]; intros H; constructor; [apply H; left; reflexivity|]. apply IH; intros; apply H; right; assumption. Qed.
Lemma thinned_1 K : thinned 1 1 K K.
Proof.
  apply kept_self. intros f Hf.
  assert (G : forall l x, In x l -> exists i, nth_smallest l x (i * 1)).
  { intros l x Hx. rewrite <- unique_in in Hx. destruct (In_nth _ _ 0 Hx) as (i & Hi & E).
    exists i, (unique l). rewrite Nat.mul_1_r. split; [apply unique_ok|auto]. }
  split; apply G, in_map; exact Hf.
Qed.

Lemma default_attribute_error d fs md K : holds d fs -> md <> EmptyString -> has_cache d = false ->
  kept (in_limits None None) fs K -> full_grid K ->
  init d (Some md) None None 1 1 = (d, Err AttributeError).
Proof.
  intros Hd Hmd Hc HK Fg.
  rewrite (init_names d fs md None None 1 1 K K) by (try assumption; try lia; apply thinned_1). cbv zeta.
  assert (Nd : NoDup K) by (apply (kept_NoDup _ _ _ HK); apply Hd).
  rewrite <- (full_grid_count K Nd Fg). rewrite Nat.eqb_refl. cbn [negb].
  unfold read_spectra, default_request. cbn [m_age_lim m_z_lim m_thin_age m_thin_z Nat.eqb andb]. rewrite Hc. reflexivity.
Qed.

Lemma default_cached d fs md K : holds d fs -> md <> EmptyString -> has_cache d = true ->
  kept (in_limits None None) fs K -> full_grid K ->
  exists m, init d (Some md) None None 1 1 = (d, Ok m) /\ m_X m = Some (npy d) /\ lmd m = default_lmd /\
    default_request m = true.
Proof.
  intros Hd Hmd Hc HK Fg.
  rewrite (init_names d fs md None None 1 1 K K) by (try assumption; try lia; apply thinned_1). cbv zeta.
  assert (Nd : NoDup K) by (apply (kept_NoDup _ _ _ HK); apply Hd).
  rewrite <- (full_grid_count K Nd Fg). rewrite Nat.eqb_refl. cbn [negb].
  unfold read_spectra, default_request. cbn [m_age_lim m_z_lim m_thin_age m_thin_z Nat.eqb andb]. rewrite Hc.
  eexists. split; [reflexivity|]. repeat split.
Qed.

(** ** default wavelengths *)
Lemma default_lmd_length : Z.of_nat (List.length default_lmd) = 4300%Z.
Proof.
  unfold default_lmd, arange. rewrite map_length, seq_length.
  assert (E : ceil ((7409.6 + 0.9 - 3540.5) / 0.9) = 4300%Z).
  { unfold ceil. replace (- ((7409.6 + 0.9 - 3540.5) / 0.9)) with (-4300) by lra.
    rewrite <- (tech_up (-4300) (-4299)%Z); [reflexivity|lra|lra]. }
  rewrite E. apply Z2Nat.id. lia.
Qed.
