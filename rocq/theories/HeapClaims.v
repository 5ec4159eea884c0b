(** * HeapClaims: the distributions of a base component on the heap. *)
From Coq Require Import Reals String Ascii List Bool Arith ZArith Lia.
From Verif Require Import Num Arr ArrLemmas PyStr Cube Base Heap HeapLemmas.
Import ListNotations.
Local Open Scope nat_scope.

(** [hc] is the cube [c] in the heap [h] *)
Definition cube_in (h : heap) (hc : hcube) (c : cube) : Prop :=
  ref 0 h (hq_delta_t hc) (delta_t (c_ssps c)) /\
  ref 0 h (hq_delta_z hc) (delta_z (c_ssps c)) /\
  ref 0 h (hq_v_edg hc) (c_v_edg c) /\
  ref 0 h (hq_light_weights hc) (light_weights (c_ssps c)) /\
  hq_dx hc = c_dx c /\ hq_dy hc = c_dy c.
Definition comp_in (h : heap) (s : hcomp) (self : component) : Prop :=
  cube_in h (ho_cube s) (comp_cube self) /\ ref 0 h (ho_log_p s) (log_p_tvxz self).

Lemma cube_keeps h h' hc c : keeps (length h) h h' -> cube_in h hc c -> cube_in h' hc c.
Proof.
  intros K (H1 & H2 & H3 & H4 & H5). repeat (split; [eapply ref_keeps; eassumption|]). exact H5.
Qed.
Lemma comp_keeps h h' s self : keeps (length h) h h' -> comp_in h s self -> comp_in h' s self.
Proof. intros K [H1 H2]; split; [eapply cube_keeps|eapply ref_keeps]; eassumption. Qed.

(** steps that cannot raise *)
Lemma sp_bind_ok {A A' B B'} n k h (m : prog A) (v : B) (R1 : heap -> A -> B -> Prop)
      (f : A -> prog A') (q : res B') (R : heap -> A' -> B' -> Prop) :
  n <= k -> sp k h m (Ok v) R1 ->
  (forall h' a, keeps k h h' -> R1 h' a v -> sp n h' (f a) q R) ->
  sp n h (bnd m f) q R.
Proof.
  intros L. unfold sp at 1 3, bnd. destruct (m h) as [h' [a|e]]; intros [K X] H; [|contradiction].
  specialize (H h' a K X). unfold sp in H. destruct (f a h') as [h'' x]. destruct H as [K' H].
  split; [eapply keeps_trans; [eapply keeps_weak; eauto|exact K']|exact H].
Qed.

(** *** the volume element *)
Definition oref (h : heap) (o : option nda) (o' : option (arr num)) : Prop :=
  match o, o' with
  | None, None => True
  | Some r, Some v => ref 0 h r v
  | _, _ => False
  end.
Lemma oref_keeps h h' o o' : keeps (length h) h h' -> oref h o o' -> oref h' o o'.
Proof. intros K. destruct o, o'; cbn; auto. apply ref_keeps; exact K. Qed.

Lemma vol_da_sp h hc c var da da' :
  cube_in h hc c -> oref h da da' ->
  sp (length h) h (h_vol_da hc var da) (vol_da c var da') oref.
Proof.
  intros (H1 & H2 & H3 & H4 & H5 & H6) Hd. unfold h_vol_da, vol_da.
  destruct (Ascii.eqb var "t"); [apply sp_ret; exact H1|].
  destruct (Ascii.eqb var "v").
  { eapply sp_bind; [reflexivity|apply (good_bop 0 0); [apply ref_tail0|apply ref_init0]; exact H3|].
    intros h' r v K Hr. apply sp_ret. cbn. eapply ref_weak; [|exact Hr]. lia. }
  destruct (Ascii.eqb var "x").
  { rewrite <- H5. eapply sp_bind_ok; [reflexivity|apply good_alloc|].
    intros h' r K Hr. apply sp_ret. cbn. eapply ref_weak; [|exact Hr]. lia. }
  destruct (Ascii.eqb var "y").
  { rewrite <- H6. eapply sp_bind_ok; [reflexivity|apply good_alloc|].
    intros h' r K Hr. apply sp_ret. cbn. eapply ref_weak; [|exact Hr]. lia. }
  destruct (Ascii.eqb var "z"); apply sp_ret; assumption.
Qed.

Lemma vol_loop_sp hc c ndim vars n : forall h count da da' dvol dvol',
  cube_in h hc c -> oref h da da' -> n <= length h -> ref n h dvol dvol' ->
  sp (length h) h (h_vol_loop hc ndim count vars da dvol) (vol_loop c ndim count vars da' dvol')
     (fun h' r v => ref n h' r v).
Proof.
  induction vars as [|var vars IH]; intros h count da da' dvol dvol' Hc Hd Hn Hv; cbn [h_vol_loop vol_loop].
  - apply sp_ret; exact Hv.
  - eapply sp_bind; [reflexivity|apply vol_da_sp; eassumption|]. intros h1 d d' K1 Hd1.
    assert (L1 : length h <= length h1) by apply K1.
    destruct d as [d|], d' as [d'|]; cbn in Hd1; try contradiction; [|apply sp_err].
    apply (sp_weak _ (length h1)); [exact L1|].
    eapply sp_bind; [reflexivity|eapply sp_getitem; exact Hd1|]. intros h2 g g' _ [-> Hg].
    eapply sp_bind; [reflexivity|eapply good_bop; [eapply ref_keeps; [exact K1|exact Hv]|exact Hg]|].
    intros h2 dv dv' K2 Hdv. assert (L2 : length h1 <= length h2) by apply K2.
    apply (sp_weak _ (length h2)); [exact L2|].
    apply IH; [eapply cube_keeps; [exact K2|eapply cube_keeps; [exact K1|exact Hc]]
              |cbn; eapply ref_keeps; [exact K2|exact Hd1]|lia|eapply ref_weak; [|exact Hdv]; lia].
Qed.

Lemma volume_good h hc c s : cube_in h hc c -> good h (h_volume hc s) (construct_volume_element c s).
Proof.
  intros Hc. unfold h_volume, construct_volume_element, good.
  eapply sp_bind; [reflexivity|apply (sp_lift _ _ _ _ eq)|].
  { destruct (has_char "_" s); [|reflexivity].
    destruct (split "_" s) as [|x1 [|x2 [|x3 l]]]; reflexivity. }
  intros h1 p p' _ [-> ->]. cbv zeta.
  set (ds := replace_char "x" ["x"%char; "y"%char] (fst p')).
  eapply sp_bind_ok; [reflexivity|apply good_alloc|]. intros h1 dv K1 Hdv.
  assert (L1 : length h <= length h1) by apply K1.
  eapply (sp_bind _ (length h1)); [exact L1|apply (vol_loop_sp hc c _ _ (length h)); [eapply cube_keeps; eassumption|exact I|exact L1|exact Hdv]|].
  intros h2 dv2 v2 K2 Hv2.
  assert (E : na_shp dv2 = shp v2) by apply Hv2.
  rewrite E. destruct (snd p') as [m|].
  - eapply sp_conseq; [|eapply sp_getitem; exact Hv2]. intros h3 r v _ [-> Hr]; exact Hr.
  - eapply sp_conseq; [|eapply sp_getitem; exact Hv2]. intros h3 r v _ [-> Hr]; exact Hr.
Qed.

(** *** methods *)

(** [m] and [p] agree in every heap holding the object *)
Definition meth (P : heap -> Prop) (m : h_method) (p : log_p_method) : Prop :=
  forall h density lw, P h -> good h (m density lw) (p density lw).

Lemma addr_ne n h r v r' : ref n h r v -> na_addr r' < n -> na_addr r <> na_addr r'.
Proof. intros [H _] L. lia. Qed.

Lemma tvxz_meth s self : meth (fun h => comp_in h s self) (h_tvxz s) (log_p_tvxz_m self).
Proof.
  intros h density lw Hs. pose proof Hs as [Hc Hl]. unfold h_tvxz, log_p_tvxz_m, good. cbv zeta.
  eapply sp_bind_ok; [reflexivity|eapply good_copy; exact Hl|]. intros h1 lp K1 Hlp.
  assert (L1 : length h <= length h1) by apply K1.
  pose proof (cube_keeps _ _ _ _ K1 Hc) as Hc1.
  assert (A : na_addr lp < length h1) by apply Hlp.
  eapply (sp_bind _ (length h1)); [exact L1|apply volume_good; exact Hc1|]. intros h2 vol vol' K2 Hvol.
  assert (L2 : length h1 <= length h2) by apply K2.
  pose proof (ref_keeps _ _ _ _ _ K2 Hlp) as Hlp2. pose proof (cube_keeps _ _ _ _ K2 Hc1) as Hc2.
  eapply (sp_bind_ok _ (length h2)); [lia|eapply good_map; exact Hvol|]. intros h3 ld K3 Hld.
  assert (L3 : length h2 <= length h3) by apply K3.
  pose proof (ref_keeps _ _ _ _ _ K3 Hlp2) as Hlp3. pose proof (cube_keeps _ _ _ _ K3 Hc2) as Hc3.
  assert (Hold : forall r v, ref 0 h r v -> na_addr r < length h) by (intros r v Hr; apply Hr).
  assert (Alw : na_addr (hq_light_weights (ho_cube s)) < length h) by (eapply Hold; apply Hc).
  eapply (sp_bind _ (length h)); [reflexivity|eapply sp_iop; [exact Hlp3|exact Hld]|].
  intros h4 lp4 v4 K4 (-> & Hlp4 & L4 & O4).
  assert (Hld4 : ref (length h2) h4 ld (amap nlog vol')) by (apply O4; [destruct Hld as [? _]; lia|exact Hld]).
  assert (Hlw4 : ref 0 h4 (hq_light_weights (ho_cube s)) (light_weights (c_ssps (comp_cube self)))).
  { apply O4; [destruct Hlp as [? _]; lia|]. apply Hc3. }
  eapply (sp_bind _ (length h) _ _ _
            (fun h' r v => r = lp /\ ref (length h) h' lp v /\ ref (length h2) h' ld (amap nlog vol'))).
  - reflexivity.
  - destruct lw; [|apply sp_ret; auto].
    eapply sp_bind; [reflexivity|eapply sp_getitem; exact Hlw4|]. intros h5 w w' _ [-> Hw].
    eapply (sp_bind_ok _ (length h4)); [lia|eapply good_map; exact Hw|]. intros h5 lw K5 Hlw.
    assert (L5 : length h4 <= length h5) by apply K5.
    pose proof (ref_keeps _ _ _ _ _ K5 Hlp4) as Hlp5. pose proof (ref_keeps _ _ _ _ _ K5 Hld4) as Hld5.
    eapply sp_bind; [reflexivity|eapply sp_iop; [exact Hlp5|exact Hlw]|].
    intros h6 lp6 v6 K6 (-> & Hlp6 & L6 & O6).
    assert (Hld6 : ref (length h2) h6 ld (amap nlog vol')) by (apply O6; [destruct Hld as [? _]; lia|exact Hld5]).
    eapply (sp_bind _ (length h6)); [lia|eapply good_lse_all; exact Hlp6|]. intros h7 nr nr' K7 Hnr.
    pose proof (ref_keeps _ _ _ _ _ K7 Hlp6) as Hlp7. pose proof (ref_keeps _ _ _ _ _ K7 Hld6) as Hld7.
    eapply sp_conseq; [|eapply sp_iop; [exact Hlp7|exact Hnr]].
    intros h8 lp8 v8 K8 (-> & Hlp8 & L8 & O8). split; [reflexivity|]. split; [exact Hlp8|].
    apply O8; [destruct Hld as [? _]; lia|exact Hld7].
  - intros h5 lp5 v5 K5 (-> & Hlp5 & Hld5). destruct density; [|apply sp_ret; exact Hlp5].
    eapply sp_conseq; [|eapply sp_iop; [exact Hlp5|exact Hld5]].
    intros h6 lp6 v6 K6 (-> & Hlp6 & _). exact Hlp6.
Qed.

Lemma marginal_meth s self axes vol vol' :
  (forall h, comp_in h s self -> sp (length h) h vol vol' (fun h' r v => ref 0 h' r v)) ->
  meth (fun h => comp_in h s self) (h_marginal s axes vol) (marginal_m self axes vol').
Proof.
  intros Hv h density lw Hs. unfold h_marginal, marginal_m, good.
  eapply sp_bind; [reflexivity|apply tvxz_meth; exact Hs|]. intros h1 lp v1 K1 Hlp.
  assert (L1 : length h <= length h1) by apply K1. pose proof (comp_keeps _ _ _ _ K1 Hs) as Hs1.
  eapply (sp_bind _ (length h1)); [exact L1|eapply good_lse; exact Hlp|]. intros h2 m v2 K2 Hm.
  assert (L2 : length h1 <= length h2) by apply K2. pose proof (comp_keeps _ _ _ _ K2 Hs1) as Hs2.
  assert (Hm' : ref (length h) h2 m v2) by (eapply ref_weak; [exact L1|exact Hm]).
  destruct density; [|apply sp_ret; exact Hm'].
  eapply (sp_bind _ (length h2)); [lia|apply Hv; exact Hs2|]. intros h3 dv v3 K3 Hdv.
  pose proof (ref_keeps _ _ _ _ _ K3 Hm') as Hm3. assert (L3 : length h2 <= length h3) by apply K3.
  eapply (sp_bind_ok _ (length h3)); [lia|eapply good_map; exact Hdv|]. intros h4 ld K4 Hld.
  pose proof (ref_keeps _ _ _ _ _ K4 Hm3) as Hm4.
  eapply sp_conseq; [|eapply sp_iop; [exact Hm4|exact Hld]].
  intros h5 m5 v5 K5 (-> & Hm5 & _). exact Hm5.
Qed.

Definition table_ok (P : heap -> Prop) (M : string -> option h_method) (M' : log_p_table) : Prop :=
  forall key, match M key, M' key with
              | Some m, Some p => meth P m p
              | None, None => True
              | _, _ => False
              end.

Lemma base_table_ok s self : table_ok (fun h => comp_in h s self) (h_table s) (base_table self).
Proof.
  assert (V : forall w h, comp_in h s self ->
            sp (length h) h (h_volume (ho_cube s) w) (vol_el self w) (fun h' r v => ref 0 h' r v)).
  { intros w h [Hc _]. eapply sp_conseq; [|apply volume_good; exact Hc].
    intros h' r v _ Hr. eapply ref_weak; [|exact Hr]. lia. }
  assert (Vt : forall h, comp_in h s self ->
            sp (length h) h (ret (hq_delta_t (ho_cube s))) (Ok (delta_t (c_ssps (comp_cube self)))) (fun h' r v => ref 0 h' r v)).
  { intros h [Hc _]. apply sp_ret. apply Hc. }
  intros key. unfold h_table, base_table, lookup. cbv zeta.
  repeat match goal with
  | |- context [String.eqb key ?k] => destruct (String.eqb key k)
  end; try exact I; try (apply marginal_meth; first [exact Vt|apply V]).
  apply tvxz_meth.
Qed.

(** *** queries *)
Section queries.
Variables (P : heap -> Prop) (hc : hcube) (c : cube) (M : string -> option h_method) (M' : log_p_table).
Hypothesis HP : forall h h', keeps (length h) h h' -> P h -> P h'.
Hypothesis HPc : forall h, P h -> cube_in h hc c.
Hypothesis HM : table_ok P M M'.

Lemma key_good key h density lw :
  P h -> good h (f <~ h_getattr M key ;; f density lw) (f <- getattr_log_p M' key ;; f density lw).
Proof.
  intros Hh. unfold h_getattr, getattr_log_p. specialize (HM key).
  destruct (M key) as [m|], (M' key) as [p|]; try contradiction.
  - exact (HM h density lw Hh).
  - split; [apply keeps_refl|reflexivity].
Qed.
Lemma marginal_good w h density lw : P h -> good h (h_log_marginal M w density lw) (get_log_marginal M' w density lw).
Proof. intros Hh. apply key_good; exact Hh. Qed.

Lemma try_good h m k p q :
  good h m p -> (forall h', keeps (length h) h h' -> good h' k q) ->
  good h (h_try m k) (match p with
                      | Ok r => Ok r
                      | Err AttributeError => q
                      | Err NotImplementedError => q
                      | Err e => Err e
                      end).
Proof.
  intros H1 H2. unfold good, sp, h_try in *. destruct (m h) as [h' [r|e]], p as [v|e']; destruct H1 as [K X]; try contradiction.
  - auto.
  - subst e'. assert (L : length h <= length h') by apply K.
    assert (G : let '(h'', x) := k h' in keeps (length h) h h'' /\
              match x, q with Ok a, Ok b => ref (length h) h'' a b | Err e, Err e' => e = e' | _, _ => False end).
    { specialize (H2 h' K). destruct (k h') as [h'' x]. destruct H2 as [K' X]. split.
      - eapply keeps_trans; [exact K|eapply keeps_weak; [exact L|exact K']].
      - destruct x, q; auto. eapply ref_weak; [exact L|exact X]. }
    destruct e; auto.
Qed.

Lemma conditional_good w h density lw :
  P h -> good h (h_log_conditional hc M w density lw) (get_log_conditional c M' w density lw).
Proof.
  intros Hh. unfold h_log_conditional, get_log_conditional.
  eapply sp_bind; [reflexivity|apply (sp_lift _ _ _ _ (fun _ _ => True)); destruct (py_assert _); auto|].
  intros h0 u u' _ [-> _]. clear u u'.
  destruct (split "_" w) as [|dist [|marginal [|? ?]]]; try apply sp_err. cbv zeta.
  apply try_good; [apply key_good; exact Hh|]. intros h1 K. pose proof (HP _ _ K Hh) as Hh1. clear K Hh h.
  rename h1 into h, Hh1 into Hh.
  eapply sp_bind; [reflexivity|apply marginal_good; exact Hh|]. intros h1 j vj K1 Hj.
  assert (L1 : length h <= length h1) by apply K1. pose proof (HP _ _ K1 Hh) as Hh1.
  eapply (sp_bind _ (length h1)); [exact L1|apply marginal_good; exact Hh1|]. intros h2 m vm K2 Hm.
  assert (L2 : length h1 <= length h2) by apply K2. pose proof (HP _ _ K2 Hh1) as Hh2.
  pose proof (ref_keeps _ _ _ _ _ K2 Hj) as Hj2.
  eapply sp_bind; [reflexivity|eapply sp_moveaxis; exact Hj2|]. intros h3 j3 v3 _ [-> Hj3].
  eapply (sp_bind _ (length h2)); [lia|eapply good_bop; [exact Hj3|exact Hm]|]. intros h3 r v K3 Hr.
  assert (L3 : length h2 <= length h3) by apply K3. pose proof (HP _ _ K3 Hh2) as Hh3.
  destruct density; [|apply sp_ret; eapply ref_weak; [|exact Hr]; lia].
  eapply (sp_bind _ (length h3)); [lia|apply volume_good; apply HPc; exact Hh3|]. intros h4 dv vd K4 Hdv.
  assert (L4 : length h3 <= length h4) by apply K4. pose proof (ref_keeps _ _ _ _ _ K4 Hr) as Hr4.
  eapply (sp_bind_ok _ (length h4)); [lia|eapply good_map; exact Hdv|]. intros h5 ld K5 Hld.
  assert (L5 : length h4 <= length h5) by apply K5. pose proof (ref_keeps _ _ _ _ _ K5 Hr4) as Hr5.
  eapply (sp_weak _ (length h5)); [lia|].
  eapply sp_conseq; [|eapply good_bop; [exact Hr5|exact Hld]].
  intros h6 r6 v6 _ H6. eapply ref_weak; [|exact H6]. lia.
Qed.

Lemma get_log_p_good w h density lw :
  P h -> good h (h_get_log_p_of hc M w density lw) (get_log_p_of c M' w density lw).
Proof.
  intros Hh. unfold h_get_log_p_of, get_log_p_of.
  destruct (has_char "_" w); [apply conditional_good|apply marginal_good]; exact Hh.
Qed.
Lemma get_p_good w h density lw :
  P h -> good h (h_get_p_of hc M w density lw) (get_p_of c M' w density lw).
Proof.
  intros Hh. unfold h_get_p_of, get_p_of, good.
  eapply sp_bind; [reflexivity|apply get_log_p_good; exact Hh|]. intros h1 r v K Hr.
  assert (L : length h <= length h1) by apply K.
  apply (sp_weak _ (length h1)); [exact L|].
  eapply sp_conseq; [|eapply good_map; exact Hr]. intros h6 r6 v6 _ H6. eapply ref_weak; [|exact H6]. lia.
Qed.
End queries.

Lemma base_log_good s self w h density lw :
  comp_in h s self -> good h (h_get_log_p s w density lw) (get_log_p self w density lw).
Proof.
  apply (get_log_p_good (fun h => comp_in h s self)).
  - intros h1 h2; apply comp_keeps.
  - intros h1 H; apply H.
  - apply base_table_ok.
Qed.
Lemma base_good s self w h density lw :
  comp_in h s self -> good h (h_get_p s w density lw) (get_p self w density lw).
Proof.
  apply (get_p_good (fun h => comp_in h s self)).
  - intros h1 h2; apply comp_keeps.
  - intros h1 H; apply H.
  - apply base_table_ok.
Qed.
