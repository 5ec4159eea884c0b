(** * ParticleArrClaims: particle data given as arrays. *)
From Coq Require Import Reals Lra Lia List Bool Arith ZArith String Ascii.
From Verif Require Import Num NumLemmas Arr ArrLemmas Cube Base Spec Repr Build Particle ParticleArr ParticleArrSpec ParticleSpec ParticleLemmas ParticleClaims.
Import ListNotations.
Local Open Scope nat_scope.

Lemma all_idx_1 n : all_idx [n] = map (fun i => [i]) (seq 0 n).
Proof.
  unfold all_idx. induction (seq 0 n) as [|a l IH]; [reflexivity|]. cbn. f_equal.
Qed.
Lemma count_map {A B} (f : B -> bool) (h : A -> B) l : count f (map h l) = count (fun x => f (h x)) l.
Proof.
  unfold count. induction l as [|a l IH]; [reflexivity|]. cbn [map filter]. destruct (f (h a)); cbn; rewrite IH; reflexivity.
Qed.
Lemma count_ext_in {A} (f h : A -> bool) l : (forall x, In x l -> f x = h x) -> count f l = count h l.
Proof.
  intros H. unfold count. rewrite (filter_ext_in f h l H). reflexivity.
Qed.
Lemma acount_1 a n : shp a = [n] -> acount a = count (fun i => ent a [i]) (seq 0 n).
Proof. intros H. unfold acount. rewrite H, all_idx_1, count_map. reflexivity. Qed.

(** masks of one length *)
Lemma bop_and_1 (a b : arr bool) n : shp a = [n] -> shp b = [n] ->
  exists q, bop andb a b = Ok q /\ shp q = [n] /\ forall i, i < n -> ent q [i] = ent a [i] && ent b [i].
Proof.
  intros Ha Hb. unfold bop. rewrite Ha, Hb. unfold bshape. cbn. unfold bdim. rewrite Nat.eqb_refl.
  eexists. split; [reflexivity|]. split; [reflexivity|]. intros i Hi. cbn [ent].
  unfold bidx. cbn. unfold pick. destruct (Nat.eqb_spec n 1); [|reflexivity].
  replace i with 0 by lia. reflexivity.
Qed.
Lemma all_masks_1 n l : Forall (fun a => shp a = [n]) l -> forall m, shp m = [n] ->
  exists q, all_masks m l = Ok q /\ shp q = [n] /\
    forall i, i < n -> ent q [i] = fold_left andb (map (fun a => ent a [i]) l) (ent m [i]).
Proof.
  induction 1 as [|a l Ha Hl IH]; intros m Hm.
  - exists m. split; [reflexivity|]. split; [exact Hm|]. reflexivity.
  - destruct (bop_and_1 m a n Hm Ha) as (q & E & Hq & He). destruct (IH q Hq) as (r & Er & Hr & He').
    exists r. cbn [all_masks]. rewrite E. cbn [bind]. split; [exact Er|]. split; [exact Hr|].
    intros i Hi. rewrite He' by assumption. cbn [map fold_left]. rewrite He by assumption. reflexivity.
Qed.
(** otherwise a failure is a ValueError *)
Lemma all_masks_err l : forall m, (exists q, all_masks m l = Ok q) \/ all_masks m l = Err ValueError.
Proof.
  induction l as [|a l IH]; intros m; [left; eexists; reflexivity|]. cbn [all_masks].
  unfold bop at 1 2. destruct (bshape (shp m) (shp a)) as [s|]; [|right; reflexivity]. cbn [bind]. apply IH.
Qed.

Lemma zipped_length n t v x1 x2 z : List.length (zipped n t v x1 x2 z) = n.
Proof. unfold zipped. rewrite map_length, seq_length. reflexivity. Qed.

Definition axis_list (w : option (arr num)) : option (list num) :=
  match w with None => None | Some a => Some (to_list a) end.
Definition one_axis (w : option (arr num)) : Prop :=
  match w with None => True | Some a => exists m, shp a = [m] end.

Lemma same_arrays c n t v x1 x2 z w : shp t = [n] -> shp v = [n] -> shp x1 = [n] -> shp x2 = [n] -> shp z = [n] ->
  one_axis w ->
  from_particle_arrays c t v x1 x2 z w = from_particle c (zipped n t v x1 x2 z) (axis_list w).
Proof.
  intros Ht Hv H1 H2 Hz Hw. unfold from_particle_arrays, from_particle.
  destruct (get_variable_edges c "t") as [et|]; [|reflexivity]. destruct (get_variable_edges c "v") as [ev|]; [|reflexivity].
  destruct (get_variable_edges c "x1") as [e1|]; [|reflexivity]. destruct (get_variable_edges c "x2") as [e2|]; [|reflexivity].
  destruct (get_variable_edges c "z") as [ez|]; [|reflexivity]. cbn [bind]. unfold py_len. rewrite Ht. cbn [bind].
  destruct (edge_lo et) as [t0|]; [|reflexivity]. destruct (edge_hi et) as [t1|]; [|reflexivity].
  destruct (edge_lo ev) as [v0|]; [|reflexivity]. destruct (edge_hi ev) as [v1|]; [|reflexivity].
  destruct (edge_lo e1) as [a0|]; [|reflexivity]. destruct (edge_hi e1) as [a1|]; [|reflexivity].
  destruct (edge_lo e2) as [b0|]; [|reflexivity]. destruct (edge_hi e2) as [b1|]; [|reflexivity].
  destruct (edge_lo ez) as [z0|]; [|reflexivity]. destruct (edge_hi ez) as [z1|]; [|reflexivity].
  cbn [bind].
  destruct (all_masks_1 n [at_most t1 t; at_least v0 v; at_most v1 v; at_least a0 x1; at_most a1 x1;
      at_least b0 x2; at_most b1 x2; at_least z0 z; at_most z1 z]) with (m := at_least t0 t) as (q & Eq & Hq & He).
  { repeat (constructor; [assumption|]). constructor. }
  { exact Ht. }
  rewrite Eq. cbn [bind]. unfold sample. rewrite Ht, Hv, H1, H2, Hz, !natlist_eqb_refl. cbn [andb bind].
  fold (zipped n t v x1 x2 z).
  assert (W : weight_list (zipped n t v x1 x2 z) w = Ok (axis_list w) \/
              n = 0 /\ weight_list (zipped n t v x1 x2 z) w = Ok None).
  { unfold weight_list, axis_list. rewrite zipped_length. destruct w as [a|]; [|left; reflexivity].
    destruct (Nat.eqb_spec n 0) as [Z|Z]; [right; split; [exact Z|reflexivity]|].
    destruct Hw as [m Hm]. rewrite Hm. left. reflexivity. }
  assert (HH : (w0 <- weight_list (zipped n t v x1 x2 z) w ;; histogramdd (Edges5 et ev e1 e2 ez) (zipped n t v x1 x2 z) w0) =
               histogramdd (Edges5 et ev e1 e2 ez) (zipped n t v x1 x2 z) (axis_list w)).
  { destruct W as [W|[Z W]]; rewrite W; cbn [bind]; [reflexivity|]. subst n. destruct w; reflexivity. }
  rewrite <- HH. clear HH W.
  destruct (weight_list (zipped n t v x1 x2 z) w) as [w0|]; [|reflexivity]. cbn [bind].
  destruct (histogramdd (Edges5 et ev e1 e2 ez) (zipped n t v x1 x2 z) w0) as [p|]; [|reflexivity]. cbn [bind].
  destruct (component_init c (amap nlog p)) as [comp|]; [|reflexivity]. cbn [bind].
  rewrite zipped_length. rewrite (acount_1 q n Hq).
  repeat match goal with |- context [acount (amap ?f ?a)] =>
    rewrite (acount_1 (amap f a) n) by assumption end.
  unfold zipped. rewrite !count_map. cbn [p_t p_v p_x1 p_x2 p_z amap ent].
  do 3 f_equal. f_equal. apply count_ext_in. intros i Hi. apply in_seq in Hi. rewrite He by lia.
  unfold at_least, at_most, between. cbn [map fold_left amap ent]. rewrite !andb_assoc. reflexivity.
Qed.

Section On.
Context (c : cube) (g : grid) (Hc : cube_on c g) (Hg : good_grid g).

Lemma steps : exists et ev e1 e2 ez t0 t1 v0 v1 a0 a1 b0 b1 z0 z1,
  get_variable_edges c "t" = Ok et /\ get_variable_edges c "v" = Ok ev /\ get_variable_edges c "x1" = Ok e1 /\
  get_variable_edges c "x2" = Ok e2 /\ get_variable_edges c "z" = Ok ez /\
  edge_lo et = Ok t0 /\ edge_hi et = Ok t1 /\ edge_lo ev = Ok v0 /\ edge_hi ev = Ok v1 /\
  edge_lo e1 = Ok a0 /\ edge_hi e1 = Ok a1 /\ edge_lo e2 = Ok b0 /\ edge_hi e2 = Ok b1 /\
  edge_lo ez = Ok z0 /\ edge_hi ez = Ok z1.
Proof.
  destruct (fp_eq c g Hc Hg) as (dt & dv & dx & dy & dz & _ & _ & _ & _ & _ & F). specialize (F []). revert F.
  unfold from_particle.
  destruct (get_variable_edges c "t") as [et|]; [|discriminate]. destruct (get_variable_edges c "v") as [ev|]; [|discriminate].
  destruct (get_variable_edges c "x1") as [e1|]; [|discriminate]. destruct (get_variable_edges c "x2") as [e2|]; [|discriminate].
  destruct (get_variable_edges c "z") as [ez|]; [|discriminate]. cbn [bind].
  destruct (edge_lo et) as [t0|] eqn:?; [|discriminate]. destruct (edge_hi et) as [t1|] eqn:?; [|discriminate].
  destruct (edge_lo ev) as [v0|] eqn:?; [|discriminate]. destruct (edge_hi ev) as [v1|] eqn:?; [|discriminate].
  destruct (edge_lo e1) as [a0|] eqn:?; [|discriminate]. destruct (edge_hi e1) as [a1|] eqn:?; [|discriminate].
  destruct (edge_lo e2) as [b0|] eqn:?; [|discriminate]. destruct (edge_hi e2) as [b1|] eqn:?; [|discriminate].
  destruct (edge_lo ez) as [z0|] eqn:?; [|discriminate]. destruct (edge_hi ez) as [z1|] eqn:?; [|discriminate].
  intros _. exists et, ev, e1, e2, ez, t0, t1, v0, v1, a0, a1, b0, b1, z0, z1. tauto.
Qed.

Lemma number_claim t v x1 x2 z w : shp t = [] -> from_particle_arrays c t v x1 x2 z w = Err TypeError.
Proof.
  intros Ht. destruct steps as (et & ev & e1 & e2 & ez & ? & ? & ? & ? & ? & ? & ? & ? & ? & ? & E & E1 & E2 & E3 & E4 & _).
  unfold from_particle_arrays. rewrite E, E1, E2, E3, E4. cbn [bind]. unfold py_len. rewrite Ht. reflexivity.
Qed.

Lemma shapes_claim t v x1 x2 z w : shp t <> [] ->
  ~ (exists n, shp t = [n] /\ shp v = [n] /\ shp x1 = [n] /\ shp x2 = [n] /\ shp z = [n]) ->
  from_particle_arrays c t v x1 x2 z w = Err ValueError.
Proof.
  intros Ht Hn. destruct steps as (et & ev & e1 & e2 & ez & t0 & t1 & v0 & v1 & a0 & a1 & b0 & b1 & z0 & z1 &
    E & E1 & E2 & E3 & E4 & F0 & F1 & F2 & F3 & F4 & F5 & F6 & F7 & F8 & F9).
  unfold from_particle_arrays. rewrite E, E1, E2, E3, E4. cbn [bind].
  unfold py_len. destruct (shp t) as [|n s] eqn:Es; [contradiction|]. cbn [bind].
  rewrite F0, F1, F2, F3, F4, F5, F6, F7, F8, F9. cbn [bind].
  match goal with |- context [all_masks ?m ?l] => destruct (all_masks_err l m) as [[q Eq]|Eq]; rewrite Eq end;
    cbn [bind]; [|reflexivity].
  assert (S : sample t v x1 x2 z = Err ValueError).
  { unfold sample. destruct (natlist_eqb (shp v) (shp t) && _ && _ && _) eqn:B; [|reflexivity].
    rewrite !andb_true_iff, !natlist_eqb_eq in B. destruct B as [[[Bv B1] B2] Bz]. rewrite Es in *.
    destruct s as [|m s]; [|reflexivity]. exfalso. apply Hn. exists n. auto. }
  rewrite S. reflexivity.
Qed.

Lemma weights_claim n t v x1 x2 z a : shp t = [S n] -> shp v = [S n] -> shp x1 = [S n] -> shp x2 = [S n] -> shp z = [S n] ->
  shp a <> [S n] -> from_particle_arrays c t v x1 x2 z (Some a) = Err ValueError.
Proof.
  intros Ht Hv H1 H2 Hz Ha. destruct (shp a) as [|m [|m' s]] eqn:Es.
  2:{ rewrite (same_arrays c (S n)) by (eauto; cbn; eauto). apply (length_claim c g Hc Hg).
      { unfold zipped. discriminate. }
      unfold to_list, len0. rewrite map_length, seq_length, zipped_length, Es. cbn. congruence. }
  all: destruct steps as (et & ev & e1 & e2 & ez & t0 & t1 & v0 & v1 & a0 & a1 & b0 & b1 & z0 & z1 &
      E & E1 & E2 & E3 & E4 & F0 & F1 & F2 & F3 & F4 & F5 & F6 & F7 & F8 & F9);
    unfold from_particle_arrays; rewrite E, E1, E2, E3, E4; cbn [bind]; unfold py_len; rewrite Ht; cbn [bind];
    rewrite F0, F1, F2, F3, F4, F5, F6, F7, F8, F9; cbn [bind];
    (match goal with |- context [all_masks ?m ?l] => destruct (all_masks_err l m) as [[q Eq]|Eq]; rewrite Eq end;
     cbn [bind]; [|reflexivity]);
    unfold sample; rewrite Ht, Hv, H1, H2, Hz, !natlist_eqb_refl; cbn [andb bind];
    unfold weight_list; rewrite map_length, seq_length; cbn [Nat.eqb]; rewrite Es; reflexivity.
Qed.
Local Open Scope R_scope.

Lemma arrays_claim n t v x1 x2 z a w : shp t = [n] -> shp v = [n] -> shp x1 = [n] -> shp x2 = [n] -> shp z = [n] ->
  shp a = [n] -> (forall i, (i < n)%nat -> ent a [i] = Fin (w i)) ->
  0 < weight (in_bounds g) (zipped_w n t v x1 x2 z w) ->
  exists comp, from_particle_arrays c t v x1 x2 z (Some a) = Ok (note_of g (zipped n t v x1 x2 z), comp) /\
    comp_on comp g (particle_density g (zipped_w n t v x1 x2 z w)).
Proof.
  intros Ht Hv H1 H2 Hz Ha Hw Hp. destruct (density_claim c g Hc Hg _ Hp) as (comp & E & Hon).
  exists comp. split; [|exact Hon]. rewrite (same_arrays c n) by (eauto; cbn; eauto).
  rewrite <- E || (etransitivity; [|etransitivity; [exact E|]]).
  - unfold zipped_w. rewrite !map_map. cbn [fst snd axis_list]. unfold zipped. do 2 f_equal.
    unfold to_list, len0. rewrite Ha. cbn. apply map_ext_in. intros i Hi. apply in_seq in Hi. apply Hw. lia.
  - unfold zipped_w, zipped. rewrite map_map. reflexivity.
Qed.

Lemma unweighted_claim n t v x1 x2 z : of_length n [t; v; x1; x2; z] ->
  0 < weight (in_bounds g) (zipped_w n t v x1 x2 z (fun _ => 1)) ->
  exists comp, from_particle_arrays c t v x1 x2 z None = Ok (note_of g (zipped n t v x1 x2 z), comp) /\
    comp_on comp g (particle_density g (zipped_w n t v x1 x2 z (fun _ => 1))).
Proof.
  intros HL Hp. repeat match goal with H : of_length _ (_ :: _) |- _ => inversion H; subst; clear H
    | H : Forall _ (_ :: _) |- _ => inversion H; subst; clear H end.
  destruct (density_claim c g Hc Hg _ Hp) as (comp & E & Hon).
  exists comp. split; [|exact Hon]. rewrite (same_arrays c n) by (eauto; exact I). cbn [axis_list].
  rewrite none_claim.
  etransitivity; [|etransitivity; [exact E|]].
  - unfold zipped_w. rewrite !map_map. cbn [fst snd]. fold (zipped n t v x1 x2 z). f_equal. f_equal.
    rewrite zipped_length. clear. generalize 0%nat as k. induction n as [|n IH]; intros k; [reflexivity|].
    cbn. f_equal. apply IH.
  - unfold zipped_w, zipped. rewrite map_map. reflexivity.
Qed.

Lemma fits_claim n t v x1 x2 z w : of_length n [t; v; x1; x2; z] -> weights_fit n w ->
  exists r, from_particle_arrays c t v x1 x2 z w = Ok r.
Proof.
  intros HL Hw. repeat match goal with H : of_length _ (_ :: _) |- _ => inversion H; subst; clear H
    | H : Forall _ (_ :: _) |- _ => inversion H; subst; clear H end.
  destruct (fp_eq c g Hc Hg) as (dt & dv & dx & dy & dz & _ & _ & _ & _ & _ & F).
  assert (G : forall ps l, List.length l = List.length ps -> exists r, from_particle c ps (Some l) = Ok r).
  { intros ps l Hl. specialize (F (combine ps l)). eexists. etransitivity; [|exact F]. f_equal.
    - clear -Hl. revert l Hl. induction ps as [|p ps IH]; intros [|a l] Hl; cbn in *; try lia; [reflexivity|].
      f_equal. apply IH. lia.
    - f_equal. clear -Hl. revert l Hl. induction ps as [|p ps IH]; intros [|a l] Hl; cbn in *; try lia; [reflexivity|].
      f_equal. apply IH. lia. }
  destruct n as [|n].
  - destruct (G [] [] eq_refl) as [r Hr]. rewrite unread_claim in Hr. exists r. rewrite <- Hr.
    transitivity (from_particle_arrays c t v x1 x2 z None).
    + unfold from_particle_arrays, sample, weight_list.
      repeat match goal with H : shp _ = [0%nat] |- _ => rewrite H; clear H end. cbn [natlist_eqb Nat.eqb andb seq map List.length bind].
      destruct w; reflexivity.
    + rewrite (same_arrays c 0) by (eauto; exact I). reflexivity.
  - destruct w as [a|].
    + destruct Hw as [Hw|Hw]; [discriminate|]. rewrite (same_arrays c (S n)) by (eauto; cbn; eauto). apply G.
      unfold to_list, len0. rewrite map_length, seq_length, zipped_length, Hw. reflexivity.
    + rewrite (same_arrays c (S n)) by (eauto; exact I). cbn [axis_list]. rewrite none_claim. apply G. apply repeat_length.
Qed.

Lemma succeeds_claim t v x1 x2 z w :
  (exists r, from_particle_arrays c t v x1 x2 z w = Ok r) <->
  (exists n, of_length n [t; v; x1; x2; z] /\ weights_fit n w).
Proof.
  split; [|intros (n & H1 & H2); exact (fits_claim n t v x1 x2 z w H1 H2)].
  intros [r Hr]. destruct (list_eq_dec Nat.eq_dec (shp t) []) as [Z|Z].
  { rewrite (number_claim _ _ _ _ _ _ Z) in Hr. discriminate. }
  assert (D : (exists n, shp t = [n] /\ shp v = [n] /\ shp x1 = [n] /\ shp x2 = [n] /\ shp z = [n]) \/
              ~ (exists n, shp t = [n] /\ shp v = [n] /\ shp x1 = [n] /\ shp x2 = [n] /\ shp z = [n])).
  { destruct (shp t) as [|n [|m s]].
    - right. intros (n & H & _). discriminate.
    - destruct (list_eq_dec Nat.eq_dec (shp v) [n]) as [E1|E1]; [|right; intros (k & K1 & K2 & _); congruence].
      destruct (list_eq_dec Nat.eq_dec (shp x1) [n]) as [E2|E2]; [|right; intros (k & K1 & _ & K2 & _); congruence].
      destruct (list_eq_dec Nat.eq_dec (shp x2) [n]) as [E3|E3]; [|right; intros (k & K1 & _ & _ & K2 & _); congruence].
      destruct (list_eq_dec Nat.eq_dec (shp z) [n]) as [E4|E4]; [|right; intros (k & K1 & _ & _ & _ & K2); congruence].
      left. exists n. auto.
    - right. intros (k & H & _). discriminate. }
  destruct D as [(n & A1 & A2 & A3 & A4 & A5)|D].
  2:{ rewrite (shapes_claim _ _ _ _ _ w Z D) in Hr. discriminate. }
  exists n. split; [repeat (constructor; [assumption|]); constructor|].
  destruct w as [a|]; [|exact I]. cbn. destruct n as [|n]; [left; reflexivity|right].
  destruct (list_eq_dec Nat.eq_dec (shp a) [S n]) as [E|E]; [exact E|].
  rewrite (weights_claim n _ _ _ _ _ a A1 A2 A3 A4 A5 E) in Hr. discriminate.
Qed.

(** what goes wrong *)
Lemma failure_claim t v x1 x2 z w e : from_particle_arrays c t v x1 x2 z w = Err e ->
  (e = TypeError <-> shp t = []) /\ (e = ValueError <-> shp t <> []).
Proof.
  intros H. destruct (list_eq_dec Nat.eq_dec (shp t) []) as [Z|Z].
  { rewrite (number_claim _ _ _ _ _ _ Z) in H. injection H as <-. split; split; intros; try congruence; auto; contradiction. }
  assert (V : e = ValueError).
  { revert H. destruct steps as (et & ev & e1 & e2 & ez & t0 & t1 & v0 & v1 & a0 & a1 & b0 & b1 & z0 & z1 &
      E & E1 & E2 & E3 & E4 & F0 & F1 & F2 & F3 & F4 & F5 & F6 & F7 & F8 & F9).
    destruct (from_particle_arrays c t v x1 x2 z w) as [r|e'] eqn:EE; [discriminate|]. intros H. injection H as ->.
    assert (N : ~ (exists n, of_length n [t; v; x1; x2; z] /\ weights_fit n w)).
    { intros Q. apply succeeds_claim in Q. destruct Q as [r Q]. congruence. }
    assert (D : ~ (exists n, shp t = [n] /\ shp v = [n] /\ shp x1 = [n] /\ shp x2 = [n] /\ shp z = [n]) \/
                (exists n, shp t = [n] /\ shp v = [n] /\ shp x1 = [n] /\ shp x2 = [n] /\ shp z = [n])).
    { apply or_comm. destruct (shp t) as [|n [|m s]].
      - right. intros (n & Q & _). discriminate.
      - destruct (list_eq_dec Nat.eq_dec (shp v) [n]) as [Q1|Q1]; [|right; intros (k & K1 & K2 & _); congruence].
        destruct (list_eq_dec Nat.eq_dec (shp x1) [n]) as [Q2|Q2]; [|right; intros (k & K1 & _ & K2 & _); congruence].
        destruct (list_eq_dec Nat.eq_dec (shp x2) [n]) as [Q3|Q3]; [|right; intros (k & K1 & _ & _ & K2 & _); congruence].
        destruct (list_eq_dec Nat.eq_dec (shp z) [n]) as [Q4|Q4]; [|right; intros (k & K1 & _ & _ & _ & K2); congruence].
        left. exists n. auto.
      - right. intros (k & Q & _). discriminate. }
    destruct D as [D|(n & A1 & A2 & A3 & A4 & A5)].
    { rewrite (shapes_claim _ _ _ _ _ w Z D) in EE. congruence. }
    destruct n as [|n].
    { exfalso. apply N. exists 0%nat. split; [repeat (constructor; [assumption|]); constructor|]. destruct w; cbn; auto. }
    destruct w as [a|].
    2:{ exfalso. apply N. exists (S n). split; [repeat (constructor; [assumption|]); constructor|exact I]. }
    destruct (list_eq_dec Nat.eq_dec (shp a) [S n]) as [Q|Q].
    { exfalso. apply N. exists (S n). split; [repeat (constructor; [assumption|]); constructor|]. right; exact Q. }
    rewrite (weights_claim n _ _ _ _ _ a A1 A2 A3 A4 A5 Q) in EE. congruence. }
  subst e. split; split; intros; try congruence; auto; contradiction.
Qed.
End On.

Lemma list_claim c n t v x1 x2 z : of_length n [t; v; x1; x2; z] ->
  from_particle_arrays c t v x1 x2 z None = from_particle c (zipped n t v x1 x2 z) None /\
  forall a m, shp a = [m] ->
    from_particle_arrays c t v x1 x2 z (Some a) = from_particle c (zipped n t v x1 x2 z) (Some (to_list a)).
Proof.
  intros HL. repeat match goal with H : of_length _ (_ :: _) |- _ => inversion H; subst; clear H
    | H : Forall _ (_ :: _) |- _ => inversion H; subst; clear H end.
  split; [rewrite (same_arrays c n) by (eauto; exact I); reflexivity|].
  intros a m Ha. rewrite (same_arrays c n) by (eauto; cbn; eauto). reflexivity.
Qed.

Local Open Scope R_scope.
Lemma weighted_claim c g n t v x1 x2 z a w : cube_on c g -> good_grid g -> of_length n [t; v; x1; x2; z; a] ->
  (forall i, (i < n)%nat -> ent a [i] = Fin (w i)) ->
  0 < weight (in_bounds g) (zipped_w n t v x1 x2 z w) ->
  exists comp, from_particle_arrays c t v x1 x2 z (Some a) = Ok (note_of g (zipped n t v x1 x2 z), comp) /\
    comp_on comp g (particle_density g (zipped_w n t v x1 x2 z w)).
Proof.
  intros Hc Hg HL. repeat match goal with H : of_length _ (_ :: _) |- _ => inversion H; subst; clear H
    | H : Forall _ (_ :: _) |- _ => inversion H; subst; clear H end.
  apply arrays_claim; assumption.
Qed.
