(** * PertExample: pairs of components (claim C107). *)
From Coq Require Import Reals Lra Lia List Bool Arith ZArith String Ascii.
From Verif Require Import Num NumLemmas Arr PyStr Cube Base Spec SpecLemmas Repr Build DistLemmas Moments MomSpec MomClaims
  Mixture MixSpec MixExample PertSpec Pert PertClaims.
Import ListNotations.
Local Open Scope R_scope.

(** light-weighted densities in all bins *)
Lemma light_claim self self' g f f' : comp_on self g f -> comp_on self' g f' -> good_grid g -> nonneg g f -> nonneg g f' ->
  0 < total g (lit g (mass g f)) -> 0 < total g (lit g (mass g f')) ->
  forall M, (forall t z, (t < nt g)%nat -> (z < nz g)%nat -> Lw g t z <= M) ->
  exists p p' q q' r r' s s', get_p self "tvxz" false false = Ok p /\ get_p self' "tvxz" false false = Ok p' /\
    get_p self "tvxz" false true = Ok q /\ get_p self' "tvxz" false true = Ok q' /\
    reads g p all_vars r /\ reads g p' all_vars r' /\ reads g q all_vars s /\ reads g q' all_vars s' /\
    forall i, in_grid g i -> apart g all_vars i s s' <= 2 * M / total g (lit g (mass g f)) * apart g all_vars i r r'.
Proof.
  intros H H' Hg Hf Hf' HT HT' M HM.
  destruct (read_marg g false Hg self f H Hf ltac:(discriminate) all_vars eq_refl) as (p & Ep & Vp).
  destruct (read_marg g false Hg self' f' H' Hf' ltac:(discriminate) all_vars eq_refl) as (p' & Ep' & Vp').
  destruct (read_marg g true Hg self f H Hf (fun _ => HT) all_vars eq_refl) as (q & Eq & Vq).
  destruct (read_marg g true Hg self' f' H' Hf' (fun _ => HT') all_vars eq_refl) as (q' & Eq' & Vq').
  exists p, p', q, q', (marg g (mass g f) all_vars), (marg g (mass g f') all_vars),
    (marg g (light g (mass g f)) all_vars), (marg g (light g (mass g f')) all_vars).
  do 8 (split; [assumption|]). intros i Hi.
  apply lit_apart; try assumption; apply mass_nonneg; assumption.
Qed.

Lemma exf1_lw lw : lw_ok exg exf1 lw.
Proof. exact (exm_members lw 1 ltac:(cbn; lia)). Qed.

(** all in the first, all in the last velocity bin *)
Definition exlo : joint := fun t v x y z => if Nat.eqb v 0 then 1 else 0.
Definition exhi : joint := fun t v x y z => if Nat.eqb v 0 then 0 else 1.
Lemma exlo_on : comp_on (comp_of exg exlo) exg exlo.
Proof. apply comp_of_on; [apply exg_uniform_x|apply exg_uniform_y]. Qed.
Lemma exhi_on : comp_on (comp_of exg exhi) exg exhi.
Proof. apply comp_of_on; [apply exg_uniform_x|apply exg_uniform_y]. Qed.
Lemma exlo_nonneg : nonneg exg exlo.
Proof. intros t v x y z _ _ _ _ _. unfold exlo. destruct (Nat.eqb v 0); lra. Qed.
Lemma exhi_nonneg : nonneg exg exhi.
Proof. intros t v x y z _ _ _ _ _. unfold exhi. destruct (Nat.eqb v 0); lra. Qed.

(** the same members with other weights *)
Definition expts2 : parts := [(exf, 1 / 2); (exf1, 1 / 2)].
Definition exm2 : mixture := Mixture (cube_of exg) [comp_member exc; comp_member exc1] [Fin (1 / 2); Fin (1 / 2)].
Lemma exm2_on : mix_on exm2 exg [exc; exc1] expts2.
Proof.
  constructor; try reflexivity; [apply exm_on|discriminate|].
  intros [|[|k]] c q E1 E2; cbn in E1, E2; try (destruct k; discriminate E1);
    injection E1 as <-; injection E2 as <-; cbn [fst snd].
  - split; [apply exc_on|]. split; [apply exf_nonneg|lra].
  - split; [apply exc1_on|]. split; [apply exf1_nonneg|lra].
Qed.
Lemma velocity_mean g f C : comp_on (comp_of g f) g f -> good_grid g -> nonneg g f -> has_v C = false -> nonempty C = true ->
  exists m, get_mean (base_obj (comp_of g f)) (dname (cvar Cv) C) false = Ok m /\
    forall i, in_grid g i -> 0 < marg g (prob g f false) C i -> ent m (coords C i) = Fin (Mean g (prob g f false) Cv C i).
Proof.
  intros H Hg Hf HC HN. destruct (mean_claim _ g f false H Hg Hf ltac:(discriminate) Cv C) as (m & E & _ & V).
  - destruct C as [[] [] [] []]; try discriminate HC; reflexivity.
  - congruence.
  - exists m. split; [exact E|]. intros i Hi Hm. apply (V i Hi), Hm.
Qed.
Lemma velocity_column g f C : comp_on (comp_of g f) g f -> good_grid g -> nonneg g f -> has_v C = false -> nonempty C = true ->
  exists q, get_p (comp_of g f) (dname (cvar Cv) C) false false = Ok q /\
    forall i, in_grid g i -> 0 < marg g (prob g f false) C i -> reads_given g q (cvar Cv) C i (column g (prob g f false) (cvar Cv) C i).
Proof.
  intros H Hg Hf HC HN. eapply read_given; try eassumption; try discriminate; try reflexivity.
  - destruct C as [[] [] [] []]; try discriminate HC; reflexivity.
  - congruence.
Qed.
