(** * ParStatExample: a component whose L-mean velocity is not its mean
    velocity. *)
From Coq Require Import Reals Lra Lia List Bool Arith ZArith String Ascii.
From Verif Require Import Num NumLemmas Arr PyStr Cube Base Moments Parametric Spec SpecLemmas Repr ParSpec ParRepr MomSpec LMom ParMoments
  ParMomSpec ParMomOther Build ParExample ParMomExample ParMomMeans ParMomClaims ParStat Props_ParMoments.
Import ListNotations.
Local Open Scope R_scope.

Definition pv_x : vset := VSet false false true false.
Lemma exmod_x : par_prob exg exmod false pv_x (Bin 0 0 0 0 0) = 5 / 12.
Proof. unfold par_prob, marg, over, pprob, pjoint, txz_mass. cbn [has_t has_v has_x has_z pv_x pgrid]. ev. lra. Qed.

(** mean -2 at the first pixel, velocities of the cube between -1 and 1 *)
Lemma v_l_mean_refuted : exists L self g m i a b r r', par_on L self g m /\ good_grid g /\ good_par g m /\ in_grid g i /\
  0 < par_prob g m false pv_x i /\
  get_mean (par_obj L (Fin 1) self) "v_x" false = Ok a /\ ent a (coords pv_x i) = Fin r /\
  get_l_mean (par_obj L (Fin 1) self) "v_x" false = Ok b /\ ent b (coords pv_x i) = Fin r' /\ r' <> r.
Proof.
  set (i := Bin 0 0 0 0 0). assert (Hi : in_grid exg i) by (repeat split; cbn; lia).
  destruct (par_mean_claim exL exmp exg exmod false exmp_on exg_good exmod_good (exmod_lw false) (Fin 1) pv_x eq_refl) as (a & Ea & _ & Ha).
  destruct (par_v_l_mean exL exmp exg exmod (Fin 1) false exmp_on exg_good exmod_good pv_x eq_refl ltac:(discriminate) ltac:(discriminate))
    as (b & Eb & _ & Hb).
  assert (HM : mixture_mean exg exmod false pv_x i = -2).
  { unfold mixture_mean, over_rest, weight.
    assert (Hx : par_prob exg exmod false pv_x i = 5 / 12) by exact exmod_x. rewrite Hx. unfold sum_over, sum_if, par_prob, marg, over, pprob, pjoint, txz_mass.
    cbn [has_t has_v has_x has_z pv_x rest union negb orb andb pgrid]. ev. lra. }
  assert (Hp : 0 < par_prob exg exmod false pv_x i) by (unfold i; rewrite exmod_x; lra).
  destruct (Hb i Hi ltac:(discriminate) Hp) as (r' & Er & _ & [Hlo _]); [reflexivity|].
  exists exL, exmp, exg, exmod, i, a, b, (-2), r'. split; [exact exmp_on|]. split; [exact exg_good|]. split; [exact exmod_good|].
  split; [exact Hi|]. split; [exact Hp|]. split; [exact Ea|].
  split; [rewrite <- HM; apply (proj1 (Ha i Hi)); [exact Hp|discriminate]|]. split; [exact Eb|]. split; [exact Er|].
  intros ->. unfold Rmin, mid in Hlo. cbn [vE exg INR] in Hlo. destruct (Rle_dec 0 _); lra.
Qed.
