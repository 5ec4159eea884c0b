(** * MixStatExample: cases for the statistics of mixtures. *)
From Coq Require Import Reals Lra Lia List Bool Arith ZArith String Ascii.
From Verif Require Import Num NumLemmas Arr PyStr Cube Base Moments Spec SpecLemmas Repr MomSpec LMom NormalL NormalLSpec Build
  Mixture MixSpec MixLemmas MixGen MixExample MixStat MixStatSpec MixStatClaims MomRefuted.
Import ListNotations.
Local Open Scope R_scope.

Lemma empty_stat_claim : exists self g comps l, mix_on self g comps l /\ good_grid g /\
  (forall k, (k < List.length l)%nat -> lw_ok g (pf l k) false) /\
  exists i a s, in_grid g i /\ 0 < marg g (prob g (mixf l) false) (VSet true false true false) i /\
    mix_dispersion self "v_tx" false = Ok s /\ ent s (coords (VSet true false true false) i) = NaN /\
    get_l_mean (mix_obj self) "v_tx" false = Ok a /\ ent a (coords (VSet true false true false) i) = Fin 0 /\
    Mean g (prob g (mixf l) false) Cv (VSet true false true false) i = 0.
Proof.
  exists exm, exg, [exc; exc1], expts. split; [exact exm_on|]. split; [exact exg_good|]. split; [apply exm_members|].
  exists (Bin 1 0 1 0 0). assert (Hi : in_grid exg (Bin 1 0 1 0 0)) by (unfold in_grid; cbn; lia).
  destruct (mixb_variance exm exg _ expts false extx exm_on exg_good (exm_members _) ltac:(discriminate) Cv eq_refl) as (v & s & Ev & Es & _ & _ & Hv).
  destruct (mixb_l_moments exm exg _ expts false extx exm_on exg_good (exm_members _) ltac:(discriminate) Cv eq_refl eq_refl) as (a & b & c & Ea & _ & _ & _ & _ & _ & Ha).
  assert (Hp : 0 < marg exg (prob exg (mixf expts) false) extx (Bin 1 0 1 0 0)) by (unfold extx; mix_num; ex_num).
  assert (M0 : Mean exg (prob exg (mixf expts) false) Cv extx (Bin 1 0 1 0 0) = 0) by (unfold extx; mix_num; mom_num; field).
  exists a, s. split; [exact Hi|]. split; [exact Hp|]. split; [exact Es|]. split; [|split; [exact Ea|split; [|exact M0]]].
  - apply (Hv _ Hi). exists 0%nat. split; [cbn; lia|]. unfold extx. mix_num. ex_num.
  - destruct (Ha _ Hi) as [K _]. destruct (K Hp) as (M1 & M2 & M3 & _ & _ & _ & A & B & _). rewrite M0 in B. rewrite B in A. exact A.
Qed.
