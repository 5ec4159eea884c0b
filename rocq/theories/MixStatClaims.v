(** * MixStatClaims: derived statistics of mixtures of base components, and of
    mixtures with parametric members. *)
From Coq Require Import Reals Lra Lia List Bool Arith ZArith String Ascii.
From Verif Require Import Num NumLemmas Arr ArrLemmas PyStr Cube Base Spec SpecLemmas Repr CondLemmas DistLemmas StringClaims
  Moments MomArr MomSpec MomLemmas MomLemmas4 MomLemmas5 MomLemmas6 LMom MomClaims StatGen ParSpec Parametric ParRepr ParMoments ParMomSpec ParMomOther
  Mixture MixSpec MixGen MixLemmas MixCond MixMom MixExample MixParSpec MixParLemmas MixParClaims NormalL NormalLSpec NormalLClaims MixStat MixStatLemmas.
Import ListNotations.
Local Open Scope R_scope.

Lemma pair_nonempty a b : nonempty (union (cvar a) (cvar b)) = true.
Proof. destruct a, b; reflexivity. Qed.
Lemma cvar_no_v k : k <> Cv -> has_v (cvar k) = false.
Proof. intros Hk. destruct k; try reflexivity. contradiction Hk; reflexivity. Qed.

Section Base.
Context (self : mixture) (g : grid) (comps : list component) (l : parts) (lw : bool) (C : vset).
Context (H : mix_on self g comps l) (Hg : good_grid g).
Context (Hm : forall q, (q < List.length l)%nat -> lw_ok g (pf l q) lw).
Context (HT : nonempty C = false -> lw = false ->
     sumR (map snd l) = 1 /\ forall q, (q < List.length l)%nat -> total g (mass g (pf l q)) = 1).
Let P := prob g (mixf l) lw.
Let Q i := forall q, (q < List.length l)%nat -> 0 < marg g (prob g (pf l q) lw) C i.
Let N i := exists q, (q < List.length l)%nat /\ marg g (prob g (pf l q) lw) C i = 0.
Let HG := mix_on_gen self g comps l H Hg.
Let Hc : cube_on (mx_cube self) g := mo_cube _ _ _ _ H.
Let Hl : lw_ok g (mixf l) lw := mix_lw_ok self g comps l H Hg lw Hm.

Lemma base_nonneg : nonneg g P.
Proof. apply (prob_nonneg g (mixf l) lw Hg); [|exact Hl]. exact (mixf_nonneg self g _ HG true). Qed.
Lemma base_pos i : in_grid g i -> Q i -> 0 < marg g P C i.
Proof.
  intros Hi Hq. apply (prob_pos self g (fun _ => l) HG Hg true lw C i Hm Hi). pose proof (n_pos self g _ HG) as Hn. cbn in Hn.
  exists 0%nat. split; [exact Hn|]. apply Hq. exact Hn.
Qed.
Lemma base_mean_right k : disjoint (cvar k) C = true -> mean_right self g P lw C Q N k.
Proof. intros HD. exact (mix_mean_claim self g comps l lw k C H Hg Hm HD HT). Qed.
Lemma base_central_right k : disjoint (cvar k) C = true -> central_right self g P lw C Q N k.
Proof. intros HD j. exact (MixExample.central_claim self g comps l lw k C j H Hg Hm HD HT). Qed.
Lemma base_mix_gives A : nonempty A = true -> disjoint A C = true -> gives (mix_obj self) g P lw A C.
Proof.
  intros HA HD. apply (mix_gives self g (fun _ => l) lw A C HG Hg HA HD eq_refl Hl).
  intros EC. exact (proj2 (normalised_mass self g comps l lw C H Hg Hm HT EC)).
Qed.

Definition mixb_variance k (HD : disjoint (cvar k) C = true) :=
  mixs_variance self g P lw C Hg base_nonneg Q N base_pos k HD (base_central_right k HD).
Definition mixb_shape k (HD : disjoint (cvar k) C = true) f2m1 :=
  mixs_shape self g P lw C base_nonneg Q N base_pos k HD (base_central_right k HD) f2m1.
Definition mixb_covariance a b (Hab : before a b = true) (HD : disjoint (union (cvar a) (cvar b)) C = true) :=
  mixs_covariance self g P lw C Hc Hg Q N base_pos a b Hab HD (base_mean_right a (HDa a b C HD)) (base_mean_right b (HDb a b C HD))
    (base_mix_gives _ (pair_nonempty a b) HD).
Definition mixb_correlation a b (Hab : before a b = true) (HD : disjoint (union (cvar a) (cvar b)) C = true) :=
  mixs_correlation self g P lw C Hc Hg base_nonneg Q N base_pos a b Hab HD (base_mean_right a (HDa a b C HD)) (base_mean_right b (HDb a b C HD))
    (base_mix_gives _ (pair_nonempty a b) HD) (base_central_right a (HDa a b C HD)) (base_central_right b (HDb a b C HD)).
Definition mixb_l_moments k (HD : disjoint (cvar k) C = true) (Hx : is_x k = false) :=
  mixs_l_moments self g P lw C Hc Hg base_nonneg k HD Hx (base_mix_gives _ (cvar_nonempty k) HD).
Definition mixb_excess k (HD : disjoint (cvar k) C = true) (Hx : is_x k = false) qn j :=
  excess_ok (mix_obj self) g P lw Hc Hg base_nonneg k C Hx HD (base_mix_gives _ (cvar_nonempty k) HD) qn j.
End Base.

Section Mixed.
Context (self : mixture) (g : grid) (l : kinds) (lw : bool) (C : vset).
Context (H : mixed_on self g l) (Hg : good_grid g).
Context (Hm : forall q, (q < List.length l)%nat -> lit_ok g (kmass g (kk l q) (has_v C)) lw).
Context (Hlv : lw = true -> has_v C = false) (HN : nonempty C = false -> lw = false -> k_normal g l).
Let P := weighted g lw (kmix g l (has_v C)).
Let P' := prob g (mixf (kl g l (has_v C))) lw.
Let Q := all_there g l lw C.
Let N := some_missing g l lw C.
Let HG := mixed_gen self g l H Hg.
Let Hc : cube_on (mx_cube self) g := mp_cube _ _ _ H.
Let EP : joint_eq g P' P := prob_mix g Hg l (has_v C) lw.
Let Hl : lw_ok g (mixf (kl g l (has_v C))) lw := lights_lw_ok self g (kl g l) HG (has_v C) lw (mixed_lights g l Hg lw C Hm).

Lemma mixed_nonneg : nonneg g P.
Proof.
  intros t v x y z Ht Hv Hx Hy Hz. rewrite <- EP by assumption.
  apply (prob_nonneg g _ lw Hg (mixf_nonneg self g _ HG (has_v C)) Hl); assumption.
Qed.
Lemma mixed_pos i : in_grid g i -> Q i -> 0 < marg g P C i.
Proof. intros Hi Hq. exact (P_pos self g l H Hg lw C Hm i Hi Hq). Qed.
Definition holes_ok (k : coord) : Prop := forall q m, (q < List.length l)%nat -> kk l q = KPar m -> no_holes g m lw (cvar k) C.
Lemma mixed_mean_right k : disjoint (cvar k) C = true -> k <> Cv -> holes_ok k -> mean_right self g P lw C Q N k.
Proof. intros HD Hk Hh. exact (mixed_mean_claim self g l H Hg lw k C Hm HD Hlv HN Hk Hh). Qed.
Lemma mixed_central_right k : disjoint (cvar k) C = true -> k <> Cv -> holes_ok k -> central_right self g P lw C Q N k.
Proof. intros HD Hk Hh j. exact (mixed_central_claim self g l H Hg lw k C Hm HD Hlv HN Hk Hh j). Qed.
Lemma mixed_mix_gives A : nonempty A = true -> disjoint A C = true -> has_v A = false -> gives (mix_obj self) g P lw A C.
Proof.
  intros HA HD HV. apply (gives_ext _ g P' P lw A C EP). apply (mix_gives self g (kl g l) lw A C HG Hg HA HD); [|exact Hl|].
  - f_equal. cbn [has_v union]. rewrite HV. reflexivity.
  - intros EC. fold P'. rewrite (total_ext g _ _ EP). destruct (mixed_normal self g l H Hg lw C Hm HN EC) as (_ & K & _). exact K.
Qed.
Lemma pair_no_v a b : a <> Cv -> b <> Cv -> has_v (union (cvar a) (cvar b)) = false.
Proof. intros Ha Hb. destruct a, b; try reflexivity; contradiction Ha + contradiction Hb; reflexivity. Qed.

Definition mixp_variance k (HD : disjoint (cvar k) C = true) (Hk : k <> Cv) (Hh : holes_ok k) :=
  mixs_variance self g P lw C Hg mixed_nonneg Q N mixed_pos k HD (mixed_central_right k HD Hk Hh).
Definition mixp_shape k (HD : disjoint (cvar k) C = true) (Hk : k <> Cv) (Hh : holes_ok k) f2m1 :=
  mixs_shape self g P lw C mixed_nonneg Q N mixed_pos k HD (mixed_central_right k HD Hk Hh) f2m1.
Definition mixp_covariance a b (Hab : before a b = true) (HD : disjoint (union (cvar a) (cvar b)) C = true) (Ka : a <> Cv) (Kb : b <> Cv)
  (Ha : holes_ok a) (Hb : holes_ok b) :=
  mixs_covariance self g P lw C Hc Hg Q N mixed_pos a b Hab HD (mixed_mean_right a (HDa a b C HD) Ka Ha) (mixed_mean_right b (HDb a b C HD) Kb Hb)
    (mixed_mix_gives _ (pair_nonempty a b) HD (pair_no_v a b Ka Kb)).
Definition mixp_correlation a b (Hab : before a b = true) (HD : disjoint (union (cvar a) (cvar b)) C = true) (Ka : a <> Cv) (Kb : b <> Cv)
  (Ha : holes_ok a) (Hb : holes_ok b) :=
  mixs_correlation self g P lw C Hc Hg mixed_nonneg Q N mixed_pos a b Hab HD (mixed_mean_right a (HDa a b C HD) Ka Ha) (mixed_mean_right b (HDb a b C HD) Kb Hb)
    (mixed_mix_gives _ (pair_nonempty a b) HD (pair_no_v a b Ka Kb)) (mixed_central_right a (HDa a b C HD) Ka Ha) (mixed_central_right b (HDb a b C HD) Kb Hb).
Definition mixp_l_moments k (HD : disjoint (cvar k) C = true) (Hk : k <> Cv) (Hx : is_x k = false) :=
  mixs_l_moments self g P lw C Hc Hg mixed_nonneg k HD Hx (mixed_mix_gives _ (cvar_nonempty k) HD (cvar_no_v k Hk)).
End Mixed.
