(** * IndepClaims: covariances of independent coordinates, light weighting, and
    the velocities of parametric components. *)
From Coq Require Import Reals Lra Lia List Bool Arith ZArith String Ascii.
From Verif Require Import Num NumLemmas Arr PyStr Cube Base Spec SpecLemmas Repr DistLemmas
  Moments MomSpec MomLemmas MomLemmas2 MomLemmas3 MomLemmas4 MomLemmas5 MomLemmas6 Stat LMom MomClaims SameSpec CondSame LightGiven IndepSpec Indep
  Parametric ParSpec ParRepr ParSetSpec ParLemmas ParClaims.
Import ListNotations.
Local Open Scope R_scope.

Lemma indep_cov_arrays self g f lw : comp_on self g f -> good_grid g -> nonneg g f -> lw_ok g f lw ->
  let P := prob g f lw in let o := base_obj self in
  forall a b C, before a b = true -> let A := union (cvar a) (cvar b) in disjoint A C = true ->
  (nonempty C = false -> total g P = 1) -> indep g P (cvar a) (cvar b) C ->
  exists c r, get_covariance o (dname A C) lw = Ok c /\ get_correlation o (dname A C) lw = Ok r /\
    forall i, in_grid g i -> 0 < marg g P C i ->
      ent c (mcoords (xkey a b) C i) = Fin 0 /\
      (0 < Variance g P a C i -> 0 < Variance g P b C i -> ent r (mcoords (xkey a b) C i) = Fin 0) /\
      (Variance g P a C i = 0 \/ Variance g P b C i = 0 -> ent r (mcoords (xkey a b) C i) = NaN).
Proof.
  intros H Hg Hf Hl P o a b C Hab A HD HT HI. pose proof (HDa a b C HD) as Da. pose proof (HDb a b C HD) as Db.
  assert (Hc : cube_on (o_cube o) g) by exact (cm_cube _ _ _ H).
  assert (HP : nonneg g P) by exact (prob_nonneg g f lw Hg Hf Hl).
  pose proof (base_gives self g f lw _ C H Hg Hf Hl (cvar_nonempty a) Da HT) as Ga.
  pose proof (base_gives self g f lw _ C H Hg Hf Hl (cvar_nonempty b) Db HT) as Gb.
  pose proof (base_gives self g f lw A C H Hg Hf Hl (union_nonempty _ _ (cvar_nonempty a)) HD HT) as Gab.
  destruct (covariance_ok o g P lw Hc Hg a b C Hab HD Ga Gb Gab eq_refl eq_refl) as (c & Ec & _ & Hce).
  destruct (correlation_ok o g P lw Hc Hg HP a b C Hab HD Ga Gb Gab eq_refl eq_refl eq_refl eq_refl) as (r & Er & _ & Hre).
  exists c, r. split; [exact Ec|]. split; [exact Er|]. intros i Hi Hm.
  pose proof (indep_covar g P HP a b C i Hab HD HI Hi Hm) as Z. split; [|split].
  - rewrite (proj1 (Hce i Hi) Hm), Z. reflexivity.
  - intros V1 V2. rewrite (proj1 (Hre i Hi) Hm V1 V2), Z. f_equal. unfold Rdiv. ring.
  - intros V. apply (proj1 (proj2 (Hre i Hi)) Hm). destruct V as [-> | ->]; ring.
Qed.

(** ** light weighting changes nothing about what is independent of the light *)
Section Free.
Context (self : component) (g : grid) (f : joint).
Context (H : comp_on self g f) (Hg : good_grid g) (Hf : nonneg g f) (Hl : lw_ok g f true).
Context (B C : vset) (HB : nonempty B = true) (D3 : disjoint B C = true) (HL : light_by g (union B C)).
Context (HT : nonempty C = false -> total g (mass g f) = 1).
Let P := mass g f.
Let PL := light g P.
Let o := base_obj self.
Let Hc : cube_on (o_cube o) g := cm_cube _ _ _ H.
Let Hno : lw_ok g f false. Proof. intros X; discriminate X. Qed.
Let HP : nonneg g P := mass_nonneg g f Hg Hf.
Let HPL : nonneg g PL := prob_nonneg g f true Hg Hf Hl.
Let Q (i : bin) := 0 < marg g PL C i.

Lemma free_p A density : nonempty A = true -> disjoint A B = true -> disjoint A C = true -> indep g P A B C ->
  alike g (get_p self (dname A C) density true) (get_p self (dname A C) density false)
    (fun i => coords A i ++ coords C i)%list (fun i => coords A i ++ coords C i)%list Q.
Proof.
  intros HA D1 D2 HI.
  destruct (p_C self g f true H Hg Hf Hl A C D2 (fun _ => total_prob_lw g f Hl) density HA) as (a & Ea & Ha).
  destruct (p_C self g f false H Hg Hf Hno A C D2 HT density HA) as (b & Eb & Hb).
  exists a, b. split; [exact Ea|]. split; [exact Eb|]. intros i Hi Hq.
  destruct (fit_light g P Hg HP A B C D1 D2 D3 HI i HL Hi Hq) as (S1 & S2 & Sj).
  etransitivity; [exact (Ha i Hi S1)|]. etransitivity; [|symmetry; exact (Hb i Hi S2)]. f_equal. f_equal. apply Sj, bins_over_self, Hi.
Qed.
Lemma free_statistics k : disjoint (cvar k) B = true -> disjoint (cvar k) C = true -> indep g P (cvar k) B C ->
  statistics_alike o g k C C true false Q.
Proof.
  intros D1 D2 HI.
  pose proof (base_gives self g f true _ C H Hg Hf Hl (cvar_nonempty k) D2 (fun _ => total_prob_lw g f Hl)) as G1.
  pose proof (base_gives self g f false _ C H Hg Hf Hno (cvar_nonempty k) D2 HT) as G2.
  apply (statistics_ok o g Hc Hg PL P true false C C HPL HP k D2 D2 G1 G2 eq_refl eq_refl eq_refl eq_refl).
  intros i Hi Hq. left. exact (fit_light g P Hg HP (cvar k) B C D1 D2 D3 HI i HL Hi Hq).
Qed.
End Free.

(** ** velocities of parametric components do not depend on the metallicity *)
Section Par.
Context (L : stats_lib) (self : par) (g : grid) (m : par_model).
Context (H : par_on L self g m) (Hg : good_grid g) (Hm : good_par g m).
Local Notation tx := (VSet true false true false).
Local Notation txz := (VSet true false true true).
Lemma par_prob_v S i : has_t S = true -> has_x S = true -> has_v S = false ->
  par_prob g m false (union (VSet false true false false) S) i = par_prob g m false S i * vbin g m (bt i) (bv i) (bx i) (by_ i).
Proof.
  destruct S as [a b c d]. cbn [has_t has_x has_v]. intros -> -> ->. unfold par_prob, pprob, pjoint, marg.
  destruct d; cbn [union has_t has_v has_x has_z orb pgrid over]; [cbn [flat nv Sum]; ring|].
  cbn [flat nv nz Sum]. rewrite Rplus_0_l, Rmult_comm. rewrite <- Sum_scal. apply Sum_ext. intros z _. ring.
Qed.
Lemma par_v_given density :
  alike g (par_get_p L self "v_tx" density false) (par_get_p L self "v_txz" density false)
    (fun i => [bv i; bt i; bx i; by_ i]) (fun i => [bv i; bt i; bx i; by_ i; bz i]) (fun i => 0 < par_prob g m false txz i).
Proof.
  assert (N : par_lw_ok g m false true) by (intros X; discriminate X).
  destruct (par_cond_claim L self g m H Hg Hm (VSet false true false false) tx density false eq_refl eq_refl eq_refl N ltac:(intros X; discriminate X)) as (a & Ea & _ & Ha).
  destruct (par_cond_claim L self g m H Hg Hm (VSet false true false false) txz density false eq_refl eq_refl eq_refl N ltac:(intros X; discriminate X)) as (b & Eb & _ & Hb).
  exists a, b. split; [exact Ea|]. split; [exact Eb|]. intros i Hi Hp.
  assert (Hq : 0 < par_prob g m false tx i).
  { assert (K : par_prob g m false txz i <= par_prob g m false tx i).
    { assert (G : in_grid (flat g) (Bin (bt i) 0 (bx i) (by_ i) (bz i))) by (destruct Hi as (A & B & C & D & E); repeat split; cbn; auto).
      assert (N' : par_lw_ok g m false false) by (intros X; discriminate X).
      exact (marg_mono (flat g) (pprob g m false false) tx txz _ G (pprob_nonneg g m false false Hg Hm N') eq_refl). }
    lra. }
  etransitivity; [exact (proj1 (Ha i Hi) Hq)|]. etransitivity; [|symmetry; exact (proj1 (Hb i Hi) Hp)].
  f_equal. f_equal. rewrite !par_prob_v by reflexivity. field. lra.
Qed.
End Par.
