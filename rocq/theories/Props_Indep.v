(** C99: independent variables. *)
From Coq Require Import Reals Lra Lia List Bool Arith ZArith String Ascii.
From Verif Require Import Num NumLemmas Arr PyStr Cube Base Moments Parametric Spec SpecLemmas Repr MomSpec MomLemmas Build MomClaims SameSpec
  CondSame LightGiven IndepSpec Indep IndepClaims ParSpec ParRepr ParSetSpec ParMoments ParMomSpec ParExample ParMomExample
  Mixture MixSpec MixLemmas MixGen MixExample MixStat MomRefuted IndepMix.
Import ListNotations.
Local Open Scope R_scope.

(** ** Where independence comes from *)
(** a density which is a product *)
Theorem C99_products : forall g f A C u w, factored g f A C u w -> disjoint A C = true ->
  forall B, disjoint A B = true -> indep g (mass g f) A B C.
Proof. exact factored_indep. Qed.
Print Assumptions C99_products.
(** light weighting keeps it, if the light depends on one of the two sets only *)
Theorem C99_light : forall g P, good_grid g -> nonneg g P ->
  forall A B C, disjoint A B = true -> disjoint B C = true -> indep g P A B C ->
  light_by g (union B C) -> indep g (light g P) A B C.
Proof. exact indep_light1. Qed.
Print Assumptions C99_light.
(** members of a mixture which share the factor with A *)
Theorem C99_mixture_products : forall g l A C u ws, l <> [] -> List.length ws = List.length l ->
  (forall q w, nth_error ws q = Some w -> factored g (pf l q) A C u w) ->
  factored g (mixf l) A C u (fun j => sumR (map (fun p => snd p * fst p j) (combine ws (map snd l)))).
Proof. exact mix_factored. Qed.
Print Assumptions C99_mixture_products.

(** ** Base components *)
(** given C, also giving B does not change the distribution of A *)
Theorem C99_distributions : forall self g f lw, comp_on self g f -> good_grid g -> nonneg g f -> lw_ok g f lw ->
  let P := prob g f lw in
  forall A B C, nonempty B = true -> disjoint A B = true -> disjoint A C = true ->
  (nonempty C = false -> total g P = 1) ->
  forall density, nonempty A = true -> indep g P A B C ->
  alike g (get_p self (dname A C) density lw) (get_p self (cname A (union B C)) density lw)
    (fun i => coords A i ++ coords C i)%list (fun i => coords A i ++ coords (union B C) i)%list (fun i => 0 < marg g P (union B C) i).
Proof. exact indep_p. Qed.
Print Assumptions C99_distributions.
(** and if it does not, they are independent *)
Theorem C99_test : forall self g f lw, comp_on self g f -> good_grid g -> nonneg g f -> lw_ok g f lw ->
  let P := prob g f lw in
  forall A B C, nonempty B = true -> disjoint A B = true -> disjoint A C = true ->
  (nonempty C = false -> total g P = 1) -> nonempty A = true ->
  alike g (get_p self (dname A C) false lw) (get_p self (cname A (union B C)) false lw)
    (fun i => coords A i ++ coords C i)%list (fun i => coords A i ++ coords (union B C) i)%list (fun i => 0 < marg g P (union B C) i) ->
  indep g P A B C.
Proof. exact p_indep. Qed.
Print Assumptions C99_test.
Theorem C99_statistics : forall self g f lw, comp_on self g f -> good_grid g -> nonneg g f -> lw_ok g f lw ->
  let P := prob g f lw in
  forall B C, nonempty B = true -> (nonempty C = false -> total g P = 1) ->
  forall k, disjoint (cvar k) B = true -> disjoint (cvar k) C = true -> indep g P (cvar k) B C ->
  statistics_alike (base_obj self) g k C (union B C) lw lw (fun i => 0 < marg g P (union B C) i).
Proof. exact indep_statistics. Qed.
Print Assumptions C99_statistics.
Theorem C99_covariances : forall self g f lw, comp_on self g f -> good_grid g -> nonneg g f -> lw_ok g f lw ->
  let P := prob g f lw in
  forall B C, nonempty B = true -> (nonempty C = false -> total g P = 1) ->
  forall a b, before a b = true -> let A := union (cvar a) (cvar b) in
  disjoint A B = true -> disjoint A C = true -> indep g P A B C ->
  covariances_alike (base_obj self) g a b C (union B C) lw lw (fun i => 0 < marg g P (union B C) i).
Proof. exact indep_covariances. Qed.
Print Assumptions C99_covariances.
(** independent coordinates have covariance and correlation 0 *)
Theorem C99_uncorrelated : forall self g f lw, comp_on self g f -> good_grid g -> nonneg g f -> lw_ok g f lw ->
  let P := prob g f lw in let o := base_obj self in
  forall a b C, before a b = true -> let A := union (cvar a) (cvar b) in disjoint A C = true ->
  (nonempty C = false -> total g P = 1) -> indep g P (cvar a) (cvar b) C ->
  exists c r, get_covariance o (dname A C) lw = Ok c /\ get_correlation o (dname A C) lw = Ok r /\
    forall i, in_grid g i -> 0 < marg g P C i ->
      ent c (mcoords (xkey a b) C i) = Fin 0 /\
      (0 < Variance g P a C i -> 0 < Variance g P b C i -> ent r (mcoords (xkey a b) C i) = Fin 0) /\
      (Variance g P a C i = 0 \/ Variance g P b C i = 0 -> ent r (mcoords (xkey a b) C i) = NaN).
Proof. exact indep_cov_arrays. Qed.
Print Assumptions C99_uncorrelated.
(** what is independent of the light does not notice the weighting *)
Theorem C99_light_free : forall self g f, comp_on self g f -> good_grid g -> nonneg g f -> lw_ok g f true ->
  let P := mass g f in
  forall B C, disjoint B C = true -> light_by g (union B C) -> (nonempty C = false -> total g P = 1) ->
  forall A density, nonempty A = true -> disjoint A B = true -> disjoint A C = true -> indep g P A B C ->
  alike g (get_p self (dname A C) density true) (get_p self (dname A C) density false)
    (fun i => coords A i ++ coords C i)%list (fun i => coords A i ++ coords C i)%list (fun i => 0 < marg g (light g P) C i).
Proof. exact free_p. Qed.
Print Assumptions C99_light_free.
Theorem C99_light_free_statistics : forall self g f, comp_on self g f -> good_grid g -> nonneg g f -> lw_ok g f true ->
  let P := mass g f in
  forall B C, disjoint B C = true -> light_by g (union B C) -> (nonempty C = false -> total g P = 1) ->
  forall k, disjoint (cvar k) B = true -> disjoint (cvar k) C = true -> indep g P (cvar k) B C ->
  statistics_alike (base_obj self) g k C C true false (fun i => 0 < marg g (light g P) C i).
Proof. exact free_statistics. Qed.
Print Assumptions C99_light_free_statistics.

(** ** Parametric components: velocities at an age and position do not depend on
    the metallicity *)
Theorem C99_parametric : forall L self g m, par_on L self g m -> good_grid g -> good_par g m -> forall density,
  alike g (par_get_p L self "v_tx" density false) (par_get_p L self "v_txz" density false)
    (fun i => [bv i; bt i; bx i; by_ i]) (fun i => [bv i; bt i; bx i; by_ i; bz i])
    (fun i => 0 < par_prob g m false (VSet true false true true) i).
Proof. exact par_v_given. Qed.
Print Assumptions C99_parametric.

(** ** Mixtures of base components *)
Theorem C99_mixture_distributions : forall self g comps l lw B C, mix_on self g comps l -> good_grid g ->
  (forall q, (q < List.length l)%nat -> lw_ok g (pf l q) lw) -> nonempty B = true ->
  (nonempty C = false -> lw = false -> sumR (map snd l) = 1 /\ forall q, (q < List.length l)%nat -> total g (mass g (pf l q)) = 1) ->
  let P := prob g (mixf l) lw in
  forall A density, nonempty A = true -> disjoint A B = true -> disjoint A C = true -> indep g P A B C ->
  alike g (mix_get_p self (dname A C) true density lw) (mix_get_p self (cname A (union B C)) true density lw)
    (fun i => coords A i ++ coords C i)%list (fun i => coords A i ++ coords (union B C) i)%list (fun i => 0 < marg g P (union B C) i).
Proof. exact mix_indep_p. Qed.
Print Assumptions C99_mixture_distributions.
Theorem C99_mixture_statistics : forall self g comps l lw B C, mix_on self g comps l -> good_grid g ->
  (forall q, (q < List.length l)%nat -> lw_ok g (pf l q) lw) -> nonempty B = true ->
  (nonempty C = false -> lw = false -> sumR (map snd l) = 1 /\ forall q, (q < List.length l)%nat -> total g (mass g (pf l q)) = 1) ->
  let P := prob g (mixf l) lw in
  let Q i := forall q, (q < List.length l)%nat -> 0 < marg g (prob g (pf l q) lw) (union B C) i in
  forall k, disjoint (cvar k) B = true -> disjoint (cvar k) C = true -> indep g P (cvar k) B C ->
  let w := dname (cvar k) C in let w' := dname (cvar k) (union B C) in let m := mcoords k C in let m' := mcoords k (union B C) in
  alike g (mix_mean self w lw) (mix_mean self w' lw) m m' Q /\
  (forall j, alike g (mix_central_moment self w j lw) (mix_central_moment self w' j lw) m m' Q) /\
  alike g (mix_variance self w lw) (mix_variance self w' lw) m m' Q /\
  alike g (mix_dispersion self w lw) (mix_dispersion self w' lw) m m' Q /\
  (is_x k = false -> forall j, alike g (get_l_moment (mix_obj self) w (S j) lw) (get_l_moment (mix_obj self) w' (S j) lw) (coords C) (coords (union B C))
     (fun i => 0 < marg g P (union B C) i)).
Proof. exact mix_indep_statistics. Qed.
Print Assumptions C99_mixture_statistics.
Theorem C99_mixture_uncorrelated : forall self g comps l lw C, mix_on self g comps l -> good_grid g ->
  (forall q, (q < List.length l)%nat -> lw_ok g (pf l q) lw) ->
  (nonempty C = false -> lw = false -> sumR (map snd l) = 1 /\ forall q, (q < List.length l)%nat -> total g (mass g (pf l q)) = 1) ->
  let P := prob g (mixf l) lw in
  forall a b, before a b = true -> let A := union (cvar a) (cvar b) in disjoint A C = true -> indep g P (cvar a) (cvar b) C ->
  exists c r, mix_covariance self (dname A C) lw = Ok c /\ mix_correlation self (dname A C) lw = Ok r /\
    forall i, in_grid g i -> (forall q, (q < List.length l)%nat -> 0 < marg g (prob g (pf l q) lw) C i) ->
      ent c (mcoords (xkey a b) C i) = Fin 0 /\
      (0 < Variance g P a C i -> 0 < Variance g P b C i -> ent r (mcoords (xkey a b) C i) = Fin 0).
Proof. exact mix_indep_covariance. Qed.
Print Assumptions C99_mixture_uncorrelated.
(** independence in every member is not enough *)
Theorem C99_mixture_refuted : exists self g comps l i c v, mix_on self g comps l /\ good_grid g /\ in_grid g i /\
  (forall q, (q < List.length l)%nat -> indep g (mass g (pf l q)) (cvar Ct) (cvar Cv) (VSet false false true false) /\
     0 < marg g (mass g (pf l q)) (VSet false false true false) i) /\
  mix_covariance self "tv_x" false = Ok c /\ ent c [bx i; by_ i] = Fin v /\ v <> 0.
Proof. exact mixture_refuted. Qed.
Print Assumptions C99_mixture_refuted.

(** ** Cases *)
Local Notation vt := (VSet true false false false).
Local Notation vv := (VSet false true false false).
Local Notation vx := (VSet false false true false).
Local Notation vxz := (VSet false false true true).
(** exf: at the younger age velocities are v + 1, at the older age the second
    pixel is empty *)
Definition spin : bin -> R := fun i => if Nat.eqb (bt i) 1 then 1 else INR (bv i) + 1.
Definition spot : bin -> R := fun i => if Nat.eqb (bt i) 1 then (if Nat.eqb (bx i) 1 then 0 else 1) else 1.
Lemma spin_of : function_of (union vv vt) spin.
Proof. intros [a b c d e] [a' b' c' d' e'] K. cbn [coords union has_t has_v has_x has_z orb opt app bt bv bx by_ bz] in K. unfold spin. cbn [bt bv]. injection K as -> ->. reflexivity. Qed.
Lemma spot_of : function_of (others vv) spot.
Proof. intros [a b c d e] [a' b' c' d' e'] K. cbn [coords others has_t has_v has_x has_z negb opt app bt bv bx by_ bz] in K. unfold spot. cbn [bt bx]. injection K as -> -> _ _. reflexivity. Qed.
Lemma exf_factored : factored exg exf vv vt spin spot.
Proof.
  split; [exact spin_of|]. split; [exact spot_of|]. intros t v x y z _. unfold exf, spin, spot. cbn [bt bv bx].
  destruct (Nat.eqb t 1); ring.
Qed.
Example C99_products_case : indep exg (mass exg exf) vv vxz vt /\ indep exg (light exg (mass exg exf)) vv vxz vt.
Proof.
  assert (I : indep exg (mass exg exf) vv vxz vt) by exact (C99_products _ _ _ _ _ _ exf_factored eq_refl vxz eq_refl).
  split; [exact I|]. apply (C99_light exg _ exg_good (mass_nonneg exg exf exg_good exf_nonneg) vv vxz vt eq_refl eq_refl I).
  exact (light_by_tz exg (union vxz vt) eq_refl eq_refl).
Qed.
Lemma c99_in : in_grid exg (Bin 0 0 1 0 0). Proof. repeat split; cbn; lia. Qed.
(** p(v|t) = p(v|t,x,z) = 1/3, mass- and light-weighted *)
Example C99_distributions_case : exists a b c, get_p exc "v_t" false false = Ok a /\ get_p exc "v_txz" false false = Ok b /\ get_p exc "v_t" false true = Ok c /\
  ent a [0; 0]%nat = Fin (1 / 3) /\ ent b [0; 0; 1; 0; 0]%nat = Fin (1 / 3) /\ ent c [0; 0]%nat = Fin (1 / 3).
Proof.
  destruct C99_products_case as [I _].
  destruct (C99_distributions exc exg exf false exc_on exg_good exf_nonneg (ex_lw_ok _) vv vxz vt eq_refl eq_refl eq_refl ltac:(discriminate) false eq_refl I) as (a & b & Ea & Eb & He).
  destruct (C99_light_free exc exg exf exc_on exg_good exf_nonneg (ex_lw_ok _) vxz vt eq_refl (light_by_tz exg (union vxz vt) eq_refl eq_refl) ltac:(discriminate)
    vv false eq_refl eq_refl eq_refl I) as (c & a' & Ec & Ea' & Hc).
  assert (a' = a) by (apply (f_equal (fun r => match r with Ok x => x | _ => a end)) in Ea, Ea'; cbn in Ea, Ea'; congruence). subst a'.
  destruct (DistLemmas.get_p_cond exc exg exf exc_on exg_good exf_nonneg vv vt false false eq_refl eq_refl eq_refl (ex_lw_ok _)) as (a' & Ea'' & _ & Ha).
  assert (a' = a) by (apply (f_equal (fun r => match r with Ok x => x | _ => a end)) in Ea, Ea''; cbn in Ea, Ea''; congruence). subst a'.
  assert (V : ent a [0; 0]%nat = Fin (1 / 3)).
  { etransitivity; [apply (proj1 (Ha _ c99_in)); ex_num|]. f_equal. ex_num. }
  exists a, b, c. split; [exact Ea|]. split; [exact Eb|]. split; [exact Ec|]. split; [exact V|]. split.
  - rewrite <- V. symmetry. apply (He _ c99_in). ex_num.
  - rewrite <- V. apply (Hc _ c99_in). ex_num.
Qed.
(** ages do depend on the pixel *)
Example C99_test_case :
  ~ alike exg (get_p exc "t_v" false false) (get_p exc "t_vx" false false)
    (fun i => [bt i; bv i]) (fun i => [bt i; bv i; bx i; by_ i]) (fun i => 0 < marg exg (mass exg exf) (union vx vv) i).
Proof.
  intros K. pose proof (C99_test exc exg exf false exc_on exg_good exf_nonneg (ex_lw_ok _) vt vx vv eq_refl eq_refl eq_refl ltac:(discriminate) eq_refl K) as I.
  specialize (I (Bin 1 0 1 0 0) ltac:(repeat split; cbn; lia)). revert I. ex_num.
Qed.
Example C99_statistics_case : statistics_alike (base_obj exc) exg Cv vt (union vxz vt) true true (fun i => 0 < marg exg (light exg (mass exg exf)) (union vxz vt) i) /\
  statistics_alike (base_obj exc) exg Cv vt vt true false (fun i => 0 < marg exg (light exg (mass exg exf)) vt i) /\
  in_grid exg (Bin 0 0 1 0 0) /\ 0 < marg exg (light exg (mass exg exf)) (union vxz vt) (Bin 0 0 1 0 0).
Proof.
  destruct C99_products_case as [I J]. split; [|split; [|split; [exact c99_in|ex_num]]].
  - exact (C99_statistics exc exg exf true exc_on exg_good exf_nonneg (ex_lw_ok _) vxz vt eq_refl ltac:(discriminate) Cv eq_refl eq_refl J).
  - exact (C99_light_free_statistics exc exg exf exc_on exg_good exf_nonneg (ex_lw_ok _) vxz vt eq_refl (light_by_tz exg (union vxz vt) eq_refl eq_refl) ltac:(discriminate)
      Cv eq_refl eq_refl I).
Qed.
Lemma vx_indep : indep exg (mass exg exf) (cvar Cv) (cvar Cx1) vt.
Proof. exact (C99_products _ _ _ _ _ _ exf_factored eq_refl vx eq_refl). Qed.
Example C99_uncorrelated_case : exists c r, get_covariance (base_obj exc) "vx_t" false = Ok c /\ get_correlation (base_obj exc) "vx_t" false = Ok r /\
  ent c [0; 0]%nat = Fin 0 /\ ent r [0; 0]%nat = Fin 0 /\ ent r [0; 1]%nat = NaN.
Proof.
  destruct (C99_uncorrelated exc exg exf false exc_on exg_good exf_nonneg (ex_lw_ok _) Cv Cx1 vt eq_refl eq_refl ltac:(discriminate) vx_indep) as (c & r & Ec & Er & He).
  exists c, r. split; [exact Ec|]. split; [exact Er|].
  destruct (He _ c99_in ltac:(ex_num)) as (H1 & H2 & _). split; [exact H1|]. split; [apply H2; mom_num|].
  destruct (He (Bin 1 0 0 0 0) ltac:(repeat split; cbn; lia) ltac:(ex_num)) as (_ & _ & H3). apply H3. right. mom_num.
Qed.
Example C99_covariances_case : covariances_alike (base_obj exc) exg Cv Cx1 vt (union (VSet false false false true) vt) false false
  (fun i => 0 < marg exg (mass exg exf) (union (VSet false false false true) vt) i) /\
  0 < marg exg (mass exg exf) (union (VSet false false false true) vt) (Bin 0 0 1 0 0).
Proof.
  split; [|ex_num].
  assert (I : indep exg (mass exg exf) (union (cvar Cv) (cvar Cx1)) (VSet false false false true) vt).
  { apply (C99_products exg exf _ vt (fun i => exf (bt i) (bv i) (bx i) (by_ i) (bz i)) (fun _ => 1)); [|reflexivity|reflexivity].
    split; [|split; [intros i j _; reflexivity|intros; cbn [bt bv bx by_ bz]; ring]].
    intros [a b c d e] [a' b' c' d' e'] K. cbn [coords union cvar has_t has_v has_x has_z orb opt app bt bv bx by_ bz] in *. injection K as -> -> -> ->. reflexivity. }
  exact (C99_covariances exc exg exf false exc_on exg_good exf_nonneg (ex_lw_ok _) (VSet false false false true) vt eq_refl ltac:(discriminate) Cv Cx1 eq_refl eq_refl eq_refl I).
Qed.
Example C99_parametric_case : exists a b, par_get_p exL exmp "v_tx" true false = Ok a /\ par_get_p exL exmp "v_txz" true false = Ok b /\
  ent a [1; 0; 0; 0]%nat = ent b [1; 0; 0; 0; 0]%nat.
Proof.
  destruct (C99_parametric exL exmp exg exmod exmp_on exg_good exmod_good true) as (a & b & Ea & Eb & He).
  exists a, b. split; [exact Ea|]. split; [exact Eb|]. apply (He (Bin 0 1 0 0 0)); [repeat split; cbn; lia|].
  unfold par_prob, pprob, pjoint, marg. cbn [has_v pgrid]. unfold txz_mass, exmod. ex_num.
Qed.
(** the mixture of exf and a constant *)
Definition mspin : bin -> R := fun i => if Nat.eqb (bt i) 1 then 1 else (INR (bv i) + 1) / 4 + 3 / 4.
Definition mspot : bin -> R := fun i => if Nat.eqb (bt i) 1 then (if Nat.eqb (bx i) 1 then 3 / 4 else 1) else 1.
Lemma expts_factored : factored exg (mixf expts) vv vt mspin mspot.
Proof.
  split; [|split].
  - intros [a b c d e] [a' b' c' d' e'] K. cbn [coords union has_t has_v has_x has_z orb opt app bt bv bx by_ bz] in K. unfold mspin. cbn [bt bv]. injection K as -> ->. reflexivity.
  - intros [a b c d e] [a' b' c' d' e'] K. cbn [coords others has_t has_v has_x has_z negb opt app bt bv bx by_ bz] in K. unfold mspot. cbn [bt bx]. injection K as -> -> _ _. reflexivity.
  - intros t v x y z _. unfold mixf, expts, exf, exf1, mspin, mspot. cbn [map fst snd]. unfold sumR. cbn [fold_right bt bv bx].
    destruct (Nat.eqb t 1); [destruct (Nat.eqb x 1)|]; lra.
Qed.
Lemma expts_indep B : disjoint vv B = true -> indep exg (mass exg (mixf expts)) vv B vt.
Proof. exact (C99_products _ _ _ _ _ _ expts_factored eq_refl B). Qed.
Example C99_mixture_case : exists a b c d e, mix_get_p exm "v_t" true false false = Ok a /\ mix_get_p exm "v_tx" true false false = Ok b /\
  ent a [0; 0]%nat = ent b [0; 0; 1; 0]%nat /\
  mix_mean exm "v_t" false = Ok c /\ mix_mean exm "v_tx" false = Ok d /\ ent c [0]%nat = ent d [0; 1; 0]%nat /\
  mix_covariance exm "vx_t" false = Ok e /\ ent e [0; 0]%nat = Fin 0.
Proof.
  destruct (C99_mixture_distributions exm exg _ expts false vx vt exm_on exg_good (exm_members _) eq_refl ltac:(discriminate) vv false eq_refl eq_refl eq_refl (expts_indep vx eq_refl))
    as (a & b & Ea & Eb & He).
  destruct (C99_mixture_statistics exm exg _ expts false vx vt exm_on exg_good (exm_members _) eq_refl ltac:(discriminate) Cv eq_refl eq_refl (expts_indep vx eq_refl))
    as ((c & d & Ec & Ed & Hm) & _).
  destruct (C99_mixture_uncorrelated exm exg _ expts false vt exm_on exg_good (exm_members _) ltac:(discriminate) Cv Cx1 eq_refl eq_refl (expts_indep vx eq_refl))
    as (e & r & Ee & _ & Hr).
  exists a, b, c, d, e. split; [exact Ea|]. split; [exact Eb|]. split; [apply (He _ c99_in); mix_num; ex_num|].
  split; [exact Ec|]. split; [exact Ed|]. split; [apply (Hm _ c99_in); intros q Hq; destruct q as [|[|q]]; [| |cbn in Hq; lia]; mix_num; ex_num|].
  split; [exact Ee|]. apply (Hr _ c99_in). intros q Hq; destruct q as [|[|q]]; [| |cbn in Hq; lia]; mix_num; ex_num.
Qed.
(** two members in which velocities at each age are the same *)
Example C99_mixture_products_case : let l : parts := [(exf, 1 / 4); ((fun t v x y z => spin (Bin t v x y z)), 3 / 4)] in
  indep exg (mass exg (mixf l)) vv vxz vt.
Proof.
  intros l.
  assert (F : factored exg (mixf l) vv vt spin (fun j => sumR (map (fun p => snd p * fst p j) (combine [spot; fun _ => 1] (map snd l))))).
  { apply C99_mixture_products; [discriminate|reflexivity|]. intros [|[|q]] w Hw; cbn in Hw; [| |destruct q; discriminate Hw]; injection Hw as <-.
    - exact exf_factored.
    - split; [exact spin_of|]. split; [intros i j _; reflexivity|]. intros t v x y z _. cbn. ring. }
  exact (C99_products _ _ _ _ _ _ F eq_refl vxz eq_refl).
Qed.
