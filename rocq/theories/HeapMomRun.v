(** * HeapMomRun: histories of moment queries, in which the caller may also edit
    the arrays that were returned. *)
From Coq Require Import Reals String List Bool Arith ZArith.
From Verif Require Import Num Arr PyStr Cube Base Moments NormalL Mixture MixStat Heap HeapRun HeapMom HeapMix HeapMixMom.
Import ListNotations.

(** a query: get_p, get_mean, get_noncentral_moment about an array which the caller
    makes, get_central_moment, get_dispersion, get_normalised_central_moment,
    get_excess_central_moment, get_covariance, get_correlation, get_l_moment,
    get_normalised_l_moment, get_excess_l_moment.  The other methods (get_variance,
    get_skewness, ...) are these with a fixed order. *)
Inductive mom_question :=
| QP (w : string) (density lw : bool)
| QMean (w : string) (lw : bool)
| QNoncentral (w : string) (j : nat) (mu : arr num) (lw : bool)
| QCentral (w : string) (j : nat) (lw : bool)
| QDispersion (w : string) (lw : bool)
| QNormalised (w : string) (j : nat) (lw : bool)
| QExcess (w : string) (j : nat) (lw : bool)
| QCovariance (w : string) (lw : bool)
| QCorrelation (w : string) (lw : bool)
| QL (w : string) (j : nat) (lw : bool)
| QNormalisedL (w : string) (j : nat) (lw : bool)
| QExcessL (w : string) (j : nat) (lw : bool).

Section answers.
(* factorial2(-1) and scipy's normal quantile function *)
Context (f2m1 : num) (ppf : R -> R).

Definition obj_answer (o : hobj) (q : mom_question) : prog nda :=
  match q with
  | QP w density lw => hb_get_p o w density lw
  | QMean w lw => h_get_mean o w lw
  | QNoncentral w j mu lw => m <~ alloc mu ;; h_noncentral o w j m lw
  | QCentral w j lw => h_central o w j lw
  | QDispersion w lw => h_dispersion o w lw
  | QNormalised w j lw => h_normalised o w j lw
  | QExcess w j lw => h_excess f2m1 o w j lw
  | QCovariance w lw => h_covariance o w lw
  | QCorrelation w lw => h_correlation o w lw
  | QL w j lw => h_l_moment o w j lw
  | QNormalisedL w j lw => h_normalised_l o w j lw
  | QExcessL w j lw => h_excess_l ppf o w j lw
  end.
Definition obj_value (o : obj) (q : mom_question) : res (arr num) :=
  match q with
  | QP w density lw => o_get_p o w density lw
  | QMean w lw => get_mean o w lw
  | QNoncentral w j mu lw => get_noncentral_moment o w j mu lw
  | QCentral w j lw => get_central_moment o w j lw
  | QDispersion w lw => get_dispersion o w lw
  | QNormalised w j lw => get_normalised_central_moment o w j lw
  | QExcess w j lw => get_excess_central_moment f2m1 o w j lw
  | QCovariance w lw => get_covariance o w lw
  | QCorrelation w lw => get_correlation o w lw
  | QL w j lw => get_l_moment o w j lw
  | QNormalisedL w j lw => get_normalised_l_moment o w j lw
  | QExcessL w j lw => get_excess_l_moment ppf o w j lw
  end.

(** a mixture: its own get_mean and get_central_moment *)
Definition mixm_answer (ps : hparts) (ls : lists) (m : hmix) (g : hgrid) (q : mom_question) : prog nda :=
  match q with
  | QMean w lw => h_mix_mean ps ls m w lw
  | QCentral w j lw => h_mix_central ps ls m w j lw
  | QDispersion w lw => h_mix_dispersion ps ls m w lw
  | QNormalised w j lw => h_mix_normalised ps ls m w j lw
  | QExcess w j lw => h_mix_excess ps ls m f2m1 w j lw
  | QCorrelation w lw => h_mix_correlation ps ls m g w lw
  | _ => obj_answer (h_mix_own ps ls m g) q
  end.
Definition mixm_value (self : mixture) (q : mom_question) : res (arr num) :=
  match q with
  | QP w density lw => mix_get_p self w true density lw
  | QMean w lw => mix_mean self w lw
  | QNoncentral w j mu lw => get_noncentral_moment (mix_obj self) w j mu lw
  | QCentral w j lw => mix_central_moment self w j lw
  | QDispersion w lw => mix_dispersion self w lw
  | QNormalised w j lw => mix_normalised self w j lw
  | QExcess w j lw => mix_excess f2m1 self w j lw
  | QCovariance w lw => mix_covariance self w lw
  | QCorrelation w lw => mix_correlation self w lw
  | QL w j lw => get_l_moment (mix_obj self) w j lw
  | QNormalisedL w j lw => get_normalised_l_moment (mix_obj self) w j lw
  | QExcessL w j lw => get_excess_l_moment ppf (mix_obj self) w j lw
  end.
End answers.

(** an event: a query, or the caller overwriting the entries of the [k]-th array
    returned so far *)
Inductive mom_event := QAsk (q : mom_question) | QEdit (k : nat) (v : arr num).
Fixpoint qrun (answer : mom_question -> prog nda) (es : list mom_event) (h : heap) (held : list nda)
  : heap * list (res (arr num)) :=
  match es with
  | [] => (h, [])
  | QAsk q :: es' =>
      let hx := answer q h in
      let held' := match snd hx with Ok r => (held ++ [r])%list | Err _ => held end in
      let rest := qrun answer es' (fst hx) held' in
      (fst rest, seen hx :: snd rest)
  | QEdit k v :: es' =>
      qrun answer es' (match nth_error held k with Some r => store h r v | None => h end) held
  end.
Fixpoint qasked (es : list mom_event) : list mom_question :=
  match es with
  | [] => []
  | QAsk q :: es' => q :: qasked es'
  | QEdit _ _ :: es' => qasked es'
  end.

(** the queries whose answer shares memory with a parametric component *)
Definition shares (q : mom_question) : Prop :=
  match q with QMean w _ => w = "v_tx"%string \/ w = "v_txz"%string | _ => False end.

(** the cube after its array v_edg has been overwritten *)
Definition with_v_edg (c : cube) (v : arr num) : cube :=
  Cube (c_ssps c) (c_nx c) (c_ny c) (c_x1rng c) (c_x2rng c) (c_dx c) (c_dy c) (c_x c) (c_y c) (c_xx c) (c_yy c) (c_nv c) v.
