(** * HeapHist: proofs of claims C12, C68 (datacube unchanged) and C75. *)
From Coq Require Import Reals Lra String Ascii List Bool Arith ZArith Lia.
From Verif Require Import Num NumLemmas Arr ArrLemmas PyStr Cube Base Parametric Noise NoiseLemmas
  Heap HeapLemmas HeapClaims HeapPar HeapParClaims HeapNoise HeapRun.
Import ListNotations.
Local Open Scope nat_scope.

(** ** histories *)
Section hist.
Variables (answer : question -> prog nda) (val : question -> res (arr num)) (h0 : heap).
Hypothesis HA : forall h q, keeps (length h0) h0 h -> good h (answer q) (val q).

Lemma seen_good h q : good h (answer q) (val q) -> ressame (seen (answer q h)) (val q).
Proof.
  unfold good, sp, seen. destruct (answer q h) as [h' [r|e]], (val q) as [v|e']; cbn; intros [_ H]; try contradiction; auto.
  apply H.
Qed.
Lemma run_claim es : forall h held,
  keeps (length h0) h0 h -> (forall r, In r held -> length h0 <= na_addr r) ->
  keeps (length h0) h0 (fst (run answer es h held)) /\
  Forall2 (fun q o => ressame o (val q)) (asked es) (snd (run answer es h held)).
Proof.
  induction es as [|[q|k v] es IH]; intros h held K Hh; cbn [run asked fst snd].
  - split; [exact K|constructor].
  - pose proof (HA h q K) as G. pose proof (seen_good h q G) as S. unfold good, sp in G.
    destruct (answer q h) as [h' x] eqn:E. cbn [fst snd] in *. destruct G as [K1 G].
    assert (L : length h0 <= length h) by apply K.
    assert (K' : keeps (length h0) h0 h') by (eapply keeps_trans; [exact K|eapply keeps_weak; [exact L|exact K1]]).
    assert (Hh' : forall r, In r (match x with Ok r => (held ++ [r])%list | Err _ => held end) -> length h0 <= na_addr r).
    { destruct x as [r|e]; [|exact Hh]. intros r' Hr. apply in_app_iff in Hr as [Hr|[<-|[]]]; [auto|].
      destruct (val q); [|contradiction]. destruct G as [G _]. lia. }
    destruct (IH h' _ K' Hh') as [I1 I2]. split; [exact I1|]. constructor; assumption.
  - apply IH; [|exact Hh]. destruct (nth_error held k) as [r|] eqn:E; [|exact K].
    eapply keeps_trans; [exact K|]. apply store_keeps. apply Hh. eapply nth_error_In; exact E.
Qed.
Lemma history_claim es :
  (forall a, a < length h0 -> nth_error (fst (run answer es h0 [])) a = nth_error h0 a) /\
  Forall2 (fun q o => ressame o (seen (answer q h0))) (asked es) (snd (run answer es h0 [])).
Proof.
  destruct (run_claim es h0 []) as [[_ H1] H2]; [apply keeps_refl|intros r []|].
  split; [exact H1|]. revert H2. generalize (snd (run answer es h0 [])). generalize (asked es).
  intros qs os H. induction H as [|q o qs os Ho H IH]; constructor; [|exact IH].
  eapply ressame_trans; [exact Ho|]. apply ressame_sym, seen_good, HA, keeps_refl.
Qed.
End hist.

Definition base_answer (s : hcomp) (q : question) : prog nda :=
  (if q_log q then h_get_log_p else h_get_p) s (q_dist q) (q_density q) (q_light q).
Definition base_value (self : component) (q : question) : res (arr num) :=
  (if q_log q then get_log_p else get_p) self (q_dist q) (q_density q) (q_light q).
Definition par_answer (L : stats_lib) (s : hpar) (q : question) : prog nda :=
  (if q_log q then h_par_get_log_p else h_par_get_p) L s (q_dist q) (q_density q) (q_light q).
Definition par_value (L : stats_lib) (self : par) (q : question) : res (arr num) :=
  (if q_log q then par_get_log_p else par_get_p) L self (q_dist q) (q_density q) (q_light q).

Lemma base_answer_good h0 s self : comp_in h0 s self ->
  forall h q, keeps (length h0) h0 h -> good h (base_answer s q) (base_value self q).
Proof.
  intros H h [l w d lw] K. apply (comp_keeps _ _ _ _ K) in H. unfold base_answer, base_value; cbn.
  destruct l; [apply base_log_good|apply base_good]; exact H.
Qed.
Lemma par_answer_good L h0 s self : par_in h0 s self ->
  forall h q, keeps (length h0) h0 h -> good h (par_answer L s q) (par_value L self q).
Proof.
  intros H h [l w d lw] K. apply (par_keeps _ _ _ _ K) in H. unfold par_answer, par_value; cbn.
  destruct l; [apply par_log_good|apply par_good]; exact H.
Qed.

(** spelled out *)
Definition fresh_answer (h : heap) (m : prog nda) (p : res (arr num)) : Prop :=
  (forall a, a < length h -> nth_error (fst (m h)) a = nth_error h a) /\
  match snd (m h), p with
  | Ok r, Ok v => length h <= na_addr r < length (fst (m h)) /\ same (value (fst (m h)) r) v
  | Err e, Err e' => e = e'
  | _, _ => False
  end.
Lemma good_fresh h m p : good h m p -> fresh_answer h m p.
Proof.
  unfold good, sp, fresh_answer. destruct (m h) as [h' x]. cbn. intros [[_ K] H]. split; [exact K|].
  destruct x, p; auto. destruct H as (H1 & _ & H2). auto.
Qed.
Lemma base_query_claim h s self q : comp_in h s self -> fresh_answer h (base_answer s q) (base_value self q).
Proof. intros H. apply good_fresh. eapply base_answer_good; [exact H|apply keeps_refl]. Qed.
Lemma par_query_claim L h s self q : par_in h s self -> fresh_answer h (par_answer L s q) (par_value L self q).
Proof. intros H. apply good_fresh. eapply par_answer_good; [exact H|apply keeps_refl]. Qed.
Lemma base_history_claim h s self es : comp_in h s self ->
  (forall a, a < length h -> nth_error (fst (run (base_answer s) es h [])) a = nth_error h a) /\
  Forall2 (fun q o => ressame o (seen (base_answer s q h))) (asked es) (snd (run (base_answer s) es h [])).
Proof. intros H. apply (history_claim _ (base_value self)). apply base_answer_good; exact H. Qed.
Lemma par_history_claim L h s self es : par_in h s self ->
  (forall a, a < length h -> nth_error (fst (run (par_answer L s) es h [])) a = nth_error h a) /\
  Forall2 (fun q o => ressame o (seen (par_answer L s q h))) (asked es) (snd (run (par_answer L s) es h [])).
Proof. intros H. apply (history_claim _ (par_value L self)). apply par_answer_good; exact H. Qed.

(** ** noise *)
Lemma same_amax a b : same a b -> np_amax a = np_amax b.
Proof.
  intros [H1 H2]. unfold np_amax. rewrite <- H1.
  rewrite (map_ext_in (ent a) (ent b)); [reflexivity|]. intros i Hi. apply H2, in_all_idx; exact Hi.
Qed.
Lemma same_all_ent {A} (f : A -> bool) a b : same a b -> all_ent f a = all_ent f b.
Proof.
  intros [H1 H2]. unfold all_ent. rewrite <- H1.
  assert (E : forall l, (forall i, In i l -> inb i (shp a)) -> forallb (fun i => f (ent a i)) l = forallb (fun i => f (ent b i)) l).
  { induction l as [|i l IH]; intros H; cbn; [reflexivity|].
    rewrite H2 by (apply H; left; reflexivity). rewrite IH; [reflexivity|]. intros j Hj; apply H; right; exact Hj. }
  apply E. intros i Hi. apply in_all_idx; exact Hi.
Qed.
Lemma same_rvs mu mu' sg sg' z : same mu mu' -> same sg sg' -> ressame (norm_rvs mu sg z) (norm_rvs mu' sg' z).
Proof.
  intros Hm Hs. unfold norm_rvs. rewrite !(same_all_ent _ _ _ Hs).
  destruct (negb _); [reflexivity|]. destruct (all_ent _ sg'); [apply same_bop; assumption|].
  pose proof (same_bop (fun _ s : num => s) _ _ _ _ Hm Hs) as H.
  destruct (bop (fun _ s : num => s) mu sg) as [a|], (bop (fun _ s : num => s) mu' sg') as [b|]; cbn in *; try contradiction; [|exact H].
  apply same_bop; [|exact Hm]. destruct H as [H1 H2]. split; [exact H1|]. cbn. intros; rewrite H2; auto.
Qed.
(** [attr] of Noise *)
Lemma st_attrN {A B} n h (f : nda -> prog A) (R : heap -> A -> B -> Prop) o o' (g : arr num -> res B) :
  oref h o o' -> (forall r' v', ref 0 h r' v' -> o = Some r' -> sp n h (f r') (g v') R) ->
  sp n h (bnd (lift (Noise.attr o)) f) (bind (Noise.attr o') g) R.
Proof.
  intros H1 H2. destruct o as [r|], o' as [v|]; cbn in H1; try contradiction.
  - exact (H2 r v H1 eq_refl).
  - split; [apply keeps_refl|reflexivity].
Qed.
Definition sigma_ok (hs : option nda -> num -> prog nda) (fs : option (arr num) -> num -> res (arr num)) : Prop :=
  forall h o o' snr, oref h o o' -> good h (hs o snr) (fs o' snr).
Lemma constant_ok : sigma_ok h_constant_sigma constant_snr_sigma.
Proof.
  intros h o o' snr H. unfold h_constant_sigma, constant_snr_sigma, good. eapply st_attrN; [exact H|].
  intros r v Hr _. apply la_good; [lia|]. eapply good_map; exact Hr.
Qed.
Lemma shot_ok : sigma_ok h_shot_sigma shot_noise_sigma.
Proof.
  intros h o o' snr H. unfold h_shot_sigma, shot_noise_sigma, good. eapply st_attrN; [exact H|].
  intros r v Hr _.
  eapply (sp_bind _ (length h) _ _ _ (fun h' a b => h' = h /\ a = b)); [lia| |].
  { unfold sp. rewrite (same_amax (value h r) v) by apply Hr. split; [apply keeps_refl|]. destruct (np_amax v); auto. }
  intros h' mx mx' _ [-> ->]. cbv zeta.
  eapply st_ok; [lia|eapply good_map; exact Hr|]. intros h1 q N K Hq.
  apply la_good; [exact N|]. exact (good_map _ _ _ _ Hq (fun a => nmul (ndiv (nsqrt mx') snr) a)).
Qed.
Lemma noisy_good hs fs h o o' snr z : sigma_ok hs fs -> oref h o o' ->
  good h (h_get_noisy_data hs o snr z) (get_noisy_data fs o' snr z).
Proof.
  intros HS H. unfold h_get_noisy_data, get_noisy_data, good. eapply st_attrN; [exact H|]. intros y vy Hy _.
  eapply st_good; [lia| |].
  - unfold h_sample, noise_sample, good. eapply st_good; [lia|apply HS; exact H|]. intros h1 sg vsg N K Hsg.
    eapply st_attrN; [eapply oref_keeps; [exact K|exact H]|]. intros y1 vy1 Hy1 _.
    assert (E : na_shp y1 = shp vy1) by apply Hy1. rewrite E.
    eapply st_ok; [lia|apply good_alloc|]. intros h2 mu N2 K2 Hmu.
    apply la_good; [lia|]. apply good_new. apply same_rvs; [apply Hmu|].
    apply (ref_keeps _ _ _ _ _ K2) in Hsg. apply Hsg.
  - intros h1 e ve N K He. apply la_good; [exact N|]. eapply good_bop; [eapply ref_keeps; [exact K|exact Hy]|exact He].
Qed.
Lemma noisy_constant_heap h o o' snr z : oref h o o' ->
  fresh_answer h (h_get_noisy_data h_constant_sigma o snr z) (get_noisy_data constant_snr_sigma o' snr z).
Proof. intros H. apply good_fresh, noisy_good; [exact constant_ok|exact H]. Qed.
Lemma noisy_shot_heap h o o' snr z : oref h o o' ->
  fresh_answer h (h_get_noisy_data h_shot_sigma o snr z) (get_noisy_data shot_noise_sigma o' snr z).
Proof. intros H. apply good_fresh, noisy_good; [exact shot_ok|exact H]. Qed.
