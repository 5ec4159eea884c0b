(** * NoiseLemmas: proofs of claims C66-C68. *)
From Coq Require Import Reals Lra Lia List Bool Arith ZArith.
From Verif Require Import Num NumLemmas Arr ArrLemmas Noise.
Import ListNotations.
Local Open Scope R_scope.

(** the real number of a finite datacube at a pixel *)
Definition is_data (y : arr num) (f : list nat -> R) : Prop := forall idx, inb idx (shp y) -> ent y idx = Fin (f idx).

Lemma all_ent_true {A} (p : A -> bool) (a : arr A) : all_ent p a = true <-> forall idx, inb idx (shp a) -> p (ent a idx) = true.
Proof.
  unfold all_ent. rewrite forallb_forall. split; intros H idx Hi; apply H, in_all_idx; exact Hi.
Qed.

Lemma bop_same {A B C} (op : A -> B -> C) (a : arr A) (b : arr B) : shp a = shp b ->
  exists r, bop op a b = Ok r /\ shp r = shp a /\
    forall idx, inb idx (shp a) -> ent r idx = op (ent a idx) (ent b idx).
Proof.
  intros E. destruct (bop_is op a b (shp a) (ent a) (shp a) (ent b) (shp a)) as (r & Er & Hr).
  - split; [reflexivity|auto].
  - split; [symmetry; exact E|auto].
  - apply bshape_same.
  - exists r. split; [exact Er|]. split; [apply (proj1 Hr)|]. intros idx Hi. rewrite (proj2 Hr idx Hi).
    rewrite !bidx_self by assumption. reflexivity.
Qed.

(** ** the noise drawn *)
Lemma rvs_negative mu sigma z idx s : inb idx (shp sigma) -> ent sigma idx = Fin s -> s < 0 ->
  norm_rvs mu sigma z = Err ValueError.
Proof.
  intros Hi Es Hs. unfold norm_rvs. destruct (all_ent _ sigma) eqn:E; [|reflexivity].
  exfalso. rewrite all_ent_true in E. specialize (E idx Hi). rewrite Es in E.
  unfold nle in E. cbn [nlt neqb] in E. apply orb_true_iff in E as [E|E].
  - apply Rltb_true in E. lra.
  - unfold Reqb in E. destruct (Req_EM_T 0 s); [lra|discriminate].
Qed.

Lemma rvs_ok sigma z f : (forall idx, inb idx (shp sigma) -> ent sigma idx = Fin (f idx) /\ 0 <= f idx) ->
  exists e, norm_rvs (full (shp sigma) (Fin 0)) sigma z = Ok e /\ shp e = shp sigma /\
    forall idx, inb idx (shp sigma) -> ent e idx = Fin (z idx * f idx).
Proof.
  intros H. unfold norm_rvs.
  assert (E : all_ent (fun s => nle (Fin 0) s) sigma = true).
  { apply all_ent_true. intros idx Hi. destruct (H idx Hi) as [-> Hp]. unfold nle. cbn [nlt neqb].
    apply orb_true_iff. destruct (Rle_lt_or_eq_dec _ _ Hp) as [L|L]; [left; apply Rltb_true; exact L|].
    right. unfold Reqb. destruct (Req_EM_T 0 (f idx)); [reflexivity|contradiction]. }
  rewrite E. cbn [negb].
  destruct (all_ent (fun s => neqb s (Fin 0)) sigma) eqn:E0.
  - destruct (bop_same (fun m _ => m) (full (shp sigma) (Fin 0)) sigma eq_refl) as (r & Er & Hs & Hr).
    exists r. split; [exact Er|]. split; [exact Hs|]. intros idx Hi. rewrite Hr by exact Hi. cbn.
    rewrite all_ent_true in E0. specialize (E0 idx Hi). destruct (H idx Hi) as [Ef _]. rewrite Ef in E0.
    cbn [neqb] in E0. unfold Reqb in E0. destruct (Req_EM_T (f idx) 0) as [e|e]; [|discriminate]. rewrite e. f_equal. ring.
  - destruct (bop_same (fun (_ s : num) => s) (full (shp sigma) (Fin 0)) sigma eq_refl) as (r & Er & Hs & Hr).
    rewrite Er. cbn [bind].
    destruct (bop_same nadd (Arr (shp r) (fun idx => nmul (Fin (z idx)) (ent r idx))) (full (shp sigma) (Fin 0)) Hs)
      as (e & Ee & Hse & He).
    exists e. split; [exact Ee|]. cbn in Hse, Hs. split; [congruence|]. intros idx Hi.
    rewrite He by (cbn; rewrite Hs; exact Hi). cbn [ent full]. rewrite Hr by exact Hi.
    destruct (H idx Hi) as [-> _]. cbv [nmul nadd]. f_equal. ring.
Qed.

(** ** C66 *)
Lemma constant_claim y f snr : is_data y f -> 0 < snr ->
  exists sigma, constant_snr_sigma (Some y) (Fin snr) = Ok sigma /\ shp sigma = shp y /\
    forall idx, inb idx (shp y) -> ent sigma idx = Fin (f idx / snr) /\
      (0 < f idx -> ndiv (ent y idx) (ent sigma idx) = Fin snr).
Proof.
  intros Hy Hs. eexists; split; [reflexivity|]. cbn [amap shp ent]. split; [reflexivity|]. intros idx Hi.
  rewrite (Hy idx Hi). assert (E : ndiv (Fin (f idx)) (Fin snr) = Fin (f idx / snr)).
  { unfold ndiv. destruct (Req_EM_T snr 0); [lra|reflexivity]. }
  rewrite E. split; [reflexivity|]. intros Hp. unfold ndiv.
  assert (0 < f idx / snr) by (apply Rdiv_lt_0_compat; assumption).
  destruct (Req_EM_T (f idx / snr) 0); [lra|]. f_equal. field. lra.
Qed.

Lemma constant_negative_claim y f snr z : is_data y f -> 0 < snr -> (exists idx, inb idx (shp y) /\ f idx < 0) ->
  noise_sample constant_snr_sigma (Some y) (Fin snr) z = Err ValueError.
Proof.
  intros Hy Hs (idx & Hi & Hn). destruct (constant_claim y f snr Hy Hs) as (sigma & E & Hsh & Hsig).
  unfold noise_sample. rewrite E. cbn [bind attr].
  apply (rvs_negative _ _ _ idx (f idx / snr)); [rewrite Hsh; exact Hi|apply Hsig; exact Hi|].
  apply Rmult_lt_reg_r with snr; [exact Hs|]. unfold Rdiv. rewrite Rmult_assoc, Rinv_l by lra. lra.
Qed.

Lemma constant_sample_claim y f snr z : is_data y f -> 0 < snr -> (forall idx, inb idx (shp y) -> 0 <= f idx) ->
  exists e, noise_sample constant_snr_sigma (Some y) (Fin snr) z = Ok e /\ shp e = shp y /\
    forall idx, inb idx (shp y) -> ent e idx = Fin (z idx * (f idx / snr)).
Proof.
  intros Hy Hs Hp. destruct (constant_claim y f snr Hy Hs) as (sigma & E & Hsh & Hsig).
  unfold noise_sample. rewrite E. cbn [bind attr]. rewrite <- Hsh.
  apply rvs_ok. intros idx Hi. rewrite Hsh in Hi. split; [apply Hsig; exact Hi|].
  apply Rmult_le_pos; [apply Hp; exact Hi|]. left; apply Rinv_0_lt_compat, Hs.
Qed.

(** ** C67 *)
Lemma fold_nmax l m : (exists k, In k l \/ k = m) ->
  exists M, fold_left nmax (map Fin l) (Fin m) = Fin M /\ (In M l \/ M = m) /\ m <= M /\ forall k, In k l -> k <= M.
Proof.
  intros _. revert m. induction l as [|a l IH]; intros m; cbn [map fold_left].
  - exists m. repeat split; auto; [lra|intros k []].
  - cbn [nmax nlt]. destruct (Rltb m a) eqn:E.
    + apply Rltb_true in E. destruct (IH a) as (M & EM & HM & Hge & Hall).
      exists M. split; [exact EM|]. split; [destruct HM as [|HM]; [left; right; assumption|left; left; auto]|].
      split; [lra|]. intros k [<-|Hk]; auto.
    + apply Rltb_false in E. destruct (IH m) as (M & EM & HM & Hge & Hall).
      exists M. split; [exact EM|]. split; [destruct HM as [|HM]; [left; right; assumption|right; auto]|].
      split; [lra|]. intros k [<-|Hk]; auto. lra.
Qed.

(** the brightest pixel *)
Definition brightest (y : arr num) (f : list nat -> R) (M : R) : Prop :=
  (exists idx, inb idx (shp y) /\ f idx = M) /\ forall idx, inb idx (shp y) -> f idx <= M.

Lemma amax_data y f M : is_data y f -> brightest y f M -> np_amax y = Ok (Fin M).
Proof.
  intros Hy [(i0 & Hi0 & Hf0) HM]. unfold np_amax.
  assert (E : map (ent y) (all_idx (shp y)) = map Fin (map f (all_idx (shp y)))).
  { rewrite map_map. apply map_ext_in. intros idx Hi. apply Hy, in_all_idx, Hi. }
  rewrite E. pose proof (proj2 (in_all_idx (shp y) i0) Hi0) as Hin.
  destruct (all_idx (shp y)) as [|i l] eqn:El; [destruct Hin|]. cbn [map]. unfold amax.
  destruct (fold_nmax (map f l) (f i)) as (K & EK & HK & Hge & Hall); [exists (f i); auto|]. rewrite EK.
  do 2 f_equal. apply Rle_antisym.
  - destruct HK as [HK|HK].
    + apply in_map_iff in HK as (j & <- & Hj). apply HM, in_all_idx. rewrite El. right; exact Hj.
    + rewrite HK. apply HM, in_all_idx. rewrite El. left; reflexivity.
  - rewrite <- Hf0. destruct Hin as [<-|Hin]; [exact Hge|]. apply Hall, in_map, Hin.
Qed.

Lemma shot_claim y f snr M : is_data y f -> 0 < snr -> (forall idx, inb idx (shp y) -> 0 <= f idx) ->
  brightest y f M -> 0 < M ->
  exists sigma, shot_noise_sigma (Some y) (Fin snr) = Ok sigma /\ shp sigma = shp y /\
    forall idx, inb idx (shp y) ->
      ent sigma idx = Fin (sqrt M / snr * sqrt (f idx)) /\
      (f idx = M -> ndiv (ent y idx) (ent sigma idx) = Fin snr) /\
      (0 < f idx -> exists r, ndiv (ent y idx) (ent sigma idx) = Fin r /\ r <= snr).
Proof.
  intros Hy Hs Hp HM HMp. unfold shot_noise_sigma. cbn [bind attr]. rewrite (amax_data y f M Hy HM). cbn [bind].
  eexists; split; [reflexivity|]. cbn [amap shp ent]. split; [reflexivity|]. intros idx Hi.
  rewrite (Hy idx Hi), nsqrt_Fin, nsqrt_Fin by (auto; lra).
  assert (E : nmul (ndiv (Fin (sqrt M)) (Fin snr)) (Fin (sqrt (f idx))) = Fin (sqrt M / snr * sqrt (f idx))).
  { unfold ndiv. destruct (Req_EM_T snr 0); [lra|]. reflexivity. }
  rewrite E. split; [reflexivity|].
  assert (HsM : 0 < sqrt M) by (apply sqrt_lt_R0; exact HMp).
  assert (G : 0 < f idx -> exists r, ndiv (Fin (f idx)) (Fin (sqrt M / snr * sqrt (f idx))) = Fin r /\ r = snr * (sqrt (f idx) / sqrt M)).
  { intros Hf. assert (Hsf : 0 < sqrt (f idx)) by (apply sqrt_lt_R0; exact Hf). unfold ndiv.
    destruct (Req_EM_T (sqrt M / snr * sqrt (f idx)) 0) as [e|e].
    - exfalso. assert (0 < sqrt M / snr * sqrt (f idx)); [|lra].
      apply Rmult_lt_0_compat; [apply Rdiv_lt_0_compat; assumption|assumption].
    - eexists; split; [reflexivity|]. rewrite <- (sqrt_def (f idx)) at 1 by lra. field. repeat split; lra. }
  split.
  - intros Ef. destruct G as (r & Er & Hr); [lra|]. rewrite Er. f_equal. rewrite Hr, Ef. field. lra.
  - intros Hf. destruct (G Hf) as (r & Er & Hr). exists r. split; [exact Er|]. rewrite Hr.
    rewrite <- (Rmult_1_r snr) at 2. apply Rmult_le_compat_l; [lra|].
    apply Rmult_le_reg_r with (sqrt M); [exact HsM|]. unfold Rdiv. rewrite Rmult_assoc, Rinv_l by lra.
    rewrite Rmult_1_r, Rmult_1_l. apply sqrt_le_1; [lra|lra|apply HM, Hi].
Qed.

Lemma shot_sample_claim y f snr M z : is_data y f -> 0 < snr -> (forall idx, inb idx (shp y) -> 0 <= f idx) ->
  brightest y f M -> 0 < M ->
  exists e, noise_sample shot_noise_sigma (Some y) (Fin snr) z = Ok e /\ shp e = shp y /\
    forall idx, inb idx (shp y) -> ent e idx = Fin (z idx * (sqrt M / snr * sqrt (f idx))).
Proof.
  intros Hy Hs Hp HM HMp. destruct (shot_claim y f snr M Hy Hs Hp HM HMp) as (sigma & E & Hsh & Hsig).
  unfold noise_sample. rewrite E. cbn [bind attr]. rewrite <- Hsh.
  apply rvs_ok. intros idx Hi. rewrite Hsh in Hi. split; [apply Hsig; exact Hi|].
  apply Rmult_le_pos; [|apply sqrt_pos]. apply Rmult_le_pos; [apply sqrt_pos|]. left; apply Rinv_0_lt_compat, Hs.
Qed.
Lemma shot_negative_claim y f snr M z : is_data y f -> 0 < snr -> brightest y f M -> 0 < M ->
  (exists idx, inb idx (shp y) /\ f idx < 0) ->
  noise_sample shot_noise_sigma (Some y) (Fin snr) z = Err ValueError.
Proof.
  intros Hy Hs HM HMp (idx & Hi & Hn). unfold noise_sample, shot_noise_sigma. cbn [bind attr].
  rewrite (amax_data y f M Hy HM). cbn [bind]. unfold norm_rvs.
  destruct (all_ent _ (amap _ y)) eqn:E; [|reflexivity]. exfalso. rewrite all_ent_true in E.
  specialize (E idx Hi). cbn [amap ent] in E. rewrite (Hy idx Hi) in E.
  assert (En : nsqrt (Fin (f idx)) = NaN) by (unfold nsqrt; destruct (Rle_dec 0 (f idx)); [lra|reflexivity]).
  rewrite En in E. destruct (ndiv (nsqrt (Fin M)) (Fin snr)); discriminate E.
Qed.

(** ** C68 *)
Lemma noisy_claim get_sigma y snr z e : noise_sample get_sigma (Some y) snr z = Ok e -> shp e = shp y ->
  exists d, get_noisy_data get_sigma (Some y) snr z = Ok d /\ shp d = shp y /\
    forall idx, inb idx (shp y) -> ent d idx = nadd (ent y idx) (ent e idx).
Proof.
  intros E Hs. unfold get_noisy_data. cbn [bind attr]. rewrite E. cbn [bind]. apply bop_same. symmetry; exact Hs.
Qed.
Lemma noisy_constant_claim y f snr z : is_data y f -> 0 < snr -> (forall idx, inb idx (shp y) -> 0 <= f idx) ->
  exists d, get_noisy_data constant_snr_sigma (Some y) (Fin snr) z = Ok d /\ shp d = shp y /\
    forall idx, inb idx (shp y) -> ent d idx = Fin (f idx + z idx * (f idx / snr)).
Proof.
  intros Hy Hs Hp. destruct (constant_sample_claim y f snr z Hy Hs Hp) as (e & E & Hse & He).
  destruct (noisy_claim _ _ _ _ _ E Hse) as (d & Ed & Hsd & Hd). exists d. split; [exact Ed|]. split; [exact Hsd|].
  intros idx Hi. rewrite Hd, He, (Hy idx Hi) by exact Hi. reflexivity.
Qed.
Lemma noisy_shot_claim y f snr M z : is_data y f -> 0 < snr -> (forall idx, inb idx (shp y) -> 0 <= f idx) ->
  brightest y f M -> 0 < M ->
  exists d, get_noisy_data shot_noise_sigma (Some y) (Fin snr) z = Ok d /\ shp d = shp y /\
    forall idx, inb idx (shp y) -> ent d idx = Fin (f idx + z idx * (sqrt M / snr * sqrt (f idx))).
Proof.
  intros Hy Hs Hp HM HMp. destruct (shot_sample_claim y f snr M z Hy Hs Hp HM HMp) as (e & E & Hse & He).
  destruct (noisy_claim _ _ _ _ _ E Hse) as (d & Ed & Hsd & Hd). exists d. split; [exact Ed|]. split; [exact Hsd|].
  intros idx Hi. rewrite Hd, He, (Hy idx Hi) by exact Hi. reflexivity.
Qed.
