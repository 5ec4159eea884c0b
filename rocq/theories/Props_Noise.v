(** * Claims C66-C68: noise.  (C68's "leaves ybar unchanged" is in Props_Heap.) *)
From Coq Require Import Reals Lra Lia List Bool Arith ZArith.
From Verif Require Import Num NumLemmas Arr ArrLemmas Noise NoiseLemmas NoiseExample.
Import ListNotations.
Local Open Scope R_scope.

(** ** C66 *)
Theorem C66_constant_snr : forall y f snr, is_data y f -> 0 < snr ->
  exists sigma, constant_snr_sigma (Some y) (Fin snr) = Ok sigma /\ shp sigma = shp y /\
    forall idx, inb idx (shp y) -> ent sigma idx = Fin (f idx / snr) /\
      (0 < f idx -> ndiv (ent y idx) (ent sigma idx) = Fin snr).
Proof. exact constant_claim. Qed.
Print Assumptions C66_constant_snr.
Example C66_constant_snr_case : exists sigma, constant_snr_sigma (Some exy) (Fin 10) = Ok sigma /\
  ent sigma [1]%nat = Fin (4 / 10) /\ ndiv (ent exy [1]%nat) (ent sigma [1]%nat) = Fin 10.
Proof.
  destruct (C66_constant_snr exy exyf 10 exy_data ltac:(lra)) as (s & E & _ & H). exists s.
  destruct (H [1]%nat ex_in1) as [H1 H2]. split; [exact E|]. split; [exact H1|]. apply H2. unfold exyf; cbn; lra.
Qed.
(** a datacube with a negative pixel cannot be sampled *)
Theorem C66_negative_pixel : forall y f snr z, is_data y f -> 0 < snr -> (exists idx, inb idx (shp y) /\ f idx < 0) ->
  noise_sample constant_snr_sigma (Some y) (Fin snr) z = Err ValueError.
Proof. exact constant_negative_claim. Qed.
Print Assumptions C66_negative_pixel.
Example C66_negative_pixel_case : noise_sample constant_snr_sigma (Some exneg) (Fin 10) (fun _ => 1) = Err ValueError.
Proof.
  apply (C66_negative_pixel exneg exnegf); [exact exneg_data|lra|]. exists [1]%nat. split; [exact ex_in1|unfold exnegf; cbn; lra].
Qed.
(** every other datacube can: the noise is the standard normal draw times sigma *)
Theorem C66_sample : forall y f snr z, is_data y f -> 0 < snr -> (forall idx, inb idx (shp y) -> 0 <= f idx) ->
  exists e, noise_sample constant_snr_sigma (Some y) (Fin snr) z = Ok e /\ shp e = shp y /\
    forall idx, inb idx (shp y) -> ent e idx = Fin (z idx * (f idx / snr)).
Proof. exact constant_sample_claim. Qed.
Print Assumptions C66_sample.
Example C66_sample_case : exists e, noise_sample constant_snr_sigma (Some exy) (Fin 10) (fun _ => 2) = Ok e /\
  ent e [1]%nat = Fin (2 * (4 / 10)).
Proof.
  destruct (C66_sample exy exyf 10 (fun _ => 2) exy_data ltac:(lra) exy_pos) as (e & E & _ & H). exists e.
  split; [exact E|]. exact (H [1]%nat ex_in1).
Qed.

(** ** C67 *)
Theorem C67_shot_noise : forall y f snr M, is_data y f -> 0 < snr -> (forall idx, inb idx (shp y) -> 0 <= f idx) ->
  brightest y f M -> 0 < M ->
  exists sigma, shot_noise_sigma (Some y) (Fin snr) = Ok sigma /\ shp sigma = shp y /\
    forall idx, inb idx (shp y) ->
      ent sigma idx = Fin (sqrt M / snr * sqrt (f idx)) /\
      (f idx = M -> ndiv (ent y idx) (ent sigma idx) = Fin snr) /\
      (0 < f idx -> exists r, ndiv (ent y idx) (ent sigma idx) = Fin r /\ r <= snr).
Proof. exact shot_claim. Qed.
Print Assumptions C67_shot_noise.
Example C67_shot_noise_case : exists sigma, shot_noise_sigma (Some exy) (Fin 10) = Ok sigma /\
  ent sigma [0]%nat = Fin (sqrt 9 / 10 * sqrt 1) /\ ndiv (ent exy [2]%nat) (ent sigma [2]%nat) = Fin 10.
Proof.
  destruct (C67_shot_noise exy exyf 10 9 exy_data ltac:(lra) exy_pos exy_bright ltac:(lra)) as (s & E & _ & H). exists s.
  split; [exact E|]. split; [exact (proj1 (H [0]%nat ex_in0))|]. apply (H [2]%nat ex_in2). reflexivity.
Qed.
Theorem C67_sample : forall y f snr M z, is_data y f -> 0 < snr -> (forall idx, inb idx (shp y) -> 0 <= f idx) ->
  brightest y f M -> 0 < M ->
  exists e, noise_sample shot_noise_sigma (Some y) (Fin snr) z = Ok e /\ shp e = shp y /\
    forall idx, inb idx (shp y) -> ent e idx = Fin (z idx * (sqrt M / snr * sqrt (f idx))).
Proof. exact shot_sample_claim. Qed.
Print Assumptions C67_sample.
Theorem C67_negative_pixel : forall y f snr M z, is_data y f -> 0 < snr -> brightest y f M -> 0 < M ->
  (exists idx, inb idx (shp y) /\ f idx < 0) ->
  noise_sample shot_noise_sigma (Some y) (Fin snr) z = Err ValueError.
Proof. exact shot_negative_claim. Qed.
Print Assumptions C67_negative_pixel.
Example C67_negative_pixel_case : noise_sample shot_noise_sigma (Some exneg) (Fin 10) (fun _ => 1) = Err ValueError.
Proof.
  apply (C67_negative_pixel exneg exnegf 10 9); [exact exneg_data|lra|exact exneg_bright|lra|].
  exists [1]%nat. split; [exact ex_in1|unfold exnegf; cbn; lra].
Qed.

(** ** C68 *)
(** whatever the noise model, the noisy data are ybar plus what sample() drew *)
Theorem C68_ybar_plus_noise : forall get_sigma y snr z e, noise_sample get_sigma (Some y) snr z = Ok e -> shp e = shp y ->
  exists d, get_noisy_data get_sigma (Some y) snr z = Ok d /\ shp d = shp y /\
    forall idx, inb idx (shp y) -> ent d idx = nadd (ent y idx) (ent e idx).
Proof. exact noisy_claim. Qed.
Print Assumptions C68_ybar_plus_noise.
Theorem C68_constant_snr : forall y f snr z, is_data y f -> 0 < snr -> (forall idx, inb idx (shp y) -> 0 <= f idx) ->
  exists d, get_noisy_data constant_snr_sigma (Some y) (Fin snr) z = Ok d /\ shp d = shp y /\
    forall idx, inb idx (shp y) -> ent d idx = Fin (f idx + z idx * (f idx / snr)).
Proof. exact noisy_constant_claim. Qed.
Print Assumptions C68_constant_snr.
Example C68_constant_snr_case : exists d, get_noisy_data constant_snr_sigma (Some exy) (Fin 10) (fun _ => -1) = Ok d /\
  ent d [2]%nat = Fin (9 + -1 * (9 / 10)).
Proof.
  destruct (C68_constant_snr exy exyf 10 (fun _ => -1) exy_data ltac:(lra) exy_pos) as (d & E & _ & H). exists d.
  split; [exact E|]. exact (H [2]%nat ex_in2).
Qed.
Theorem C68_shot_noise : forall y f snr M z, is_data y f -> 0 < snr -> (forall idx, inb idx (shp y) -> 0 <= f idx) ->
  brightest y f M -> 0 < M ->
  exists d, get_noisy_data shot_noise_sigma (Some y) (Fin snr) z = Ok d /\ shp d = shp y /\
    forall idx, inb idx (shp y) -> ent d idx = Fin (f idx + z idx * (sqrt M / snr * sqrt (f idx))).
Proof. exact noisy_shot_claim. Qed.
Print Assumptions C68_shot_noise.
(** before evaluate_ybar there is nothing to add noise to *)
Theorem C68_not_evaluated : forall get_sigma snr z, get_noisy_data get_sigma None snr z = Err AttributeError.
Proof. exact (fun _ _ _ => eq_refl). Qed.
Print Assumptions C68_not_evaluated.
