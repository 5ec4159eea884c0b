(** * Props_VStat: claim C84 about dispersion, skewness and kurtosis of velocities
    of parametric components and of mixtures with them. *)
From Coq Require Import Reals Lra Lia List Bool Arith ZArith String Ascii.
From Verif Require Import Num NumLemmas Arr PyStr Cube Base Moments Parametric Spec SpecLemmas Repr ParSpec ParRepr MomSpec ParMoments
  GaussSpec ParMomSpec Mixture MixParSpec MixStat Build ParExample ParMomExample MixParExample ParVStat MixVStat.
Import ListNotations.
Local Open Scope R_scope.

(** dispersion from the law of total variance, skewness and kurtosis from the
    moments of the mixture of normal distributions over all velocities *)
Theorem C84_shape : forall L self g m lw, par_on L self g m -> good_grid g -> good_par g m -> par_lw_ok g m lw false ->
  forall C, has_v C = false ->
  exists s sk ku ek, get_dispersion (par_obj L (Fin 1) self) (dname V_v C) lw = Ok s /\
    get_skewness (par_obj L (Fin 1) self) (dname V_v C) lw = Ok sk /\ get_kurtosis (par_obj L (Fin 1) self) (dname V_v C) lw = Ok ku /\
    get_excess_kurtosis (Fin 1) (par_obj L (Fin 1) self) (dname V_v C) lw = Ok ek /\
    shp s = dims C g /\ shp sk = dims C g /\ shp ku = dims C g /\ shp ek = dims C g /\
    forall i, in_grid g i -> 0 < par_prob g m lw C i -> (nonempty C = false -> lw = false -> par_prob g m false no_vars i = 1) ->
      let V := v_variance g m lw C i in let c := mixture_mean g m lw C i in
      exists T K, mixture_moment g m lw C i c 2 V /\ mixture_moment g m lw C i c 3 T /\ mixture_moment g m lw C i c 4 K /\
        0 < V /\ ent s (coords C i) = Fin (sqrt V) /\ ent sk (coords C i) = Fin (T / sqrt V ^ 3) /\
        ent ku (coords C i) = Fin (K / sqrt V ^ 4) /\ ent ek (coords C i) = Fin (K / sqrt V ^ 4 - 3) /\
        (T / sqrt V ^ 3) ^ 2 + 1 < K / sqrt V ^ 4.
Proof. exact par_v_shape. Qed.
Print Assumptions C84_shape.
(** given t and x velocities are normal *)
Theorem C84_given_t_and_x : forall L self g m lw, par_on L self g m -> good_grid g -> good_par g m -> par_lw_ok g m lw false ->
  forall C, has_v C = false -> has_t C = true -> has_x C = true ->
  exists s sk ku ek, get_dispersion (par_obj L (Fin 1) self) (dname V_v C) lw = Ok s /\
    get_skewness (par_obj L (Fin 1) self) (dname V_v C) lw = Ok sk /\ get_kurtosis (par_obj L (Fin 1) self) (dname V_v C) lw = Ok ku /\
    get_excess_kurtosis (Fin 1) (par_obj L (Fin 1) self) (dname V_v C) lw = Ok ek /\
    forall i, in_grid g i -> 0 < par_prob g m lw C i ->
      ent s (coords C i) = Fin (pm_sig m (bt i) (bx i) (by_ i)) /\ ent sk (coords C i) = Fin 0 /\
      ent ku (coords C i) = Fin 3 /\ ent ek (coords C i) = Fin 0.
Proof. exact par_v_given_tx. Qed.
Print Assumptions C84_given_t_and_x.
(** when all ages and positions that count have the same mean velocity there is
    no skewness, and the kurtosis is at least that of a normal distribution, with
    equality just when they have the same dispersion *)
Theorem C84_one_mean : forall L self g m lw, par_on L self g m -> good_grid g -> good_par g m -> par_lw_ok g m lw false ->
  forall C, has_v C = false ->
  exists sk ku ek, get_skewness (par_obj L (Fin 1) self) (dname V_v C) lw = Ok sk /\ get_kurtosis (par_obj L (Fin 1) self) (dname V_v C) lw = Ok ku /\
    get_excess_kurtosis (Fin 1) (par_obj L (Fin 1) self) (dname V_v C) lw = Ok ek /\
    forall i, in_grid g i -> 0 < par_prob g m lw C i -> (nonempty C = false -> lw = false -> par_prob g m false no_vars i = 1) ->
      (forall b, In b (bins_over g (rest C) i) -> 0 < weight g m lw C i b -> pm_mu m (bt b) (bx b) (by_ b) = mixture_mean g m lw C i) ->
      exists k, ent sk (coords C i) = Fin 0 /\ ent ku (coords C i) = Fin k /\ ent ek (coords C i) = Fin (k - 3) /\ 3 <= k /\
        (k = 3 <-> forall b, In b (bins_over g (rest C) i) -> 0 < weight g m lw C i b ->
                   pm_sig m (bt b) (bx b) (by_ b) ^ 2 = v_variance g m lw C i).
Proof. exact par_v_one_mean. Qed.
Print Assumptions C84_one_mean.
(** mixtures with base and parametric members, unless given t, x and z (C52):
    the moments are those of the members about the mixture's mean, weighted by
    the members' shares *)
Theorem C84_mixture : forall self g l, mixed_on self g l -> good_grid g ->
  forall lw C, has_v C = false -> C <> V_txz -> (forall q, (q < List.length l)%nat -> lit_ok g (kmass g (kk l q) false) lw) ->
  (nonempty C = false -> lw = false -> k_normal g l) -> forall f2m1,
  exists s sk ku ek, mix_dispersion self (dname V_v C) lw = Ok s /\ mix_skewness self (dname V_v C) lw = Ok sk /\
    mix_kurtosis self (dname V_v C) lw = Ok ku /\ mix_excess_kurtosis f2m1 self (dname V_v C) lw = Ok ek /\
    shp s = dims C g /\ shp sk = dims C g /\ shp ku = dims C g /\ shp ek = dims C g /\
    forall i, in_grid g i -> all_there g l lw C i ->
      exists V T K, k_moment_v g l lw C i (fun _ => k_mean_v g l lw C i) 2 V /\ k_moment_v g l lw C i (fun _ => k_mean_v g l lw C i) 3 T /\
        k_moment_v g l lw C i (fun _ => k_mean_v g l lw C i) 4 K /\ 0 <= V /\
        ((exists q m, (q < List.length l)%nat /\ kk l q = KPar m) -> 0 < V) /\
        ent s (coords C i) = Fin (sqrt V) /\
        (0 < V -> ent sk (coords C i) = Fin (T / sqrt V ^ 3) /\ ent ku (coords C i) = Fin (K / sqrt V ^ 4) /\
           ent ek (coords C i) = Fin (K / sqrt V ^ 4 - 3) /\ (T / sqrt V ^ 3) ^ 2 + 1 <= K / sqrt V ^ 4) /\
        (V = 0 -> ent sk (coords C i) = NaN /\ ent ku (coords C i) = NaN /\ ent ek (coords C i) = NaN).
Proof. exact mix_v_stats. Qed.
Print Assumptions C84_mixture.
(** the moments of mixtures are determined by these statements *)
Theorem C84_mixture_unique : forall self g l, mixed_on self g l -> good_grid g -> forall lw C, has_v C = false ->
  forall i, in_grid g i -> (forall q, (q < List.length l)%nat -> lit_ok g (kmass g (kk l q) false) lw) -> all_there g l lw C i ->
  forall j M M', k_moment_v g l lw C i (fun _ => k_mean_v g l lw C i) j M -> k_moment_v g l lw C i (fun _ => k_mean_v g l lw C i) j M' -> M = M'.
Proof. exact mix_v_unique. Qed.
Print Assumptions C84_mixture_unique.

(** velocities in the first pixel: 10 with probability 1/5 and dispersion 1, -5
    with probability 4/5 and dispersion 2 *)
Example C84_case : exists s sk ku ek, get_dispersion (par_obj exL (Fin 1) exmp) "v_x" false = Ok s /\ ent s [0; 0]%nat = Fin (sqrt (197 / 5)) /\
  get_skewness (par_obj exL (Fin 1) exmp) "v_tx" false = Ok sk /\ ent sk [0; 0; 0]%nat = Fin 0 /\
  get_kurtosis (par_obj exL (Fin 1) exmp) "v_tx" false = Ok ku /\ ent ku [0; 0; 0]%nat = Fin 3 /\
  mix_dispersion exm2 "v_t" false = Ok ek /\ exists V, ent ek [0]%nat = Fin V /\ 0 < V.
Proof.
  set (i := Bin 0 0 0 0 0). assert (Hi : in_grid exg i) by (repeat split; cbn; lia).
  set (C := VSet false false true false). set (C2 := VSet true false true false).
  assert (Hp : par_prob exg exmod false C i = 5 / 12).
  { unfold par_prob, marg, over, pprob, pjoint, txz_mass. cbn [has_t has_v has_x has_z C pgrid]. ev. lra. }
  assert (Hp2 : 0 < par_prob exg exmod false C2 i).
  { unfold par_prob, marg, over, pprob, pjoint, txz_mass. cbn [has_t has_v has_x has_z C2 pgrid]. ev. lra. }
  assert (HM : mixture_mean exg exmod false C i = -2).
  { unfold mixture_mean, over_rest, weight. rewrite Hp. unfold sum_over, sum_if, par_prob, marg, over, pprob, pjoint, txz_mass.
    cbn [has_t has_v has_x has_z C rest union negb orb andb pgrid]. ev. lra. }
  destruct (C84_shape exL exmp exg exmod false exmp_on exg_good exmod_good (exmod_lw false) C eq_refl) as (s & s3 & s4 & s5 & Es & _ & _ & _ & _ & _ & _ & _ & Hs).
  destruct (C84_given_t_and_x exL exmp exg exmod false exmp_on exg_good exmod_good (exmod_lw false) C2 eq_refl eq_refl eq_refl) as (s2 & sk & ku & ek & _ & Esk & Eku & _ & Hk).
  destruct (C84_mixture exm2 exg exl2 exm2_on exg_good false (VSet true false false false) eq_refl ltac:(discriminate) ltac:(intros; discriminate) ltac:(discriminate) (Fin 1))
    as (d & d1 & d2 & d3 & Ed & _ & _ & _ & _ & _ & _ & _ & Hd).
  exists s, sk, ku, d. split; [exact Es|]. split.
  { destruct (Hs i Hi) as (T & K & _ & _ & _ & _ & A & _); [rewrite Hp; lra|discriminate|]. etransitivity; [exact A|]. do 2 f_equal.
    unfold v_variance. rewrite HM. unfold over_rest, weight. rewrite Hp. unfold sum_over, sum_if, par_prob, marg, over, pprob, pjoint, txz_mass.
    cbn [has_t has_v has_x has_z C rest union negb orb andb pgrid]. ev. lra. }
  destruct (Hk i Hi Hp2) as (_ & A & B & _). split; [exact Esk|]. split; [exact A|]. split; [exact Eku|]. split; [exact B|]. split; [exact Ed|].
  destruct (Hd i Hi) as (V & T & K & _ & _ & _ & _ & P & A' & _).
  { intros q Hq. cbn in Hq. destruct q as [|[|q]]; [| |lia]; unfold i; kev; unfold mass, wid; cbn; lra. }
  exists (sqrt V). split; [exact A'|]. apply sqrt_lt_R0. apply P. exists 1%nat, exmod. split; [cbn; lia|reflexivity].
Qed.
