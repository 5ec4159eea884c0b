(** * MilesExample: a small concrete template directory. *)
From Coq Require Import Reals Lra Lia List Bool Arith ZArith String Ascii.
From Verif Require Import Num NumLemmas Arr PyStr ReadMiles MilesSpec MilesLemmas MilesLemmas2.
Import ListNotations.
Local Open Scope R_scope.

(** names as they occur in data/MILES_BASTI_CH_baseFe *)
Definition mk (neg : bool) (zi zf ti tf : list nat) : mfile :=
  MFile "Mch1.30" neg zi zf ti tf "Tp0.00_baseFe.fits".
Definition fa := mk true [0]%nat [2; 5]%nat [0; 0]%nat [0; 3; 0; 0]%nat.
Definition fb := mk true [0]%nat [2; 5]%nat [0; 1]%nat [0; 0; 0; 0]%nat.
Definition fc := mk false [0]%nat [0; 6]%nat [0; 0]%nat [0; 3; 0; 0]%nat.
Definition fd := mk false [0]%nat [0; 6]%nat [0; 1]%nat [0; 0; 0; 0]%nat.

Lemma no_i a b : "Tp0.00_baseFe.fits"%string <> (a ++ "_i" ++ b)%string.
Proof.
  intros E. do 18 (destruct a as [|? a]; [discriminate E|injection E as ? E]). destruct a; discriminate E.
Qed.
Lemma mk_form neg zi zf ti tf : zi <> [] -> ti <> [] -> Forall (fun d => d < 10)%nat zi -> Forall (fun d => d < 10)%nat zf ->
  Forall (fun d => d < 10)%nat ti -> Forall (fun d => d < 10)%nat tf -> miles_form (mk neg zi zf ti tf).
Proof. intros. constructor; try assumption; try reflexivity; first [apply no_i|cbn; lia]. Qed.
Lemma form4 : Forall miles_form [fa; fb; fc; fd].
Proof. repeat (apply Forall_cons; [apply mk_form; first [discriminate|repeat constructor; lia]|]); constructor. Qed.

Ltac dec := unfold file_z, file_t, dec_val; cbn; lra.
Lemma za : file_z fa = -0.25. Proof. dec. Qed.
Lemma zb : file_z fb = -0.25. Proof. dec. Qed.
Lemma zc : file_z fc = 0.06. Proof. dec. Qed.
Lemma zd : file_z fd = 0.06. Proof. dec. Qed.
Lemma ta : file_t fa = 0.03. Proof. dec. Qed.
Lemma tb : file_t fb = 1. Proof. dec. Qed.
Lemma tc : file_t fc = 0.03. Proof. dec. Qed.
Lemma td : file_t fd = 1. Proof. dec. Qed.

Definition exspec : list num := repeat (Fin 1) (List.length default_lmd).
(** listed in an arbitrary order *)
Definition exdisk (fs : list mfile) : disk :=
  Disk (map file_name fs) (fun _ => Ok exspec) (full [O; O] NaN).
Definition exfiles := [fd; fa; fc; fb].

Lemma nodup4 : NoDup exfiles.
Proof. repeat constructor; cbn; intuition discriminate. Qed.
Lemma form_ex : Forall miles_form exfiles.
Proof. pose proof form4 as H. rewrite Forall_forall in *. intros f Hf. apply H. cbn in *. tauto. Qed.
Lemma exholds : holds (exdisk exfiles) exfiles.
Proof. split; [apply form_ex|]. split; [apply nodup4|]. left; reflexivity. Qed.
Lemma exreadable fs K : readable (exdisk fs) K (List.length default_lmd).
Proof. intros f _. exists exspec. split; [reflexivity|apply repeat_length]. Qed.
Lemma exfull : full_grid exfiles.
Proof.
  intros f h Hf Hh. exists (mk (f_neg f) (f_zi f) (f_zf f) (f_ti h) (f_tf h)).
  cbn in Hf, Hh. destruct Hf as [<-|[<-|[<-|[<-|[]]]]]; destruct Hh as [<-|[<-|[<-|[<-|[]]]]];
    (split; [cbn; tauto|]; split; [reflexivity|]; split; [reflexivity|]);
    intros k [<-|[<-|[<-|[<-|[]]]]]; rewrite ?za, ?zb, ?zc, ?zd, ?ta, ?tb, ?tc, ?td; intros; try reflexivity; exfalso; lra.
Qed.
Lemma exkept : kept (in_limits (Some (0, 2)) None) exfiles exfiles.
Proof.
  apply kept_self. intros f Hf. unfold in_limits, within. cbn [age_range z_range fst snd].
  cbn in Hf. destruct Hf as [<-|[<-|[<-|[<-|[]]]]]; rewrite ?za, ?zb, ?zc, ?zd, ?ta, ?tb, ?tc, ?td; lra.
Qed.
(** dropping the old metal-rich file leaves a ragged set *)
Definition exragged := [fa; fc; fb].
Lemma exragged_not_full : ~ full_grid exragged.
Proof.
  intros H. destruct (H fc fb) as (k & Hk & Ez & Et & _); [cbn; tauto|cbn; tauto|].
  rewrite zc in Ez. rewrite tb in Et. cbn in Hk.
  destruct Hk as [<-|[<-|[<-|[]]]]; rewrite ?za, ?zb, ?zc, ?ta, ?tb, ?tc in *; lra.
Qed.
Lemma exragged_holds : holds (exdisk exragged) exragged.
Proof.
  split; [|split; [|left; reflexivity]].
  - pose proof form4 as H. rewrite Forall_forall in *. intros f Hf. apply H. cbn in *. tauto.
  - repeat constructor; cbn; intuition discriminate.
Qed.
Lemma exragged_kept : kept (in_limits (Some (0, 2)) None) exragged exragged.
Proof.
  apply kept_self. intros f Hf. unfold in_limits, within. cbn [age_range z_range fst snd].
  cbn in Hf. destruct Hf as [<-|[<-|[<-|[]]]]; rewrite ?za, ?zb, ?zc, ?ta, ?tb, ?tc; lra.
Qed.
Lemma exkept_default : kept (in_limits None None) exfiles exfiles.
Proof.
  apply kept_self. intros f Hf. unfold in_limits, within. cbn [age_range z_range fst snd].
  cbn in Hf. destruct Hf as [<-|[<-|[<-|[<-|[]]]]]; rewrite ?za, ?zb, ?zc, ?zd, ?ta, ?tb, ?tc, ?td; lra.
Qed.
