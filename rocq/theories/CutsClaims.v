(** * CutsClaims: proofs for Props_Cuts.v. *)
From Coq Require Import Reals Lra Lia List Bool Arith ZArith String.
From Verif Require Import Num NumLemmas Arr ArrLemmas PyStr ReadMiles MilesSpec MilesLemmas MilesLemmas2 MilesLemmas3 MilesClaims Cuts CutsSpec.
Import ListNotations.
Local Open Scope R_scope.

Lemma kept_trans {A} (P Q : A -> Prop) l l1 : kept P l l1 -> forall l2, kept Q l1 l2 -> kept (fun x => P x /\ Q x) l l2.
Proof.
  induction 1 as [|x l l' Hx _ IH|x l l' Hx _ IH]; intros l2 H2.
  - inversion H2; subst. constructor.
  - inversion H2; subst; constructor; try tauto; apply IH; assumption.
  - constructor; [tauto|]. apply IH; exact H2.
Qed.
Lemma kept_iff {A} (P Q : A -> Prop) l l' : (forall x, In x l -> (P x <-> Q x)) -> kept P l l' -> kept Q l l'.
Proof.
  intros E H. revert E. induction H as [|x l l' Hx _ IH|x l l' Hx _ IH]; intros E; constructor;
    try (rewrite <- (E x (or_introl eq_refl)); exact Hx); apply IH; intros; apply E; right; assumption.
Qed.
Lemma kept_fun {A} (P : A -> Prop) l l1 : kept P l l1 -> forall l2, kept P l l2 -> l1 = l2.
Proof.
  induction 1 as [|x l l' Hx _ IH|x l l' Hx _ IH]; intros l2 H2; inversion H2; subst; try contradiction; [reflexivity| |].
  - f_equal. apply IH. assumption.
  - apply IH. assumption.
Qed.
Lemma kept_in {A} (P : A -> Prop) l l' : kept P l l' -> forall x, In x l' <-> In x l /\ P x.
Proof.
  induction 1 as [|x l l' Hx _ IH|x l l' Hx _ IH]; intros y; cbn.
  - tauto.
  - rewrite IH. split; [intros [->|[? ?]]; auto|]. intros [[->|?] ?]; auto.
  - rewrite IH. split; [intros [? ?]; auto|]. intros [[->|?] ?]; [contradiction|auto].
Qed.

Lemma pixels_lmd m p l : pixels m p l -> lmd m = map fst l.
Proof. intros (x & _ & _ & <-). symmetry. apply map_fst_combine. rewrite rows_length. reflexivity. Qed.
Lemma truncate_ne m lo hi m' : truncate_wavelengths m lo hi = Ok m' -> lmd m <> [].
Proof. unfold truncate_wavelengths. intros H E. rewrite E in H. discriminate. Qed.

Lemma one_cut m p l lo hi m' : pixels m p l -> truncate_wavelengths m lo hi = Ok m' ->
  exists l', pixels m' p l' /\ kept (fun r => in_request lo hi (fst r)) l l'.
Proof.
  intros (x & Hx & Hs & El) H. pose proof (truncate_ne _ _ _ _ H) as Hne.
  destruct (truncate_ok m lo hi x p Hne Hx Hs) as (m2 & x' & E & Hx' & Hs' & K & _).
  - intros B. rewrite (truncate_raises m lo hi Hne (or_introl B)) in H. discriminate.
  - intros B. rewrite (truncate_raises m lo hi Hne (or_intror B)) in H. discriminate.
  - rewrite E in H. injection H as <-. rewrite El in K. eexists. split; [exists x'; split; [exact Hx'|]; split; [exact Hs'|reflexivity]|exact K].
Qed.

Lemma cut_err rs e : fold_left (fun r q => m <- r ;; truncate_wavelengths m (fst q) (snd q)) rs (Err e) = Err e.
Proof. induction rs as [|q rs IH]; [reflexivity|exact IH]. Qed.
Lemma cut_cons m q rs : cut_all m (q :: rs) = (m1 <- truncate_wavelengths m (fst q) (snd q) ;; cut_all m1 rs).
Proof.
  unfold cut_all. cbn [fold_left bind]. destruct (truncate_wavelengths m (fst q) (snd q)) as [m1|e]; [reflexivity|apply cut_err].
Qed.

Lemma sequence_claim rs : forall m p l m', pixels m p l -> cut_all m rs = Ok m' ->
  exists l', pixels m' p l' /\ kept (fun r => Forall (fun q => in_request (fst q) (snd q) (fst r)) rs) l l'.
Proof.
  induction rs as [|q rs IH]; intros m p l m' Hm H.
  - injection H as <-. exists l. split; [exact Hm|]. apply kept_self. intros; constructor.
  - rewrite cut_cons in H. destruct (truncate_wavelengths m (fst q) (snd q)) as [m1|e] eqn:E1; cbn [bind] in H; [|discriminate].
    destruct (one_cut m p l _ _ m1 Hm E1) as (l1 & H1 & K1). destruct (IH m1 p l1 m' H1 H) as (l2 & H2 & K2).
    exists l2. split; [exact H2|]. eapply kept_iff; [|exact (kept_trans _ _ _ _ K1 _ K2)].
    intros r _. cbv beta. split; [intros [A B]; constructor; assumption|]. intros A. inversion A; subst. auto.
Qed.

(** sequences made of the same requests keep the same pixels when none of them raises *)
Lemma order_cuts_claim m p l rs rs' m1 m2 : pixels m p l -> (forall q, In q rs <-> In q rs') ->
  cut_all m rs = Ok m1 -> cut_all m rs' = Ok m2 -> exists l', pixels m1 p l' /\ pixels m2 p l'.
Proof.
  intros Hm E H1 H2. destruct (sequence_claim rs m p l m1 Hm H1) as (l1 & P1 & K1).
  destruct (sequence_claim rs' m p l m2 Hm H2) as (l2 & P2 & K2).
  exists l1. split; [exact P1|]. assert (l1 = l2) as ->; [|exact P2].
  apply (kept_fun _ _ _ K1). eapply kept_iff; [|exact K2]. intros r _. cbv beta. rewrite !Forall_forall.
  split; intros H q Hq; apply H; apply E; exact Hq.
Qed.

(** the same request again *)
Lemma again_claim m p l lo hi m' : pixels m p l -> at_pixel lo l -> at_pixel hi l -> ordered lo hi ->
  truncate_wavelengths m lo hi = Ok m' -> lmd m' <> [] ->
  exists m'' l', truncate_wavelengths m' lo hi = Ok m'' /\ pixels m' p l' /\ pixels m'' p l'.
Proof.
  intros Hm Alo Ahi Ho H Hne. destruct (one_cut m p l lo hi m' Hm H) as (l' & P' & K).
  pose proof (pixels_lmd _ _ _ P') as El. destruct P' as (x' & Hx' & Hs' & Ec).
  assert (I : forall v, In v (map fst l) -> in_request lo hi v -> In v (lmd m')).
  { intros v Hv R. rewrite El. apply in_map_iff in Hv as (r & <- & Hr). apply in_map.
    apply (kept_in _ _ _ K). auto. }
  destruct (truncate_ok m' lo hi x' p Hne Hx' Hs') as (m2 & x2 & E & Hx2 & Hs2 & K2 & _).
  - intros (a & -> & B). cbn in Alo. specialize (B a). assert (a < a); [|lra]. apply B. apply I; [exact Alo|].
    split; [lra|]. destruct hi; [exact Ho|exact Logic.I].
  - intros (b & -> & B). cbn in Ahi. specialize (B b). assert (b < b); [|lra]. apply B. apply I; [exact Ahi|].
    split; [destruct lo; [exact Ho|exact Logic.I]|lra].
  - exists m2, l'. split; [exact E|]. split; [exists x'; auto|]. exists x2. split; [exact Hx2|]. split; [exact Hs2|].
    rewrite Ec in K2. apply (kept_fun _ _ _ K2). apply kept_self. intros r Hr. apply (kept_in _ _ _ K) in Hr. apply Hr.
Qed.
Lemma again_refuted_claim m p l lo hi m' : pixels m p l -> truncate_wavelengths m lo hi = Ok m' ->
  ~ at_pixel lo l \/ ~ at_pixel hi l ->
  truncate_wavelengths m' lo hi = Err ValueError.
Proof.
  intros Hm H Na. destruct (one_cut m p l lo hi m' Hm H) as (l' & P' & K).
  pose proof (pixels_lmd _ _ _ P') as El.
  assert (D : lmd m' = [] \/ lmd m' <> []) by (destruct (lmd m'); [left; reflexivity|right; discriminate]).
  destruct D as [D|D]; [unfold truncate_wavelengths; rewrite D; reflexivity|].
  apply truncate_raises; [exact D|]. rewrite El.
  assert (R : forall v, In v (map fst l') -> In v (map fst l) /\ in_request lo hi v).
  { intros v Hv. apply in_map_iff in Hv as (r & <- & Hr). apply (kept_in _ _ _ K) in Hr as [Hr ?]. split; [apply in_map; exact Hr|assumption]. }
  destruct Na as [Na|Na]; [left; destruct lo as [a|]|right; destruct hi as [b|]]; try (exfalso; apply Na; exact Logic.I).
  - exists a. split; [reflexivity|]. intros y Hy. destruct (R y Hy) as [Hy' [A _]]. cbn in A, Na.
    destruct A as [A|A]; [exact A|]. subst y. contradiction.
  - exists b. split; [reflexivity|]. intros y Hy. destruct (R y Hy) as [Hy' [_ A]]. cbn in A, Na.
    destruct A as [A|A]; [exact A|]. subst y. contradiction.
Qed.

(** nothing left *)
Lemma nothing_left_claim m p l lo hi m' : pixels m p l -> truncate_wavelengths m lo hi = Ok m' ->
  (forall v, In v (map fst l) -> ~ in_request lo hi v) ->
  pixels m' p [] /\ forall lo' hi', truncate_wavelengths m' lo' hi' = Err ValueError.
Proof.
  intros Hm H N. destruct (one_cut m p l lo hi m' Hm H) as (l' & P' & K).
  assert (l' = []) as ->.
  { destruct l' as [|r l']; [reflexivity|]. exfalso. destruct (proj1 (kept_in _ _ _ K r) (or_introl eq_refl)) as [Hr R].
    apply (N (fst r)); [apply in_map; exact Hr|exact R]. }
  split; [exact P'|]. intros lo' hi'. pose proof (pixels_lmd _ _ _ P') as El. cbn in El.
  unfold truncate_wavelengths. rewrite El. reflexivity.
Qed.

(** truncating binned templates at wavelengths of the unbinned ones *)
Lemma after_binning_claim m k n p X a b lo hi : spectra_are m n p X -> (2 <= k)%nat -> (0 < p)%nat ->
  (forall v, In v (lmd m) -> a <= v <= b) -> b < INR k * a -> lo <= b ->
  exists m', bin_pixels m k = Ok m' /\ truncate_wavelengths m' (Some lo) hi = Err ValueError.
Proof.
  intros H Hk Hp Hab Hb Hlo. destruct (Nat.eq_dec (n mod k) 0) as [D|D].
  - destruct (bin_drop_claim m k n p X H Hk Hp D) as (m' & E & El & _). exists m'. split; [exact E|].
    unfold truncate_wavelengths. rewrite El. reflexivity.
  - destruct (bin_wavelength_claim m k n p X a b H Hk Hp D Hab Hb) as (m' & E & _ & Hl). exists m'. split; [exact E|].
    destruct (lmd m') as [|w r] eqn:El; [unfold truncate_wavelengths; rewrite El; reflexivity|].
    apply truncate_raises; [rewrite El; discriminate|]. left. exists lo. split; [reflexivity|].
    intros y Hy. rewrite El in Hy. specialize (Hl y Hy). lra.
Qed.
