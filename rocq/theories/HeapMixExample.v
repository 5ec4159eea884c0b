(** * HeapMixExample: two base components and a parametric one in one heap, and a
    mixture of the first two. *)
From Coq Require Import Reals Lra String Ascii List Bool Arith ZArith Lia.
From Verif Require Import Num NumLemmas Arr ArrLemmas PyStr Cube Base Spec SpecLemmas Repr Build Parametric ParMoments ParExample ParMomExample
  Mixture MixSpec MixLemmas MixCond MixMom MixClaims MixExample
  Heap HeapLemmas HeapClaims HeapPar HeapParClaims HeapRun HeapHist HeapExample HeapMix HeapMixClaims HeapMixRun HeapMixHist.
Import ListNotations.
Local Open Scope nat_scope.

Definition xcube : hcube := cube_obj (cube_of exg).
Definition xbufs : heap :=
  [log_p_tvxz exc; log_p_tvxz exc1] ++
  map obuf [pa_log_p_t exmp; pa_log_p_x_t exmp; pa_log_p_z_tx exmp; pa_mu_v exmp; pa_sig_v exmp].
Definition xheap : heap := cube_heap (cube_of exg) ++ xbufs.
Definition xpar : hpar :=
  HPar xcube (oobj 6 (pa_log_p_t exmp)) (oobj 7 (pa_log_p_x_t exmp)) (oobj 8 (pa_log_p_z_tx exmp))
       (oobj 9 (pa_mu_v exmp)) (oobj 10 (pa_sig_v exmp)).
Definition xobjects : objects :=
  [HMember (h_table (HComp xcube (whole 4 (log_p_tvxz exc)))) None;
   HMember (h_table (HComp xcube (whole 5 (log_p_tvxz exc1)))) None;
   HMember (h_par_table exL xpar) None].
Definition xvals (k : nat) : member :=
  match k with 0 => comp_member exc | 1 => comp_member exc1 | _ => par_member exL (Fin 1%R) exmp end.
Definition xlists : lists := [[0; 1]].
Definition xws : list num := [Fin (1 / 4)%R; Fin (3 / 4)%R].

Lemma xcube_in : cube_in xheap xcube (cube_of exg). Proof. apply cube_obj_in. Qed.
Lemma xobjects_in i : i < length xobjects -> member_in xheap (object xobjects i) (xvals i).
Proof.
  intros H. destruct i as [|[|[|i]]]; [| | |cbn in H; lia]; cbn [object nth xobjects xvals].
  - apply comp_member_in. split; [exact xcube_in|apply whole_ref; reflexivity].
  - apply comp_member_in. split; [exact xcube_in|apply whole_ref; reflexivity].
  - apply par_member_in. split; [exact xcube_in|]. do 4 (split; [apply oobj_in; reflexivity|]). apply oobj_in; reflexivity.
Qed.
Lemma xinit : mixture_init (cube_of exg) (map xvals [0; 1]) xws = Ok exm.
Proof.
  apply (init_ok_claim (cube_of exg) [comp_member exc; comp_member exc1]); [reflexivity|].
  exists [1 / 4; 3 / 4]%R. split; [reflexivity|]. split.
  - intros r [<-|[<-|[]]]; lra.
  - unfold sumR; cbn. rewrite Rabs_pos_eq; lra.
Qed.

(** the same query before and after component_list[0] = component_list[1] *)
Definition xq : mquestion := MQuestion false "t" true false false.
Definition xevents : list mevent :=
  [MAsk xq; MEdit 0 (full [2] (Fin 0%R)); MWeights (full [2] (Fin 0%R)); MAsk xq; MSet 0 1; MAsk xq; MSet 1 2; MAsk (MQuestion true "v_tx" false true true)].
Definition xpts : parts := [(exf1, 1 / 4); (exf1, 3 / 4)]%R.
Definition xm1 : mixture := Mixture (cube_of exg) [comp_member exc1; comp_member exc1] xws.
Lemma xm1_on : mix_on xm1 exg [exc1; exc1] xpts.
Proof.
  constructor; try reflexivity; [apply cube_of_on; [apply exg_uniform_x|apply exg_uniform_y]|discriminate|].
  intros [|[|k]] c q E1 E2; cbn in E1, E2; try (destruct k; discriminate E1);
    injection E1 as <-; injection E2 as <-; cbn [fst snd];
  (split; [apply exc1_on|]; split; [apply exf1_nonneg|lra]).
Qed.
Definition xt : vset := VSet true false false false.
Lemma xdiffer : ~ ressame (mix_value xm1 xq) (mix_value exm xq).
Proof.
  unfold mix_value, xq. cbn [mq_log mq_dist mq_collapse mq_density mq_light].
  destruct (marg_split exm exg _ expts exm_on exg_good xt false false eq_refl (exm_lw _)) as (a & b & Ea & Eb & Sa & _ & Hab).
  destruct (marg_split xm1 exg _ xpts xm1_on exg_good xt false false eq_refl) as (a' & b' & Ea' & Eb' & Sa' & _ & Hab').
  { intros H; discriminate H. }
  change (name xt) with "t"%string in Ea, Ea'. rewrite Ea, Ea'. intros [_ S].
  specialize (S [0]). rewrite Sa' in S. specialize (S ltac:(repeat constructor; cbn; lia)).
  destruct (Hab (Bin 0 0 0 0 0)) as [Hb Hs]; [unfold in_grid; cbn; lia|].
  destruct (Hab' (Bin 0 0 0 0 0)) as [Hb' Hs']; [unfold in_grid; cbn; lia|].
  cbn [xt coords has_t has_v has_x has_z opt app bt List.length expts xpts seq map] in *.
  rewrite <- Hs, <- Hs' in S. rewrite !Hb, !Hb' in S by lia. unfold nsum in S. cbn [fold_right nadd] in S. apply Fin_eq in S.
  revert S. unfold share, xpts. unfold xt. mix_num. ex_num.
Qed.
Lemma list_shared_claim : exists h0 os vals hc c ls ws self,
  cube_in h0 hc c /\ (forall i, i < length os -> member_in h0 (object os i) (vals i)) /\
  mixture_init c (map vals (nth 0 ls [])) ws = Ok self /\
  let wa := whole (length h0) (arr1 ws NaN) in
  exists h1 m q i k a b, h_mixture hc ls 0 wa (h0 ++ [arr1 ws NaN]) = (h1, Ok m) /\
    snd (mrun os m wa [MAsk q; MSet i k; MAsk q] h1 ls []) = [a; b] /\ ~ ressame b a.
Proof.
  exists xheap, xobjects, xvals, xcube, (cube_of exg), xlists, xws, exm.
  split; [exact xcube_in|]. split; [exact xobjects_in|]. split; [exact xinit|]. intros wa.
  destruct (mix_history_claim xheap xobjects xvals xcube (cube_of exg) xlists 0 xws exm) as (h1 & m & E & H).
  - exact xcube_in.
  - exact xobjects_in.
  - cbn; lia.
  - repeat constructor; cbn; lia.
  - exact xinit.
  - destruct (H [MAsk xq; MSet 0 1; MAsk xq]) as [_ H2]; [repeat constructor; cbn; lia|]. clear H. fold wa in E, H2.
    cbn [nth xlists masked set_nth] in H2. remember (snd (mrun xobjects m wa [MAsk xq; MSet 0 1; MAsk xq] h1 xlists [])) as os eqn:Eo.
    inversion H2 as [|? a ? l1 A1 B1]; subst. inversion B1 as [|? b ? l2 A2 B2]; subst. inversion B2; subst.
    exists h1, m, xq, 0, 1, a, b. split; [exact E|]. split; [first [reflexivity|symmetry; assumption]|]. intros S.
    apply xdiffer. cbn [fst snd map xvals] in A1, A2.
    eapply ressame_trans; [apply ressame_sym; exact A2|]. eapply ressame_trans; [exact S|]. exact A1.
Qed.
