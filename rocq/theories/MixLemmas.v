(** * MixLemmas: the distributions of a mixture. *)
From Coq Require Import Reals Lra Lia List Bool Arith ZArith String Ascii.
From Verif Require Import Num NumLemmas Arr ArrLemmas MomArr PyStr Cube Base Spec SpecLemmas Repr CubeLemmas BaseLemmas
  CondLemmas Moments DistLemmas Mixture MixSpec MixGen.
Import ListNotations.
Local Open Scope R_scope.

Lemma sumR_Sum {A} (F : A -> R) (l : list A) d : sumR (map F l) = Sum (List.length l) (fun k => F (nth k l d)).
Proof.
  rewrite <- (sumR_map_seq (List.length l)). f_equal.
  induction l as [|a l IH]; [reflexivity|]. cbn. f_equal. rewrite IH, <- seq_shift, map_map. reflexivity.
Qed.

Lemma mixf_Sum l t v x y z : mixf l t v x y z = Sum (List.length l) (fun k => pw l k * pf l k t v x y z).
Proof. unfold mixf, pw, pf. apply (sumR_Sum (fun q => snd q * fst q t v x y z)). Qed.

Lemma marg_Sum g n (Pk : nat -> joint) S i :
  marg g (fun t v x y z => Sum n (fun k => Pk k t v x y z)) S i = Sum n (fun k => marg g (Pk k) S i).
Proof.
  unfold marg.
  rewrite Sum_over_comm. apply over_ext_all; intros t. rewrite Sum_over_comm. apply over_ext_all; intros v.
  rewrite Sum_over_comm. apply over_ext_all; intros x. rewrite Sum_over_comm. apply over_ext_all; intros y.
  rewrite Sum_over_comm. reflexivity.
Qed.
Lemma total_Sum g n (Pk : nat -> joint) :
  total g (fun t v x y z => Sum n (fun k => Pk k t v x y z)) = Sum n (fun k => total g (Pk k)).
Proof. apply (marg_Sum g n Pk no_vars (Bin 0 0 0 0 0)). Qed.

Lemma mass_mixf g l : joint_eq g (mass g (mixf l))
  (fun t v x y z => Sum (List.length l) (fun k => pw l k * mass g (pf l k) t v x y z)).
Proof.
  intros t v x y z _ _ _ _ _. unfold mass. rewrite mixf_Sum, <- Sum_scal_r. apply Sum_ext; intros; ring.
Qed.
Lemma lit_mixf g l : joint_eq g (lit g (mass g (mixf l)))
  (fun t v x y z => Sum (List.length l) (fun k => pw l k * lit g (mass g (pf l k)) t v x y z)).
Proof.
  intros t v x y z Ht Hv Hx Hy Hz. unfold lit. rewrite mass_mixf by assumption.
  rewrite <- Sum_scal_r. apply Sum_ext; intros; ring.
Qed.
Lemma lit_total g l : total g (lit g (mass g (mixf l))) =
  Sum (List.length l) (fun k => pw l k * total g (lit g (mass g (pf l k)))).
Proof.
  rewrite (total_ext _ _ _ (lit_mixf g l)), total_Sum. apply Sum_ext; intros. apply total_scal.
Qed.

(** the shares of the members add up to the mixture *)
Lemma share_sum g l lw : lw_ok g (mixf l) lw ->
  joint_eq g (prob g (mixf l) lw) (fun t v x y z => Sum (List.length l) (fun k => share g l lw k t v x y z)).
Proof.
  intros Hl t v x y z Ht Hv Hx Hy Hz. unfold share, prob. destruct lw.
  - specialize (Hl eq_refl). unfold light. rewrite lit_mixf by assumption. unfold Rdiv.
    rewrite <- Sum_scal_r. reflexivity.
  - apply mass_mixf; assumption.
Qed.
Lemma marg_share g l lw S i : lw_ok g (mixf l) lw -> in_grid g i ->
  marg g (prob g (mixf l) lw) S i = Sum (List.length l) (fun k => marg g (share g l lw k) S i).
Proof.
  intros Hl Hi. rewrite <- marg_Sum. apply marg_ext; [assumption|]. apply share_sum; assumption.
Qed.

(** light of a marginal that keeps age and metallicity *)
Lemma marg_lit g P S i : has_t S = true -> has_z S = true ->
  marg g (lit g P) S i = marg g P S i * Lw g (bt i) (bz i).
Proof.
  intros Ht Hz. unfold marg, lit. rewrite Ht, Hz. cbn.
  destruct S as [[] [] [] []]; cbn; repeat (rewrite <- Sum_scal_r; apply Sum_ext; intros); reflexivity.
Qed.

Section Mix.
Context (self : mixture) (g : grid) (l : bool -> parts).
Context (H : mix_gen self g l) (Hg : good_grid g).
Let Hc := mg_cube _ _ _ H.
Let n := List.length (l false).

Lemma len_any b : List.length (l b) = n.
Proof. unfold n. rewrite <- !(mg_len _ _ _ H). reflexivity. Qed.
Lemma n_pos : (0 < n)%nat.
Proof. unfold n. pose proof (mg_ne _ _ _ H). destruct (l false); [congruence|cbn; lia]. Qed.

Lemma part_nth k : (k < n)%nat -> exists mb, nth_error (mx_members self) k = Some mb /\ member_on mb g (fun b => pf (l b) k).
Proof.
  intros Hk. destruct (nth_error (mx_members self) k) as [c|] eqn:E.
  2:{ apply nth_error_None in E. rewrite (mg_len _ _ _ H false) in E. fold n in E. lia. }
  exists c; split; [reflexivity|]. apply (mg_mb _ _ _ H); assumption.
Qed.
Lemma pf_nonneg b k : nonneg g (pf (l b) k).
Proof.
  destruct (lt_dec k n) as [Hk|Hk].
  - destruct (part_nth k Hk) as (c & E & Hm). apply (mb_nonneg _ _ _ Hm b).
  - unfold pf. rewrite nth_overflow by (rewrite len_any; lia). cbn. intros t v x y z _ _ _ _ _; lra.
Qed.
Lemma pw_any b k : pw (l b) k = pw (l false) k.
Proof.
  pose proof (mg_weights _ _ _ H b) as E. rewrite (mg_weights _ _ _ H false) in E.
  assert (K : forall a c : parts, map (fun q => Fin (snd q)) a = map (fun q => Fin (snd q)) c -> pw a k = pw c k).
  { clear. unfold pw. intros a c. revert k c. induction a as [|x a IH]; intros k [|y c] E; try discriminate E; [reflexivity|].
    cbn [map] in E. injection E as E1 E2. destruct k; cbn [nth]; [exact E1|apply IH, E2]. }
  symmetry. apply K, E.
Qed.
Lemma pw_pos b k : (k < n)%nat -> 0 < pw (l b) k.
Proof. intros Hk. apply (mg_pos _ _ _ H). rewrite len_any; assumption. Qed.
Lemma pw_nonneg b k : 0 <= pw (l b) k.
Proof.
  destruct (lt_dec k n) as [Hk|Hk]; [left; apply pw_pos, Hk|].
  unfold pw. rewrite nth_overflow by (rewrite len_any; lia). cbn; lra.
Qed.

Lemma mixf_nonneg b : nonneg g (mixf (l b)).
Proof.
  intros t v x y z ? ? ? ? ?. rewrite mixf_Sum. apply Sum_nonneg; intros.
  apply Rmult_le_pos; [apply pw_nonneg|apply pf_nonneg; assumption].
Qed.
Lemma share_nonneg b lw k : lw_ok g (mixf (l b)) lw -> nonneg g (share g (l b) lw k).
Proof.
  intros Hl t v x y z ? ? ? ? ?. unfold share. pose proof (pw_nonneg b k).
  pose proof (mass_nonneg g _ Hg (pf_nonneg b k)) as Hm. pose proof (lit_nonneg g _ Hg Hm) as Hlt.
  destruct lw.
  - specialize (Hl eq_refl). apply Rmult_le_pos; [|left; apply Rinv_0_lt_compat; assumption].
    apply Rmult_le_pos; [assumption|apply Hlt; assumption].
  - apply Rmult_le_pos; [assumption|apply Hm; assumption].
Qed.

(** an array over the members and the variables of S, with the marginals of Q *)
Definition stacked (a : arr num) (S : vset) (Q : nat -> joint) (F : bin -> R) : Prop :=
  arr_is a (n :: dims S g) (fun idx => lg (marg g (Q (hd 0%nat idx)) S (rd S (tl idx)) / F (rd S (tl idx)))).

Lemma row_ok S density k mb : nonempty S = true -> member_on mb g (fun b => pf (l b) k) -> (k < n)%nat ->
  exists a, weighted_log_p (name S) density (mb, Fin (pw (l false) k)) = Ok a /\
    arr_is a (dims S g) (fun idx => lg (marg g (share g (l (has_v S)) false k) S (rd S idx) / dens g density S (rd S idx))).
Proof.
  intros HS Hk Hkn. destruct (mb_log _ _ _ Hk S density HS) as (m & a & E1 & E2 & Ha).
  unfold weighted_log_p. cbn [fst snd]. rewrite E1. cbn [bind]. rewrite E2. cbn [bind].
  eexists; split; [reflexivity|].
  pose proof (amap_is (fun x => nadd (nlog (Fin (pw (l false) k))) x) _ _ _ Ha) as Hb. eapply arr_is_ext; [exact Hb|].
  intros idx Hi. cbv beta. pose proof (rd_in_grid _ _ _ Hg Hi) as Hin.
  pose proof (dens_pos g Hg density S _ Hin) as Hd.
  rewrite nlog_Fin, nadd_lg.
  - f_equal. unfold share. rewrite marg_scal, (pw_any (has_v S)). field. lra.
  - apply pw_nonneg.
  - apply div_pos_le; [|assumption]. apply marg_nonneg; [assumption|]. apply mass_nonneg; [assumption|apply pf_nonneg].
Qed.

Lemma rows_ok S density : nonempty S = true ->
  forall cs ks, (forall j c k, nth_error cs j = Some c -> nth_error ks j = Some k -> member_on c g (fun b => pf (l b) k) /\ (k < n)%nat) ->
  List.length cs = List.length ks ->
  exists r, rows (name S) density (dims S g)
      (combine cs (map (fun k => Fin (pw (l false) k)) ks)) = Ok r /\
    List.length r = List.length ks /\
    forall j k, nth_error ks j = Some k -> exists a, nth_error r j = Some a /\
      arr_is a (dims S g) (fun idx => lg (marg g (share g (l (has_v S)) false k) S (rd S idx) / dens g density S (rd S idx))).
Proof.
  intros HS. induction cs as [|c cs IH]; intros [|k ks] Hcs Hlen; try discriminate Hlen.
  - exists []. split; [reflexivity|]. split; [reflexivity|]. intros [|j] k Hk; discriminate Hk.
  - cbn [map combine rows].
    destruct (Hcs 0%nat c k eq_refl eq_refl) as [Hk Hkn].
    destruct (row_ok S density k c HS Hk Hkn) as (a & E & Ha). rewrite E. cbn [bind].
    destruct (broadcast_to_is a (dims S g) _ (dims S g) Ha (bshape_same _)) as (b & Eb & Hb).
    rewrite Eb. cbn [bind].
    destruct (IH ks) as (r & Er & Hlr & Hr).
    + intros j c' k' H1 H2. apply (Hcs (Datatypes.S j)); assumption.
    + cbn in Hlen; lia.
    + rewrite Er. cbn [bind]. eexists; split; [reflexivity|]. split; [cbn; rewrite Hlr; reflexivity|].
      intros [|j] k' Hk'.
      * injection Hk' as <-. exists b; split; [reflexivity|]. eapply arr_is_ext; [exact Hb|].
        intros idx Hi. cbv beta. rewrite bidx_self by assumption. reflexivity.
      * apply Hr; exact Hk'.
Qed.

Lemma weights_eq : mx_weights self = map (fun k => Fin (pw (l false) k)) (seq 0 n).
Proof.
  rewrite (mg_weights _ _ _ H false). unfold n, pw.
  clear. induction (l false) as [|q r IH]; [reflexivity|]. cbn. f_equal. rewrite IH, <- seq_shift, map_map. reflexivity.
Qed.

Lemma nth_error_seq k m j : nth_error (seq 0 m) j = Some k -> k = j /\ (j < m)%nat.
Proof.
  intros E. assert (Hj : (j < m)%nat).
  { assert (nth_error (seq 0 m) j <> None) as Hn by congruence. apply nth_error_Some in Hn.
    rewrite seq_length in Hn; exact Hn. }
  split; [|assumption]. rewrite (nth_error_nth' _ 0%nat) in E by (rewrite seq_length; assumption).
  injection E as <-. rewrite seq_nth by assumption. reflexivity.
Qed.
Lemma seq_nth_error m j : (j < m)%nat -> nth_error (seq 0 m) j = Some j.
Proof. intros Hj. rewrite (nth_error_nth' _ 0%nat) by (rewrite seq_length; assumption). rewrite seq_nth by assumption. reflexivity. Qed.

(** stacking arrays of one shape *)
Lemma stack_is {A} (r : list (arr A)) (d : A) s : r <> [] ->
  (forall a, In a r -> shp a = s) ->
  exists q, stack r d = Ok q /\ shp q = (List.length r :: s) /\
    forall k a idx, nth_error r k = Some a -> ent q (k :: idx) = ent a idx.
Proof.
  intros Hn Hs. destruct r as [|a r]; [congruence|]. unfold stack.
  assert (E : forallb (fun b => natlist_eqb (shp a) (shp b)) r = true).
  { apply forallb_forall. intros b Hb. apply natlist_eqb_eq. rewrite (Hs a), (Hs b); cbn; auto. }
  rewrite E. eexists; split; [reflexivity|]. split; [cbn [shp]; rewrite (Hs a) by (cbn; auto); reflexivity|].
  intros k b idx Hb. cbn [ent]. rewrite Hb. reflexivity.
Qed.

Lemma mass_wtd_ok S density : nonempty S = true ->
  exists a, mix_mass_wtd self (name S) density = Ok a /\ stacked a S (share g (l (has_v S)) false) (dens g density S).
Proof.
  intros HS. unfold mix_mass_wtd. rewrite weights_eq.
  pose proof n_pos as Hn. pose proof (mg_len _ _ _ H false) as Hlen. fold n in Hlen.
  destruct (rows_ok S density HS (mx_members self) (seq 0 n)) as (r & Er & Hlr & Hr).
  { intros j c k E1 E2. apply nth_error_seq in E2 as [-> Hj]. split; [|assumption].
    apply (mg_mb _ _ _ H); assumption. }
  { rewrite seq_length; assumption. }
  rewrite seq_length in Hlr.
  destruct (part_nth 0 Hn) as (c0 & E0 & Hc0).
  destruct (row_ok S density 0 c0 HS Hc0 Hn) as (a0 & Ea0 & Ha0).
  assert (Ez : exists rest, combine (mx_members self) (map (fun k => Fin (pw (l false) k)) (seq 0 n)) =
                (c0, Fin (pw (l false) 0)) :: rest).
  { destruct (mx_members self) as [|c' cs]; [discriminate E0|]. injection E0 as ->.
    destruct n as [|m]; [lia|]. eexists; reflexivity. }
  destruct Ez as (rest & Ez). rewrite Ez in Er |- *.
  rewrite Ea0. cbn [bind]. rewrite (proj1 Ha0), Er. cbn [bind].
  destruct (stack_is r NaN (dims S g)) as (q & Eq & Hq & Hqe).
  { intros ->; cbn in Hlr; lia. }
  { intros a Ha. apply In_nth_error in Ha as (j & Hj).
    assert (Hjl : (j < n)%nat) by (rewrite <- Hlr; apply nth_error_Some; congruence).
    destruct (Hr j j) as (a' & Ea' & Ha'); [apply seq_nth_error; assumption|].
    rewrite Hj in Ea'; injection Ea' as <-. apply (proj1 Ha'). }
  exists q; split; [exact Eq|]. unfold stacked. rewrite Hlr in Hq. split; [exact Hq|].
  intros idx Hidx. apply inb_cons in Hidx as (k & idx' & -> & Hk & Hi'). cbn [hd tl].
  destruct (Hr k k) as (a' & Ea' & Ha'); [apply seq_nth_error; assumption|].
  rewrite (Hqe k a' idx' Ea'). apply (proj2 Ha'); assumption.
Qed.

(** ** light *)
Definition stk (a : arr num) (S : vset) (Q : nat -> joint) : Prop :=
  arr_is a (n :: dims S g) (fun idx => lg (marg g (Q (hd 0%nat idx)) S (rd S (tl idx)))).

Section Stages.
Context (Q : nat -> joint) (HQ : forall k, nonneg g (Q k)).

Ltac stage :=
  unfold stk; cbn [dims has_t has_v has_x has_z opt app with_t with_x with_z]; intros Ha;
  pose proof n_pos; pose proof (gg_t _ Hg); pose proof (gg_v _ Hg); pose proof (gg_x _ Hg);
  pose proof (gg_y _ Hg); pose proof (gg_z _ Hg);
  s_lse; eexists; split; [reflexivity|];
  eapply arr_is_ext; [eassumption|]; intros idx Hidx; cbn in Hidx; inb_inv; cbn;
  (erewrite lse_map_lg; [|intros ? ?; reflexivity|]);
  [ f_equal
  | intros sub Hsub; apply in_all_idx in Hsub; inb_inv; cbn; apply marg_nonneg; [unfold in_grid; cbn; auto 10|apply HQ] ].
Ltac done := repeat (rewrite sum_all_idx_cons; apply Sum_ext; intros); rewrite sum_all_idx_nil; cbn; reflexivity.

Lemma lse_t a S : has_t S = true -> stk a S Q -> exists r, logsumexp a [1]%Z = Ok r /\ stk r (with_t false S) Q.
Proof. destruct S as [[] [] [] []]; intros E; try discriminate E; stage; done. Qed.
Lemma lse_x a S : has_x S = true -> has_z S = true -> stk a S Q ->
  exists r, logsumexp a [-3; -2]%Z = Ok r /\ stk r (with_x false S) Q.
Proof.
  destruct S as [[] [] [] []]; intros E E'; try discriminate E; try discriminate E'; stage;
  match goal with |- _ = marg g ?P (with_x false ?S) ?i =>
    rewrite <- (marg_sum_x g P S i); done end.
Qed.
Lemma lse_z a S : has_z S = true -> stk a S Q ->
  exists r, logsumexp a [-1]%Z = Ok r /\ stk r (with_z false S) Q.
Proof.
  destruct S as [[] [] [] []]; intros E; try discriminate E; stage;
  match goal with |- _ = marg g ?P (with_z false ?S) ?i =>
    rewrite <- (marg_sum_z g P S i); done end.
Qed.
Lemma lse_members a S : stk a S Q -> exists r, logsumexp a [0]%Z = Ok r /\
  arr_is r (dims S g) (fun idx => lg (Sum n (fun k => marg g (Q k) S (rd S idx)))).
Proof. destruct S as [[] [] [] []]; stage; done. Qed.
End Stages.

(** the set of variables of the table the light is computed from *)
Definition start (S : vset) : vset := VSet true (has_v S) true true.

Lemma light_table S : lw_ok g (mixf (l (has_v S))) true ->
  exists a, (let with_v := has_v S in
  lw <- (if with_v then getitem [INew; IAll; INew; INew; INew; IAll] (light_weights (c_ssps (mx_cube self)))
         else getitem [INew; IAll; INew; INew; IAll] (light_weights (c_ssps (mx_cube self)))) ;;
  log_P_mw <- mix_mass_wtd self (if with_v then "tvxz" else "txz") false ;;
  log_P_lw <- bop nadd log_P_mw (amap nlog lw) ;;
  log_normalisation <- logsumexp_all log_P_lw ;;
  iop nsub log_P_lw log_normalisation) = Ok a /\ stk a (start S) (share g (l (has_v S)) true).
Proof.
  intros Hl. specialize (Hl eq_refl).
  assert (Hlw : arr_is (light_weights (c_ssps (mx_cube self))) [nt g; nz g]
   (fun idx => Fin (Lw g (hd 0%nat idx) (hd 0%nat (tl idx))))).
  { pose proof (co_ssps _ _ Hc) as Hs. split; [apply (so_lw_shp _ _ Hs)|].
    intros idx Hi; inb_inv. cbn. apply (so_lw _ _ Hs); assumption. }
  destruct (mass_wtd_ok (start S) false eq_refl) as (m & Em & Hm).
  change (has_v (start S)) with (has_v S) in Hm.
  assert (Hsn : forall lw k, lw_ok g (mixf (l (has_v S))) lw -> nonneg g (share g (l (has_v S)) lw k)) by (intros; apply share_nonneg; assumption).
  pose proof (len_any (has_v S)) as Hlen. set (ls := l (has_v S)) in *. clearbody ls.
  pose proof n_pos; pose proof (gg_t _ Hg); pose proof (gg_v _ Hg); pose proof (gg_x _ Hg);
  pose proof (gg_y _ Hg); pose proof (gg_z _ Hg).
  unfold stacked in Hm.
  assert (Hnn : forall k, nonneg g (share g ls false k)) by (intros; apply Hsn; discriminate).
  set (LQ := fun k => lit g (share g ls false k)).
  assert (HLn : forall k, nonneg g (LQ k)) by (intros; apply lit_nonneg; auto).
  set (N := total g (lit g (mass g (mixf ls)))) in *.
  assert (EN : N = Sum n (fun k => total g (LQ k))).
  { unfold N. rewrite lit_total, Hlen. apply Sum_ext; intros k _. rewrite <- total_scal. apply total_ext.
    intros t v x y z _ _ _ _ _. unfold LQ, lit, share. ring. }
  assert (Hsh : forall k S i, marg g (share g ls true k) S i = marg g (LQ k) S i / N).
  { intros k S0 i. unfold Rdiv. rewrite Rmult_comm, <- marg_scal.
    unfold marg. do 5 (apply over_ext_all; intros). unfold share at 1. fold N. unfold LQ, lit, share, Rdiv; ring. }
  assert (Htot : forall k B, Sum (nt g) (fun t => sum_if (has_v B) (nv g) 0 (fun v => Sum (nx g) (fun x => Sum (ny g) (fun y =>
     Sum (nz g) (fun z => marg g (LQ k) (VSet true (has_v B) true true) (Bin t v x y z)))))) = total g (LQ k)).
  { intros k B. rewrite <- (marg_total_sum g (LQ k) (VSet true (has_v B) true true) (Bin 0 0 0 0 0)). reflexivity. }
  Ltac light_tac Hsn Em Hm HLn EN Hsh Htot Hl LQ N B :=
    unfold start in *; cbn [has_v start] in *; cbn [name has_t has_v has_x has_z append] in Em;
    cbn [dims has_t has_v has_x has_z opt app] in Hm; rewrite Em; step1; cbn [bind]; s_map; s_bop;
    match goal with Hr : arr_is ?r (_ :: _) _ |- context [logsumexp_all ?r] =>
      let HL := fresh "HL" in
      assert (HL : stk r B LQ); [
        unfold stk; cbn [dims has_t has_v has_x has_z opt app]; entries;
        rewrite nlog_Fin, nadd_lg;
        [ f_equal; unfold LQ; rewrite marg_lit by reflexivity; cbn; field
        | apply div_pos_le; [apply marg_nonneg; [unfold in_grid; cbn; auto 10|apply Hsn; discriminate]|cbn; lra]
        | apply (gg_L _ Hg); assumption ]
      | clear Hr; unfold stk in HL; cbn [dims has_t has_v has_x has_z opt app] in HL; s_lseall;
        match goal with HT : arr_is ?r2 [] _ |- _ =>
          assert (HT' : arr_is r2 [] (fun _ => lg N));
          [ eapply arr_is_ext; [exact HT|]; intros ? ?;
            (erewrite lse_map_lg; [|intros ? ?; reflexivity|]);
            [ f_equal; rewrite EN, sum_all_idx_cons; apply Sum_ext; intros k Hk; rewrite <- (Htot k B);
              repeat (rewrite sum_all_idx_cons; apply Sum_ext; intros); rewrite sum_all_idx_nil; reflexivity
            | intros sub Hsub; apply in_all_idx in Hsub; inb_inv; cbn; apply marg_nonneg; [unfold in_grid; cbn; auto 10|apply HLn] ]
          | clear HT; s_iop; eexists; split; [reflexivity|]; unfold stk; cbn [dims has_t has_v has_x has_z opt app];
            entries; rewrite Hsh; apply nsub_lg; [|exact Hl];
            apply marg_nonneg; [unfold in_grid; cbn; auto 10|apply HLn] ]
        end ]
    end.
  destruct S as [st [] sx sz].
  - light_tac Hsn Em Hm HLn EN Hsh Htot Hl LQ N (VSet true true true true).
  - light_tac Hsn Em Hm HLn EN Hsh Htot Hl LQ N (VSet true false true true).
Qed.

Lemma has_t_name S : has_char "t" (name S) = has_t S.
Proof. destruct S as [[] [] [] []]; reflexivity. Qed.
Lemma has_v_name S : has_char "v" (name S) = has_v S.
Proof. destruct S as [[] [] [] []]; reflexivity. Qed.
Lemma has_x_name S : has_char "x" (name S) = has_x S.
Proof. destruct S as [[] [] [] []]; reflexivity. Qed.
Lemma has_z_name S : has_char "z" (name S) = has_z S.
Proof. destruct S as [[] [] [] []]; reflexivity. Qed.

(** the sums over age, position and metallicity of a light-weighted query *)
Definition light_sums (w : string) (a : arr num) : res (arr num) :=
  b <- (if has_char "t" w then Ok a else logsumexp a [1]%Z) ;;
  b <- (if has_char "x" w then Ok b else logsumexp b [-3; -2]%Z) ;;
  (if has_char "z" w then Ok b else logsumexp b [-1]%Z).

Lemma light_split w density : mix_light_wtd self w density =
  (a <- (let with_v := has_char "v" w in
  lw <- (if with_v then getitem [INew; IAll; INew; INew; INew; IAll] (light_weights (c_ssps (mx_cube self)))
         else getitem [INew; IAll; INew; INew; IAll] (light_weights (c_ssps (mx_cube self)))) ;;
  log_P_mw <- mix_mass_wtd self (if with_v then "tvxz" else "txz") false ;;
  log_P_lw <- bop nadd log_P_mw (amap nlog lw) ;;
  log_normalisation <- logsumexp_all log_P_lw ;;
  iop nsub log_P_lw log_normalisation) ;;
  b <- light_sums w a ;;
  if density then
    volume_element <- construct_volume_element (mx_cube self) w ;;
    iop nsub b (amap nlog volume_element)
  else Ok b).
Proof.
  unfold mix_light_wtd, light_sums. cbv zeta.
  destruct (if has_char "v" w then _ else _) as [lw|]; [|reflexivity]. cbn [bind].
  destruct (mix_mass_wtd self _ false) as [m|]; [|reflexivity]. cbn [bind].
  destruct (bop nadd m _) as [b|]; [|reflexivity]. cbn [bind].
  destruct (logsumexp_all b) as [q|]; [|reflexivity]. cbn [bind].
  destruct (iop nsub b q) as [d|]; [|reflexivity]. cbn [bind].
  destruct (if has_char "t" w then _ else _) as [e|]; [|reflexivity]. cbn [bind].
  destruct (if has_char "x" w then _ else _) as [k|]; [|reflexivity]. cbn [bind].
  reflexivity.
Qed.

Lemma light_sums_ok S a Q : (forall k, nonneg g (Q k)) -> stk a (start S) Q ->
  exists b, light_sums (name S) a = Ok b /\ stk b S Q.
Proof.
  intros HQ Ha. unfold light_sums. rewrite has_t_name, has_x_name, has_z_name.
  assert (H1 : exists b, (if has_t S then Ok a else logsumexp a [1]%Z) = Ok b /\ stk b (VSet (has_t S) (has_v S) true true) Q).
  { destruct (has_t S) eqn:E; [exists a; split; [reflexivity|exact Ha]|]. apply (lse_t Q HQ a (start S) eq_refl Ha). }
  destruct H1 as (b & Eb & Hb). rewrite Eb. cbn [bind].
  assert (H2 : exists d, (if has_x S then Ok b else logsumexp b [-3; -2]%Z) = Ok d /\ stk d (VSet (has_t S) (has_v S) (has_x S) true) Q).
  { destruct (has_x S) eqn:E; [exists b; split; [reflexivity|exact Hb]|].
    apply (lse_x Q HQ b (VSet (has_t S) (has_v S) true true) eq_refl eq_refl Hb). }
  destruct H2 as (d & Ed & Hd). rewrite Ed. cbn [bind].
  destruct (has_z S) eqn:E.
  - exists d; split; [reflexivity|]. destruct S; cbn in E; subst; exact Hd.
  - destruct (lse_z Q HQ d (VSet (has_t S) (has_v S) (has_x S) true) eq_refl Hd) as (e & Ee & He). exists e; split; [exact Ee|].
    destruct S; cbn in E; subst; exact He.
Qed.

Lemma light_wtd_ok S density : nonempty S = true -> lw_ok g (mixf (l (has_v S))) true ->
  exists a, mix_light_wtd self (name S) density = Ok a /\ stacked a S (share g (l (has_v S)) true) (dens g density S).
Proof.
  intros HS Hl. rewrite light_split, has_v_name.
  destruct (light_table S Hl) as (a & Ea & Ha). cbv zeta in Ea |- *. rewrite Ea. cbn [bind]. clear Ea.
  destruct (light_sums_ok S a (share g (l (has_v S)) true)) as (b & Eb & Hb).
  { intros; apply share_nonneg; assumption. }
  { exact Ha. }
  rewrite Eb. cbn [bind].
  destruct density.
  - destruct (vol_ok _ _ Hc Hg S HS) as (va & Ev & Hva). rewrite Ev. cbn [bind].
    assert (Hnn : forall k i, in_grid g i -> 0 <= marg g (share g (l (has_v S)) true k) S i)
      by (intros; apply marg_nonneg; [assumption|apply share_nonneg; assumption]).
    pose proof (fun i => vol_pos g S i Hg) as Hvpos. pose proof (vol_pt _ _ Hc Hg S) as Hvp.
    pose proof (fun idx => rd_in_grid S g idx Hg) as Hrd.
    clear Ev Eb Ha HS Hl. set (ls := l (has_v S)) in *. clearbody ls. unfold stk, stacked, dens in *. s_map.
    destruct S as [[] [] [] []];
    cbn [dims has_t has_v has_x has_z opt app pt nt nv nx ny nz] in *;
    s_iop; (eexists; split; [reflexivity|]);
    eapply arr_is_ext; try eassumption; intros idx Hidx;
    apply inb_cons in Hidx as (k & idx' & -> & Hk & Hi'); specialize (Hrd _ Hi'); inb_inv; ones;
    cbn [hd tl] in *; cbn in Hrd; cbn; picks; cbn;
    match goal with |- nsub (lg ?m) (nlog (Fin (vol g ?S ?b0))) = lg (_ / vol g ?S ?b) =>
      replace (vol g S b0) with (vol g S b) by (rewrite <- (Hvp b Hrd); reflexivity);
      rewrite nlog_Fin, nsub_lg by auto; reflexivity end.
  - exists b; split; [reflexivity|]. unfold stacked, stk in *. eapply arr_is_ext; [exact Hb|].
    intros; cbn. f_equal. field.
Qed.

(** the marginal queries *)
Lemma stacked_collapse a S lw density : lw_ok g (mixf (l (has_v S))) lw ->
  stacked a S (share g (l (has_v S)) lw) (dens g density S) ->
  exists r, logsumexp a [0]%Z = Ok r /\
    arr_is r (dims S g) (fun idx => lg (marg g (prob g (mixf (l (has_v S))) lw) S (rd S idx) / dens g density S (rd S idx))).
Proof.
  intros Hl Ha. unfold stacked in Ha.
  assert (Hnn : forall k i, in_grid g i -> 0 <= marg g (share g (l (has_v S)) lw k) S i)
      by (intros; apply marg_nonneg; [assumption|apply share_nonneg; assumption]).
  assert (Hms : forall i, in_grid g i -> marg g (prob g (mixf (l (has_v S))) lw) S i = Sum n (fun k => marg g (share g (l (has_v S)) lw k) S i))
    by (intros i Hi; rewrite <- (len_any (has_v S)); apply marg_share; assumption).
  pose proof (fun i => dens_pos g Hg density S i) as Hd. pose proof (fun idx => rd_in_grid S g idx Hg) as Hrd.
  pose proof n_pos; pose proof (gg_t _ Hg); pose proof (gg_v _ Hg); pose proof (gg_x _ Hg);
  pose proof (gg_y _ Hg); pose proof (gg_z _ Hg). set (ls := l (has_v S)) in *. clearbody ls. clear Hl.
  destruct S as [[] [] [] []]; cbn [dims has_t has_v has_x has_z opt app pt nt nv nx ny nz] in *; s_lse;
  (eexists; split; [reflexivity|]);
  (eapply arr_is_ext; [eassumption|]; intros idx Hidx; specialize (Hrd _ Hidx); inb_inv; cbn in *;
  (erewrite lse_map_lg; [|intros ? ?; reflexivity|]);
  [ f_equal; rewrite Hms by assumption; unfold Rdiv; rewrite <- Sum_scal_r, sum_all_idx_cons; apply Sum_ext; intros;
    rewrite sum_all_idx_nil; reflexivity
  | intros sub Hsub; apply in_all_idx in Hsub; inb_inv; cbn; apply div_pos_le; auto ]).
Qed.

Lemma mix_marginal_ok S collapse density lw : nonempty S = true -> lw_ok g (mixf (l (has_v S))) lw ->
  exists a, mix_marginal self (name S) collapse density lw = Ok a /\
    if collapse then arr_is a (dims S g) (fun idx => lg (marg g (prob g (mixf (l (has_v S))) lw) S (rd S idx) / dens g density S (rd S idx)))
    else stacked a S (share g (l (has_v S)) lw) (dens g density S).
Proof.
  intros HS Hl. unfold mix_marginal.
  assert (HE : exists a, (if lw then mix_light_wtd self (name S) density else mix_mass_wtd self (name S) density) = Ok a /\
     stacked a S (share g (l (has_v S)) lw) (dens g density S)).
  { destruct lw; [apply light_wtd_ok|apply mass_wtd_ok]; assumption. }
  destruct HE as (a & E & Ha). rewrite E. cbn [bind].
  destruct collapse; [apply stacked_collapse; assumption|]. exists a; split; [reflexivity|exact Ha].
Qed.
End Mix.
