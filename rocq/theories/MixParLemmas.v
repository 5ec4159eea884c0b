(** * MixParLemmas: base and parametric components as members of mixtures. *)
From Coq Require Import Reals Lra Lia List Bool Arith ZArith String Ascii.
From Verif Require Import Num NumLemmas Arr ArrLemmas PyStr StrLemmas Cube Base Spec SpecLemmas Repr CubeLemmas CondLemmas
  DistLemmas Moments MomSpec MomClaims Parametric ParSpec ParRepr ParLemmas ParDist ParMoments GaussSpec ParMomSpec ParMomClaims ParMomOther
  Mixture MixSpec MixGen MixLemmas MixCond MixMom MixParSpec.
Import ListNotations.
Local Open Scope R_scope.

(** densities for MixGen *)
Definition kdens (g : grid) (k : kind) (b : bool) : joint :=
  match k with
  | KBase f => f
  | KPar m => fun t v x y z => par_joint g m false b t v x y z /
      (wid (tE g) t * wid (vE g) v * wid (xE g) x * wid (yE g) y * wid (zE g) z)
  end.
Definition kl (g : grid) (l : kinds) (b : bool) : parts := map (fun q => (kdens g (fst q) b, snd q)) l.

Lemma lit_ext g P Q : joint_eq g P Q -> joint_eq g (lit g P) (lit g Q).
Proof. intros E t v x y z Ht Hv Hx Hy Hz. unfold lit. rewrite E by assumption. reflexivity. Qed.
Lemma weighted_ext g lw P Q : joint_eq g P Q -> joint_eq g (weighted g lw P) (weighted g lw Q).
Proof.
  intros E t v x y z Ht Hv Hx Hy Hz. destruct lw; [|apply E; assumption]. unfold weighted, light.
  rewrite (total_ext g _ _ (lit_ext g _ _ E)). f_equal. apply (lit_ext g _ _ E); assumption.
Qed.
Lemma lit_ok_ext g P Q lw : joint_eq g P Q -> lit_ok g P lw -> lit_ok g Q lw.
Proof. intros E H Hl. rewrite <- (total_ext g _ _ (lit_ext g _ _ E)). apply H; assumption. Qed.

Section Grid.
Context (g : grid) (Hg : good_grid g).

Lemma mass_kdens k b : joint_eq g (mass g (kdens g k b)) (kmass g k b).
Proof.
  intros t v x y z Ht Hv Hx Hy Hz. destruct k as [f|m]; [reflexivity|]. cbn [kdens kmass]. unfold mass.
  pose proof (wid_pos _ _ t (gg_tE _ Hg) Ht). pose proof (wid_pos _ _ v (gg_vE _ Hg) Hv). pose proof (wid_pos _ _ x (gg_xE _ Hg) Hx).
  pose proof (wid_pos _ _ y (gg_yE _ Hg) Hy). pose proof (wid_pos _ _ z (gg_zE _ Hg) Hz). field. repeat split; lra.
Qed.
Lemma len_kl l b : List.length (kl g l b) = List.length l.
Proof. apply map_length. Qed.
Lemma pw_kl l b q : pw (kl g l b) q = kw l q.
Proof.
  unfold pw, kw, kl. destruct (Nat.lt_ge_cases q (List.length l)) as [Hq|Hq].
  - rewrite (nth_indep _ _ ((fun p => (kdens g (fst p) b, snd p)) (KBase (fun _ _ _ _ _ => 0), 0))) by (rewrite map_length; assumption).
    rewrite (map_nth (fun p => (kdens g (fst p) b, snd p))). reflexivity.
  - rewrite !nth_overflow by (try rewrite map_length; assumption). reflexivity.
Qed.
Lemma pf_kl l b q : (q < List.length l)%nat -> pf (kl g l b) q = kdens g (kk l q) b.
Proof.
  intros Hq. unfold pf, kk, kl.
  rewrite (nth_indep _ _ ((fun p => (kdens g (fst p) b, snd p)) (KBase (fun _ _ _ _ _ => 0), 0))) by (rewrite map_length; assumption).
  rewrite (map_nth (fun p => (kdens g (fst p) b, snd p))). reflexivity.
Qed.
Lemma mass_mix l b : joint_eq g (mass g (mixf (kl g l b))) (kmix g l b).
Proof.
  intros t v x y z Ht Hv Hx Hy Hz. rewrite (mass_mixf g (kl g l b)) by assumption. unfold kmix. rewrite len_kl.
  apply Sum_ext; intros q Hq. rewrite pw_kl, pf_kl by assumption. rewrite mass_kdens by assumption. reflexivity.
Qed.
Lemma prob_mix l b lw : joint_eq g (prob g (mixf (kl g l b)) lw) (weighted g lw (kmix g l b)).
Proof. exact (weighted_ext g lw _ _ (mass_mix l b)). Qed.
Lemma prob_kdens k b lw : joint_eq g (prob g (kdens g k b) lw) (weighted g lw (kmass g k b)).
Proof. exact (weighted_ext g lw _ _ (mass_kdens k b)). Qed.
Lemma share_mix l b lw q : (q < List.length l)%nat -> joint_eq g (share g (kl g l b) lw q) (kshare g l lw b q).
Proof.
  intros Hq t v x y z Ht Hv Hx Hy Hz. unfold share, kshare. rewrite pw_kl, pf_kl by assumption. destruct lw.
  - rewrite (total_ext g _ _ (lit_ext g _ _ (mass_mix l b))). unfold lit. rewrite mass_kdens by assumption. reflexivity.
  - rewrite mass_kdens by assumption. reflexivity.
Qed.

(** ** parametric members *)
Lemma joint_flat_total m : total (flat g) (lit (flat g) (pjoint g m false)) = total g (lit g (par_joint g m false false)).
Proof.
  unfold total, lit. cbn [flat nt nv nx ny nz Lw]. apply Sum_ext; intros t _.
  cbn [Sum]. rewrite Rplus_0_l.
  rewrite <- (Sum_first (nv g) (fun v => Sum (nx g) (fun x => Sum (ny g) (fun y => Sum (nz g) (fun z => pjoint g m false t v x y z * Lw g t z)))))
    by apply (gg_v _ Hg).
  apply Sum_ext; intros v _. destruct v as [|v]; [reflexivity|].
  unfold par_joint. symmetry. transitivity (Sum (nx g) (fun _ => 0)); [|apply Sum_0]. apply Sum_ext; intros x _.
  transitivity (Sum (ny g) (fun _ => 0)); [|apply Sum_0]. apply Sum_ext; intros y _.
  transitivity (Sum (nz g) (fun _ => 0)); [|apply Sum_0]. apply Sum_ext; intros z _. ring.
Qed.
Lemma par_lit_ok m lw b : lit_ok g (par_joint g m false b) lw <-> par_lw_ok g m lw b.
Proof.
  unfold lit_ok, par_lw_ok. destruct b; cbn [pgrid].
  - reflexivity.
  - rewrite joint_flat_total. reflexivity.
Qed.
Lemma weighted_par m lw b : joint_eq g (weighted g lw (par_joint g m false b)) (par_joint g m lw b).
Proof.
  intros t v x y z _ _ _ _ _. destruct lw; [|reflexivity]. unfold weighted, light. destruct b; [reflexivity|].
  rewrite <- joint_flat_total. unfold lit at 1. unfold par_joint, pprob, light, lit at 1. cbn [pgrid].
  destruct v as [|v]; [reflexivity|]. unfold Rdiv. ring.
Qed.
Lemma par_joint_dom m t x y z : good_par g m -> (t < nt g)%nat -> (x < nx g)%nat -> (y < ny g)%nat -> (z < nz g)%nat ->
  Sum (nv g) (fun v => par_joint g m false true t v x y z) <= Sum (nv g) (fun v => par_joint g m false false t v x y z).
Proof.
  intros Hm Ht Hx Hy Hz.
  assert (E : Sum (nv g) (fun v => par_joint g m false false t v x y z) = txz_mass g m t x y z).
  { transitivity (Sum (nv g) (fun v => match v with O => (fun _ => txz_mass g m t x y z) 0%nat | _ => 0 end)).
    - apply Sum_ext; intros [|v] _; [|reflexivity]. unfold par_joint, pprob, pjoint. ring.
    - exact (Sum_first (nv g) (fun _ => txz_mass g m t x y z) (gg_v _ Hg)). }
  rewrite E. unfold par_joint, pprob, pjoint. rewrite Sum_scal.
  pose proof (pjoint_nonneg g m false Hg Hm t 0%nat x y z Ht ltac:(cbn; lia) Hx Hy Hz) as Hp. unfold pjoint in Hp. rewrite Rmult_1_r in Hp.
  rewrite <- (Rmult_1_r (txz_mass g m t x y z)) at 2. apply Rmult_le_compat_l; [exact Hp|].
  unfold vbin. rewrite (Sum_telescope (nv g) (fun v => pm_F m ((vE g v - pm_mu m t x y) / pm_sig m t x y))).
  pose proof (gp_F _ _ Hm ((vE g (nv g) - pm_mu m t x y) / pm_sig m t x y)).
  pose proof (gp_F _ _ Hm ((vE g 0 - pm_mu m t x y) / pm_sig m t x y)). lra.
Qed.
End Grid.

Lemma kmass_nonneg mb g k b : good_grid g -> kind_on mb g k -> nonneg g (kdens g k b).
Proof.
  intros Hg Hk. destruct k as [f|m]; [destruct Hk as (c & _ & _ & Hn); exact Hn|].
  destruct Hk as (L & self & _ & _ & Hm). intros t v x y z Ht Hv Hx Hy Hz. cbn [kdens].
  apply div_pos_le; [apply (joint_nonneg g m false Hg Hm b); try assumption; discriminate|].
  repeat apply Rmult_lt_0_compat; eapply wid_pos; try eassumption;
    first [apply (gg_tE _ Hg)|apply (gg_vE _ Hg)|apply (gg_xE _ Hg)|apply (gg_yE _ Hg)|apply (gg_zE _ Hg)].
Qed.

(** probabilities of a parametric member *)
Lemma par_marg g m lw S i : good_grid g -> in_grid g i ->
  marg g (weighted g lw (par_joint g m false (has_v S))) S i = par_prob g m lw S i.
Proof.
  intros Hg Hi. rewrite <- (joint_marg g m lw Hg S i). apply marg_ext; [assumption|]. apply weighted_par; assumption.
Qed.

Lemma kind_member_on mb g k : good_grid g -> kind_on mb g k -> member_on mb g (kdens g k).
Proof.
  intros Hg Hk. pose proof (fun b => kmass_nonneg mb g k b Hg Hk) as Hn. destruct k as [f|m].
  - destruct Hk as (c & -> & Hc & Hf). exact (base_member_on c g f Hc Hg Hf).
  - destruct Hk as (L & self & -> & Hp & Hm).
    assert (EM : forall lw S i, in_grid g i -> marg g (prob g (kdens g (KPar m) (has_v S)) lw) S i = par_prob g m lw S i).
    { intros lw S i Hi. rewrite <- (par_marg g m lw S i Hg Hi). apply marg_ext; [assumption|]. exact (prob_kdens g Hg (KPar m) (has_v S) lw). }
    constructor.
    + exact Hn.
    + intros t x y z Ht Hx Hy Hz. pose proof (par_joint_dom g Hg m t x y z Hm Ht Hx Hy Hz) as HD.
      rewrite !(Sum_ext (nv g) (fun v => mass g (kdens g (KPar m) _) t v x y z) (fun v => par_joint g m false _ t v x y z)) by
        (intros v Hv; apply (mass_kdens g Hg (KPar m)); assumption). exact HD.
    + intros S density HS. destruct (par_marginal_ok L self g m Hp Hg Hm S density false HS ltac:(discriminate)) as (a & E & Ha).
      cbn [mb_table par_member]. unfold get_log_marginal in E. destruct (getattr_log_p (par_table L self) (name S)) as [f|]; [|discriminate].
      cbn [bind] in E. exists f, a. do 2 (split; [first [reflexivity|exact E]|]). eapply arr_is_ext; [exact Ha|].
      intros idx Hidx. cbn beta. f_equal. unfold pent. rewrite <- (EM false) by (apply rd_in_grid; assumption). reflexivity.
    + intros S density lw HS Hl. destruct (par_p_marg L self g m Hp Hg Hm S density lw HS) as (a & E & Hs & He).
      { apply (par_lit_ok g Hg m lw (has_v S)). exact (lit_ok_ext g _ _ lw (mass_kdens g Hg (KPar m) (has_v S)) Hl). }
      exists a. do 2 (split; [assumption|]). intros i Hi. rewrite He by assumption. unfold pent. rewrite EM by assumption. reflexivity.
Qed.

Lemma member_on_ext mb g f h : (forall b, f b = h b) -> member_on mb g f -> member_on mb g h.
Proof.
  intros E [H1 H2 H3 H4]. constructor.
  - intros b. rewrite <- E. auto.
  - intros. rewrite <- !E. auto.
  - intros S density HS. rewrite <- E. auto.
  - intros S density lw HS. rewrite <- E. auto.
Qed.

Lemma mixed_gen self g l : mixed_on self g l -> good_grid g -> mix_gen self g (kl g l).
Proof.
  intros H Hg. constructor.
  - apply (mp_cube _ _ _ H).
  - intros b. rewrite len_kl. apply (mp_len _ _ _ H).
  - intros b. rewrite (mp_weights _ _ _ H). unfold kl. rewrite map_map. reflexivity.
  - intros E. apply (mp_ne _ _ _ H). unfold kl in E. destruct l; [reflexivity|discriminate E].
  - intros b k Hk. rewrite len_kl in Hk. rewrite pw_kl. apply (mp_pos _ _ _ H); assumption.
  - intros k mb E. assert (Hk : (k < List.length l)%nat) by (rewrite <- (mp_len _ _ _ H); apply nth_error_Some; congruence).
    apply (member_on_ext mb g (kdens g (kk l k))); [intros b; symmetry; apply pf_kl; assumption|].
    apply kind_member_on; [assumption|]. apply (mp_member _ _ _ H); assumption.
Qed.
