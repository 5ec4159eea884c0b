(** * NormalLClaims: L-moments of histograms and excess L-moments. *)
From Coq Require Import Reals Lra Lia List Bool Arith ZArith String Psatz.
From Verif Require Import Num NumLemmas Arr ArrLemmas PyStr Cube Base Ssps Spec SpecLemmas Repr CubeLemmas CubeGeom
  BaseLemmas CondLemmas DistLemmas Moments MomArr MomSpec MomLemmas MomLemmas2 MomLemmas3 MomLemmas5 LMom MomClaims FourierLemmas
  GaussSpec GaussLemmas NormalL NormalLSpec QuantLemmas NormalLLemmas.
Import ListNotations.
Local Open Scope R_scope.

(** how far the trapezoid rule is from the integral, in one bin *)
Definition bias (order : nat) (a b u v : R) : R :=
  match order with
  | 1%nat => 0
  | 2%nat => (b - a) * (v - u) ^ 2 / 3
  | _ => (v - u) ^ 2 * (b - a) * (u + v - 1) + (v - u) ^ 3 * ((a + b) / 2)
  end.
Lemma trap_bias order a b u v : (1 <= order <= 3)%nat -> u <= v ->
  exists I, integral (fun w => line a b u v w * lweight order w) u v I /\
    (a * lweight order u + b * lweight order v) / 2 * (v - u) = I + bias order a b u v.
Proof.
  intros Ho Huv. set (s := (b - a) / (v - u)). set (A := a - u * s).
  assert (S0 : u = v \/ (s * (v - u) = b - a)).
  { destruct (Req_dec u v); [left; assumption|right]. unfold s. field. lra. }
  assert (J : order = 1%nat \/ order = 2%nat \/ order = 3%nat) by lia. destruct J as [->|[->| ->]]; cbn [lweight bias].
  - eexists; split.
    + eapply integral_ext; [|apply (poly_int u v A s 0 0 Huv)]. intros w. unfold line. fold s. unfold A. ring.
    + unfold A. destruct S0 as [->|S0]; [field|]. replace b with (a + s * (v - u)) by lra. field.
  - eexists; split.
    + eapply integral_ext; [|apply (poly_int u v (- A) (2 * A - s) (2 * s) 0 Huv)]. intros w. unfold line. fold s. unfold A. ring.
    + unfold A. destruct S0 as [->|S0]; [field|]. replace b with (a + s * (v - u)) by lra. field.
  - eexists; split.
    + eapply integral_ext; [|apply (poly_int u v A (s - 6 * A) (6 * A - 6 * s) (6 * s) Huv)]. intros w. unfold line. fold s. unfold A. ring.
    + unfold A. destruct S0 as [->|S0]; [field|]. replace b with (a + s * (v - u)) by lra. field.
Qed.

Lemma choice_below n (Q : nat -> R -> Prop) : (forall k, (k < n)%nat -> exists x, Q k x) ->
  exists f : nat -> R, forall k, (k < n)%nat -> Q k (f k).
Proof.
  induction n as [|n IH]; intros H; [exists (fun _ => 0); intros; lia|].
  destruct IH as (f & Hf); [intros; apply H; lia|]. destruct (H n) as (x & Hx); [lia|].
  exists (fun k => if Nat.eqb k n then x else f k). intros k Hk. destruct (Nat.eqb_spec k n) as [->|]; [assumption|]. apply Hf; lia.
Qed.

Lemma l_moment_unique g P k C i order M M' : is_l_moment g P k C i order M -> is_l_moment g P k C i order M' -> M = M'.
Proof.
  intros (I & HI & ->) (J & HJ & ->). apply Sum_ext. intros n Hn. eapply integral_unique; [apply HI|apply HJ]; assumption.
Qed.

Section Obj.
Context (o : obj) (g : grid) (P : joint) (lw : bool).
Context (Hc : cube_on (o_cube o) g) (Hg : good_grid g) (HP : nonneg g P).
Context (k : coord) (C : vset).
Context (Hk : is_x k = false) (HD : disjoint (cvar k) C = true) (HG : gives o g P lw (cvar k) C).

Lemma cdf_bin i n : cdf g P k C i (S n) = cdf g P k C i n + bin_prob g P k C i n.
Proof. unfold bin_prob. rewrite at_cset. apply cdf_S. Qed.

Lemma Ldisp_pos i : in_grid g i -> 0 < marg g P C i -> 0 < Ldisp g P k C i.
Proof.
  intros Hi Hm.
  assert (B : forall n, (n < cn g k)%nat -> 0 <= cdf g P k C i n <= cdf g P k C i (S n) /\ cdf g P k C i (S n) <= 1).
  { intros n Hn. pose proof (cdf_nonneg g P HP k C i n Hi Hm ltac:(lia)) as F0. pose proof (cdf_step g P HP k C i n Hi Hm Hn) as F1.
    pose proof (cdf_le1 g P HP k C Hk HD i (cn g k - S n) Hi Hm ltac:(lia)) as F2. replace (cn g k - (cn g k - S n))%nat with (S n) in F2 by lia. lra. }
  assert (W : forall n, (n < cn g k)%nat -> 0 < wid (cedge g k) n).
  { intros n Hn. unfold wid. pose proof (gg_tE _ Hg n). pose proof (gg_vE _ Hg n). pose proof (gg_zE _ Hg n).
    destruct k; try discriminate Hk; cbn in *; intuition lra. }
  destruct (Classical_Prop.classic (exists n, (n < cn g k)%nat /\ cdf g P k C i n < cdf g P k C i (S n))) as [(n & Hn & Hlt)|Hno].
  - unfold Ldisp. apply (Sum_pos (cn g k) _ n Hn).
    + intros m Hmn. pose proof (B m Hmn). pose proof (W m Hmn). apply Rmult_le_pos; [lra|]. nra.
    + cbv beta. pose proof (B n Hn). pose proof (W n Hn). apply Rmult_lt_0_compat; [assumption|]. nra.
  - exfalso. assert (K : forall n, (n <= cn g k)%nat -> cdf g P k C i n = 0).
    { induction n as [|n IH]; intros Hn; [reflexivity|]. pose proof (B n ltac:(lia)) as BB. specialize (IH ltac:(lia)).
      destruct (Rlt_dec (cdf g P k C i n) (cdf g P k C i (S n))) as [Hlt|]; [|lra]. exfalso. apply Hno. exists n. split; [lia|assumption]. }
    pose proof (cdf_n g P k C Hk HD i Hm) as N1. rewrite K in N1 by lia. lra.
Qed.

Lemma normalised_ok j :
  exists m, get_normalised_l_moment o (dname (cvar k) C) (S j) lw = Ok m /\ shp m = dims C g /\
    forall i, in_grid g i ->
      (0 < marg g P C i -> ent m (coords C i) = Fin (Ltrap g P k C j i / Ldisp g P k C i)) /\
      (marg g P C i = 0 -> ent m (coords C i) = NaN).
Proof.
  destruct (l_moment_ok o g P lw Hc Hg k C Hk HD HG 1) as (d & Ed & Hds & Hde).
  destruct (l_moment_ok o g P lw Hc Hg k C Hk HD HG j) as (l & El & Hls & Hle).
  unfold get_normalised_l_moment, get_l_dispersion. rewrite Ed; cbn [bind]. rewrite El; cbn [bind].
  destruct (bop_same_is ndiv l d _ Hls Hds) as (m & Em & Hms & Hme). exists m. split; [exact Em|]. split; [exact Hms|].
  intros i Hi. rewrite Hme by (apply coords_inb; assumption). destruct (Hde i Hi) as [D1 D2]. destruct (Hle i Hi) as [L1 L2]. split; intros Hm.
  - rewrite D1, L1 by assumption. rewrite (Ltrap_disp g P k C Hk HD i Hm). pose proof (Ldisp_pos i Hi Hm). rewrite ndiv_Fin by lra. reflexivity.
  - rewrite L2 by assumption. reflexivity.
Qed.

Lemma Ltrap_true order i : (1 <= order <= 3)%nat -> in_grid g i -> 0 < marg g P C i ->
  exists M, is_l_moment g P k C i order M /\
    Ltrap g P k C (order - 1) i = M + Sum (cn g k) (fun n => bias order (cedge g k n) (cedge g k (S n)) (cdf g P k C i n) (cdf g P k C i (S n))).
Proof.
  intros Ho Hi Hm. set (F := cdf g P k C i). set (e := cedge g k).
  destruct (choice_below (cn g k) (fun n x => integral (fun w => line (e n) (e (S n)) (F n) (F (S n)) w * lweight order w) (F n) (F (S n)) x /\
    (e n * lweight order (F n) + e (S n) * lweight order (F (S n))) / 2 * (F (S n) - F n) = x + bias order (e n) (e (S n)) (F n) (F (S n)))) as (I & HI).
  { intros n Hn. apply trap_bias; [assumption|]. apply (cdf_step g P HP k C i n Hi Hm Hn). }
  exists (Sum (cn g k) I). split.
  - exists I. split; [intros n Hn; apply (HI n Hn)|reflexivity].
  - unfold Ltrap, trap. cbv zeta. rewrite <- Sum_plus. apply Sum_ext. intros n Hn. fold F e. rewrite !legendre_weight by lia. apply (HI n Hn).
Qed.

Lemma excess_ok q j : normal_quantile q ->
  exists r m x, get_normalised_l_moment_normal q (S j) = Ok (Fin r) /\ (Nat.Odd (S j) -> r = 0) /\ (S j = 2%nat -> r = 1) /\
    get_normalised_l_moment o (dname (cvar k) C) (S j) lw = Ok m /\ get_excess_l_moment q o (dname (cvar k) C) (S j) lw = Ok x /\
    shp m = dims C g /\ shp x = dims C g /\
    forall i, in_grid g i ->
      (0 < marg g P C i -> exists y, ent m (coords C i) = Fin y /\ ent x (coords C i) = Fin (y - r) /\ (S j = 2%nat -> y = 1)) /\
      (marg g P C i = 0 -> ent m (coords C i) = NaN /\ ent x (coords C i) = NaN).
Proof.
  intros Hq. destruct (normal_finite q Hq j) as (l & El & L0 & L1). destruct (normal_finite q Hq 1) as (l2 & El2 & _ & L2). specialize (L2 eq_refl).
  assert (ER : get_normalised_l_moment_normal q (S j) = Ok (Fin (l / l2))).
  { unfold get_normalised_l_moment_normal. rewrite El; cbn [bind]. rewrite El2; cbn [bind]. rewrite ndiv_Fin by lra. reflexivity. }
  destruct (normalised_ok j) as (m & Em & Hms & Hme).
  destruct (bop_is nsub m (scal (Fin (l / l2))) _ _ _ _ (dims C g) (self_is m _ Hms) (scal_is (Fin (l / l2)))) as (x & Ex & Hxs & Hxe).
  { apply bshape_nil_r. }
  exists (l / l2), m, x. split; [exact ER|].
  split; [intros Ev; apply Nat.Odd_succ in Ev; rewrite L0 by assumption; unfold Rdiv; ring|].
  split; [intros E; injection E as ->; rewrite El in El2; injection El2 as ->; field; lra|].
  split; [exact Em|]. split; [unfold get_excess_l_moment; rewrite Em; cbn [bind]; rewrite ER; cbn [bind]; exact Ex|].
  split; [exact Hms|]. split; [exact Hxs|]. intros i Hi. assert (Hb : inb (coords C i) (dims C g)) by (apply coords_inb; assumption).
  rewrite Hxe by assumption. rewrite bidx_self by assumption. destruct (Hme i Hi) as [M1 M2]. split; intros Hm.
  - exists (Ltrap g P k C j i / Ldisp g P k C i). split; [auto|]. rewrite M1 by assumption. rewrite nsub_Fin. split; [reflexivity|].
    intros E; injection E as ->. rewrite (Ltrap_disp g P k C Hk HD i Hm). pose proof (Ldisp_pos i Hi Hm). field. lra.
  - rewrite M2 by assumption. split; reflexivity.
Qed.
Lemma bin_nonneg i n : in_grid g i -> 0 < marg g P C i -> (n < cn g k)%nat -> 0 <= bin_prob g P k C i n.
Proof. intros Hi Hm Hn. pose proof (cdf_step g P HP k C i n Hi Hm Hn). rewrite cdf_bin in *. lra. Qed.
Lemma wid_k n : (n < cn g k)%nat -> 0 < wid (cedge g k) n.
Proof.
  intros Hn. unfold wid. pose proof (gg_tE _ Hg n). pose proof (gg_vE _ Hg n). pose proof (gg_zE _ Hg n).
  destruct k; try discriminate Hk; cbn in *; intuition lra.
Qed.
Lemma some_bin i : in_grid g i -> 0 < marg g P C i -> exists n, (n < cn g k)%nat /\ 0 < bin_prob g P k C i n.
Proof.
  intros Hi Hm. destruct (Classical_Prop.classic (exists n, (n < cn g k)%nat /\ 0 < bin_prob g P k C i n)) as [H|H]; [exact H|exfalso].
  pose proof (cdf_n g P k C Hk HD i Hm) as N1.
  assert (K : forall n, (n <= cn g k)%nat -> cdf g P k C i n = 0); [|rewrite K in N1 by lia; lra].
  induction n as [|n IH]; intros Hn; [reflexivity|]. rewrite cdf_bin, IH by lia.
  pose proof (bin_nonneg i n Hi Hm ltac:(lia)). destruct (Rlt_dec 0 (bin_prob g P k C i n)); [|lra].
  exfalso. apply H. exists n. split; [lia|assumption].
Qed.

Lemma hist_ok :
  exists a b c, get_l_mean o (dname (cvar k) C) lw = Ok a /\ get_l_dispersion o (dname (cvar k) C) lw = Ok b /\
    get_l_moment o (dname (cvar k) C) 3 lw = Ok c /\ shp a = dims C g /\ shp b = dims C g /\ shp c = dims C g /\
    forall i, in_grid g i ->
      let p := bin_prob g P k C i in let w := wid (cedge g k) in let F := cdf g P k C i in
      let extra2 := Sum (cn g k) (fun n => w n * p n ^ 2 / 3) in
      let extra3 := Sum (cn g k) (fun n => p n ^ 2 * w n * (F n + F (S n) - 1) + p n ^ 3 * mid (cedge g k) n) in
      (0 < marg g P C i -> exists M1 M2 M3,
         is_l_moment g P k C i 1 M1 /\ is_l_moment g P k C i 2 M2 /\ is_l_moment g P k C i 3 M3 /\
         ent a (coords C i) = Fin M1 /\ ent b (coords C i) = Fin (M2 + extra2) /\ ent c (coords C i) = Fin (M3 + extra3) /\
         0 < extra2) /\
      (marg g P C i = 0 -> ent a (coords C i) = NaN /\ ent b (coords C i) = NaN /\ ent c (coords C i) = NaN).
Proof.
  destruct (l_moment_ok o g P lw Hc Hg k C Hk HD HG 0) as (a & Ea & Has & Hae).
  destruct (l_moment_ok o g P lw Hc Hg k C Hk HD HG 1) as (b & Eb & Hbs & Hbe).
  destruct (l_moment_ok o g P lw Hc Hg k C Hk HD HG 2) as (c & Ec & Hcs & Hce).
  exists a, b, c. repeat (split; [assumption|]). intros i Hi p w F e2 e3.
  destruct (Hae i Hi) as [A1 A2]. destruct (Hbe i Hi) as [B1 B2]. destruct (Hce i Hi) as [C1 C2]. split; intros Hm; [|auto].
  destruct (Ltrap_true 1 i ltac:(lia) Hi Hm) as (M1 & I1 & T1). destruct (Ltrap_true 2 i ltac:(lia) Hi Hm) as (M2 & I2 & T2).
  destruct (Ltrap_true 3 i ltac:(lia) Hi Hm) as (M3 & I3 & T3). cbn [Nat.sub] in T1, T2, T3.
  exists M1, M2, M3. repeat (split; [assumption|]).
  split; [rewrite A1, T1 by assumption; f_equal; cbn [bias]; rewrite Sum_0; ring|].
  split; [rewrite B1, T2 by assumption; f_equal; f_equal; apply Sum_ext; intros n Hn; cbn [bias]; unfold w, p, wid; rewrite cdf_bin; field|].
  split; [rewrite C1, T3 by assumption; f_equal; f_equal; apply Sum_ext; intros n Hn; cbn [bias]; unfold w, p, F, wid, mid; rewrite cdf_bin; field|].
  destruct (some_bin i Hi Hm) as (n & Hn & Hp). unfold e2. apply (Sum_pos (cn g k) _ n Hn).
  - intros j Hj. pose proof (wid_k j Hj). assert (0 <= p j ^ 2) by apply pow2_ge_0. unfold w. nra.
  - pose proof (wid_k n Hn). fold p in Hp. assert (0 < p n ^ 2) by (apply pow_lt; assumption). cbv beta. unfold w.
    apply Rdiv_lt_0_compat; [|lra]. apply Rmult_lt_0_compat; assumption.
Qed.
End Obj.

(** ** the three classes of objects *)
Section Base.
Context (self : component) (g : grid) (f : joint) (lw : bool).
Context (H : comp_on self g f) (Hg : good_grid g) (Hf : nonneg g f) (Hl : lw_ok g f lw).
Context (k : coord) (C : vset) (HD : disjoint (cvar k) C = true)
  (HT : nonempty C = false -> total g (prob g f lw) = 1) (Hk : is_x k = false).
Let P := prob g f lw.
Let HG : gives (base_obj self) g P lw (cvar k) C := base_gives self g f lw (cvar k) C H Hg Hf Hl (cvar_nonempty k) HD HT.
Let Hc : cube_on (o_cube (base_obj self)) g := cm_cube _ _ _ H.
Let HP : nonneg g P := prob_nonneg g f lw Hg Hf Hl.
Definition base_hist := hist_ok (base_obj self) g P lw Hc Hg HP k C Hk HD HG.
Definition base_excess q j := excess_ok (base_obj self) g P lw Hc Hg HP k C Hk HD HG q j.
End Base.

(** ** moving the origin: the third L-moment *)
Lemma Ltrap3_shift k c g f lw C i : is_x k = false -> disjoint (cvar k) C = true -> 0 < marg g (prob g f lw) C i ->
  Ltrap (shift k c g) (prob (shift k c g) f lw) k C 2 i =
  Ltrap g (prob g f lw) k C 2 i + c * Sum (cn g k) (fun n => bin_prob g (prob g f lw) k C i n ^ 3).
Proof.
  intros Hk HD Hm. set (P := prob g f lw) in *. set (F := cdf g P k C i).
  assert (ES : forall n, cdf (shift k c g) (prob (shift k c g) f lw) k C i n = F n) by (intros n; apply cdf_shift; intros; apply prob_shift).
  unfold Ltrap, trap. cbv zeta. replace (cn (shift k c g) k) with (cn g k) by (destruct k; reflexivity). fold F.
  set (G := fun n => c * (2 * F n ^ 3 - 3 * F n ^ 2 + F n)).
  transitivity (Sum (cn g k) (fun n => ((cedge g k n * legendre 2 (2 * F n - 1) + cedge g k (S n) * legendre 2 (2 * F (S n) - 1)) / 2 * (F (S n) - F n) +
     c * bin_prob g P k C i n ^ 3) + (G (S n) - G n))).
  - apply Sum_ext. intros n Hn. rewrite !ES. rewrite !(legendre_weight 3) by lia.
    replace (bin_prob g P k C i n) with (F (S n) - F n) by (unfold F; rewrite cdf_bin; ring).
    replace (cedge (shift k c g) k n) with (cedge g k n + c) by (destruct k; try discriminate Hk; reflexivity).
    replace (cedge (shift k c g) k (S n)) with (cedge g k (S n) + c) by (destruct k; try discriminate Hk; reflexivity).
    cbn [lweight]. unfold G. field.
  - rewrite Sum_plus, Sum_telescope, Sum_plus, Sum_scal. unfold G.
    assert (F1 : F (cn g k) = 1) by (apply cdf_n; assumption). assert (F0 : F 0%nat = 0) by reflexivity. rewrite F1, F0. ring.
Qed.
Lemma l3_shift_claim self self' g f lw k c C :
  comp_on self g f -> comp_on self' (shift k c g) f -> good_grid g -> nonneg g f -> lw_ok g f lw ->
  is_x k = false -> disjoint (cvar k) C = true -> (nonempty C = false -> total g (prob g f lw) = 1) ->
  exists a b, get_l_moment (base_obj self) (dname (cvar k) C) 3 lw = Ok a /\
    get_l_moment (base_obj self') (dname (cvar k) C) 3 lw = Ok b /\ shp a = shp b /\
    forall i, in_grid g i -> 0 < marg g (prob g f lw) C i ->
      exists l, ent a (coords C i) = Fin l /\
        ent b (coords C i) = Fin (l + c * Sum (cn g k) (fun n => bin_prob g (prob g f lw) k C i n ^ 3)) /\
        0 < Sum (cn g k) (fun n => bin_prob g (prob g f lw) k C i n ^ 3).
Proof.
  intros H H' Hg Hf Hl Hk HD HT.
  assert (Hg' : good_grid (shift k c g)).
  { destruct Hg. constructor; auto; intros j Hj; destruct k; cbn in *;
    repeat match goal with X : increasing _ _ |- _ => specialize (X j) end; intuition lra. }
  assert (Hf' : nonneg (shift k c g) f) by exact Hf.
  assert (Hl' : lw_ok (shift k c g) f lw).
  { intros E. specialize (Hl E). erewrite total_eq_fun; [exact Hl|reflexivity..|]. intros. unfold lit. rewrite mass_shift. reflexivity. }
  assert (HT' : nonempty C = false -> total (shift k c g) (prob (shift k c g) f lw) = 1).
  { intros E. rewrite <- (HT E). apply total_eq_fun; try reflexivity. intros; apply prob_shift. }
  pose proof (base_gives self g f lw (cvar k) C H Hg Hf Hl (cvar_nonempty k) HD HT) as HG.
  pose proof (base_gives self' (shift k c g) f lw (cvar k) C H' Hg' Hf' Hl' (cvar_nonempty k) HD HT') as HG'.
  destruct (l_moment_ok (base_obj self) g _ lw (cm_cube _ _ _ H) Hg k C Hk HD HG 2) as (a & Ea & Has & Hae).
  destruct (l_moment_ok (base_obj self') _ _ lw (cm_cube _ _ _ H') Hg' k C Hk HD HG' 2) as (b & Eb & Hbs & Hbe).
  exists a, b. do 2 (split; [assumption|]). split; [rewrite Has, Hbs; destruct C as [[] [] [] []]; reflexivity|].
  intros i Hi Hm. destruct (Hae i Hi) as [A1 _]. destruct (Hbe i Hi) as [B1 _].
  rewrite (marg_shift k c g (prob g f lw)) in B1 by (intros; apply prob_shift).
  eexists. split; [apply A1; assumption|]. split; [rewrite B1 by assumption; f_equal; apply Ltrap3_shift; assumption|].
  destruct (some_bin g (prob g f lw) (prob_nonneg g f lw Hg Hf Hl) k C Hk HD i Hi Hm) as (n & Hn & Hp).
  apply (Sum_pos (cn g k) _ n Hn); [|apply pow_lt; assumption].
  intros j Hj. apply pow_le. apply (bin_nonneg g _ (prob_nonneg g f lw Hg Hf Hl) k C i j Hi Hm Hj).
Qed.
Lemma normal_claim q : normal_quantile q ->
  get_l_moment_normal q 0 = Err ValueError /\
  (forall j, Nat.Odd j -> get_l_moment_normal q j = Ok (Fin 0)) /\
  (exists l, get_l_moment_normal q 2 = Ok (Fin l) /\ 0 < l) /\
  get_normalised_l_moment_normal q 2 = Ok (Fin 1) /\
  (forall j, (0 < j)%nat -> exists l, get_l_moment_normal q j = Ok (Fin l)) /\
  (forall j, (1 <= j <= 4)%nat -> exists N, INR N = 99999 /\
     let s := midpoint_sum q N j in
     (Rabs s <= 1 / 100000000 -> get_l_moment_normal q j = Ok (Fin 0)) /\
     (1 / 100000000 < Rabs s -> get_l_moment_normal q j = Ok (Fin s))).
Proof.
  intros Hq. split; [reflexivity|]. destruct (normal_finite q Hq 1) as (l & El & _ & L1). specialize (L1 eq_refl).
  split; [|split; [|split; [|split; [|exact (normal_value q)]]]].
  - intros [|j] Hj; [destruct Hj as [h Hh]; lia|]. destruct (normal_finite q Hq j) as (x & Ex & X0 & _).
    rewrite X0 in Ex by (apply Nat.Odd_succ; assumption). exact Ex.
  - exists l. split; assumption.
  - unfold get_normalised_l_moment_normal. rewrite El; cbn [bind]. rewrite ndiv_Fin by lra. do 2 f_equal. field. lra.
  - intros [|j] Hj; [lia|]. destruct (normal_finite q Hq j) as (x & Ex & _). exists x. exact Ex.
Qed.
