(** * BinClaims: proofs for Props_Bin.v. *)
From Coq Require Import Reals Lra Lia List Bool Arith ZArith String.
From Verif Require Import Num NumLemmas Arr ArrLemmas PyStr ReadMiles MilesSpec MilesLemmas MilesLemmas2 MilesLemmas3 MilesClaims Bin.
Import ListNotations.
Local Open Scope R_scope.

Lemma Int_part_unique x z : IZR z <= x < IZR z + 1 -> Int_part x = z.
Proof.
  intros H. unfold Int_part. assert (E : (z + 1)%Z = up x); [|lia].
  apply tech_up; rewrite plus_IZR; lra.
Qed.
Lemma py_int_floor x z : 0 <= x -> IZR z <= x < IZR z + 1 -> py_int x = z.
Proof. intros Hx H. unfold py_int. rewrite (proj2 (Rltb_false x 0)) by lra. apply Int_part_unique; exact H. Qed.
Lemma py_int_small x : -1 < x < 1 -> py_int x = 0%Z.
Proof.
  intros H. unfold py_int. destruct (Rltb x 0) eqn:E.
  - apply Rltb_true in E. rewrite (Int_part_unique (- x) 0); [reflexivity|]. cbn; lra.
  - apply Rltb_false in E. apply Int_part_unique. cbn; lra.
Qed.
Lemma py_int_neg x : x <= -1 -> (py_int x < 0)%Z.
Proof.
  intros H. unfold py_int. rewrite (proj2 (Rltb_true x 0)) by lra.
  destruct (archimed (- x)) as [A B]. assert (1 < up (- x))%Z by (apply lt_IZR; lra). unfold Int_part. lia.
Qed.
Lemma Reqb_false' x y : x <> y -> Reqb x y = false.
Proof. intros H. destruct (Reqb x y) eqn:E; [|reflexivity]. apply Reqb_true in E. contradiction. Qed.

(** every factor whose integer part is k acts as k, but for k = 1 *)
Lemma floor_claim m x k : INR k <= x < INR k + 1 -> (k <> 1)%nat -> bin_any m x = bin_pixels m k.
Proof.
  intros H Hk. pose proof (pos_INR k) as Pk. unfold bin_any, bin_pixels.
  rewrite (py_int_floor x (Z.of_nat k)) by (try rewrite <- INR_IZR_INZ; lra).
  assert (Nx : x <> 1).
  { intros ->. destruct k as [|[|k]]; [cbn in H; lra|contradiction|]. rewrite !S_INR in H. pose proof (pos_INR k). lra. }
  rewrite (Reqb_false' _ _ Nx). rewrite (proj2 (Nat.eqb_neq k 1) Hk).
  destruct (get_X m) as [a|e]; cbn [bind]; [|reflexivity].
  destruct (shp a) as [|n [|p [|? ?]]]; try reflexivity.
  rewrite Nat2Z.id. destruct (Z.ltb_spec (Z.of_nat k) 0); [lia|].
  destruct (Z.eqb_spec (Z.of_nat k) 0) as [E|E], (Nat.eqb_spec k 0) as [E'|E']; try lia; reflexivity.
Qed.
Lemma naturals_bin_claim m k : bin_any m (INR k) = bin_pixels m k.
Proof.
  destruct (Nat.eq_dec k 1) as [->|Hk].
  - unfold bin_any, bin_pixels. rewrite (proj2 (Reqb_true (INR 1) 1)) by reflexivity. reflexivity.
  - apply floor_claim; [lra|exact Hk].
Qed.

Lemma between_claim m x n p X : spectra_are m n p X -> (0 < p)%nat -> 1 < x < 2 ->
  exists m', bin_any m x = Ok m' /\ lmd m' = [] /\ spectra_are m' 0 p (fun _ _ => 0).
Proof.
  intros (Hl & a & Hx & Hs & HX) Hp H. unfold bin_any, get_X. rewrite (Reqb_false' x 1) by lra.
  rewrite (py_int_floor x 1) by (cbn; lra). rewrite Hx. cbn [bind]. rewrite Hs.
  change ((1 =? 0)%Z) with false. change ((1 <? 0)%Z) with false. cbv iota zeta. change (Z.to_nat 1) with 1%nat.
  rewrite Nat.mod_1_r. cbn [drop_last firstn]. unfold sum_blocks. cbn [List.length]. rewrite Nat.div_1_r, Nat.mul_0_r.
  cbn [Nat.eqb bind seq map]. destruct (Nat.eqb_spec p 0); [lia|]. cbn [negb].
  unfold reshape. cbn [shp size_of fold_right]. rewrite !Nat.mul_0_l, Nat.mul_0_r. cbn [Nat.eqb bind].
  unfold asum. cbn. eexists. split; [reflexivity|]. cbn. split; [reflexivity|]. split; [reflexivity|].
  eexists. split; [reflexivity|]. split; [reflexivity|]. intros; lia.
Qed.

Lemma bad_claim m x n p X : spectra_are m n p X ->
  (-1 < x < 1 -> bin_any m x = Err ZeroDivisionError) /\ (x <= -1 -> bin_any m x = Err ValueError).
Proof.
  intros (_ & a & Hx & Hs & _). unfold bin_any, get_X. rewrite Hx. cbn [bind]. rewrite Hs. split; intros H.
  - rewrite (Reqb_false' x 1) by lra. rewrite py_int_small by exact H. reflexivity.
  - rewrite (Reqb_false' x 1) by lra. pose proof (py_int_neg x H).
    destruct (Z.eqb_spec (py_int x) 0); [lia|]. destruct (Z.ltb_spec (py_int x) 0); [reflexivity|lia].
Qed.

Lemma one_claim m : bin_any m 1 = Ok m.
Proof. unfold bin_any. rewrite (proj2 (Reqb_true 1 1)) by reflexivity. reflexivity. Qed.

Lemma not_loaded_claim m x : m_X m = None -> x <> 1 -> bin_any m x = Err AttributeError.
Proof. intros H Hx. unfold bin_any, get_X. rewrite (Reqb_false' x 1 Hx), H. reflexivity. Qed.

(** binning twice *)
Lemma nat_lt_aux n k j a i : (2 <= k)%nat -> (2 <= j)%nat -> (i < n / (k * j))%nat -> (a < j)%nat ->
  (a * (n / (k * j)) + i < n / k)%nat.
Proof.
  intros Hk Hj Hi Ha. assert (E : (n / (k * j) = n / k / j)%nat) by (rewrite Nat.div_div by lia; reflexivity).
  rewrite E in *. assert (j * (n / k / j) <= n / k)%nat by (apply Nat.mul_div_le; lia). nia.
Qed.
Lemma twice_claim m k j n p X : spectra_are m n p X -> (2 <= k)%nat -> (2 <= j)%nat -> (0 < p)%nat ->
  (n mod k <> 0)%nat -> ((n / k) mod j <> 0)%nat ->
  exists m' X', bin_all m [INR k; INR j] = Ok m' /\ spectra_are m' (n / (k * j)) p X' /\
    forall i c, (i < n / (k * j))%nat -> (c < p)%nat ->
      X' i c = Sum j (fun a => Sum k (fun b => X (b * (n / k) + a * (n / (k * j)) + i)%nat c)).
Proof.
  intros H Hk Hj Hp Hr Hr'. unfold bin_all. cbn [fold_left bind]. rewrite naturals_bin_claim.
  destruct (bin_strided_claim m k n p X H Hk Hp Hr) as (m1 & X1 & E1 & S1 & V1 & _). rewrite E1. cbn [bind].
  rewrite naturals_bin_claim.
  destruct (bin_strided_claim m1 j (n / k) p X1 S1 Hj Hp Hr') as (m2 & X2 & E2 & S2 & V2 & _). rewrite E2.
  rewrite Nat.div_div in S2, V2 by lia. exists m2, X2. split; [reflexivity|]. split; [exact S2|].
  intros i c Hi Hc. rewrite V2 by assumption. apply Sum_ext. intros a Ha. rewrite V1; [|exact (nat_lt_aux n k j a i Hk Hj Hi Ha)|exact Hc].
  apply Sum_ext. intros b Hb. f_equal. lia.
Qed.

(** the light of one pixel which binning twice keeps and binning once by the product loses *)
Lemma twice_refuted_claim m k j n p X : spectra_are m n p X -> (2 <= k)%nat -> (2 <= j)%nat -> (0 < p)%nat ->
  (n mod k <> 0)%nat -> ((n / k) mod j <> 0)%nat -> (0 < n / (k * j))%nat ->
  (forall i c, X i c = if Nat.eqb i ((k - 1) * (n / k) + (j - 1) * (n / (k * j)) + (n / (k * j) - 1)) then 1 else 0) ->
  exists m' m'' X' X'' n'', bin_all m [INR k; INR j] = Ok m' /\ spectra_are m' (n / (k * j)) p X' /\
    bin_any m (INR (k * j)) = Ok m'' /\ spectra_are m'' n'' p X'' /\
    X' (n / (k * j) - 1)%nat O = 1 /\ forall i c, (i < n'')%nat -> (c < p)%nat -> X'' i c = 0.
Proof.
  intros H Hk Hj Hp Hr Hr' Hq HX.
  destruct (twice_claim m k j n p X H Hk Hj Hp Hr Hr') as (m' & X' & E & S' & V).
  rewrite naturals_bin_claim.
  assert (Eq : (n / (k * j) = n / k / j)%nat) by (rewrite Nat.div_div by lia; reflexivity).
  set (q := (n / (k * j))%nat) in *. set (s := ((n / k) mod j)%nat) in *.
  assert (En : (n / k = j * q + s)%nat) by (rewrite Eq; apply Nat.div_mod; lia).
  assert (Sj : (s < j)%nat) by (apply Nat.mod_upper_bound; lia).
  assert (F : X' (q - 1)%nat O = 1).
  { rewrite V by lia. rewrite (Sum_single _ _ (j - 1)%nat); [|lia|].
    - rewrite (Sum_single _ _ (k - 1)%nat); [|lia|].
      + rewrite HX, Nat.eqb_refl. reflexivity.
      + intros b Hb Nb. rewrite HX. destruct (Nat.eqb_spec (b * (n / k) + (j - 1) * q + (q - 1)) ((k - 1) * (n / k) + (j - 1) * q + (q - 1))) as [D|]; [|reflexivity].
        exfalso. assert (b * (n / k) = (k - 1) * (n / k))%nat by lia. apply Nat.mul_cancel_r in H0; lia.
    - intros a Ha Na. rewrite (Sum_ext _ _ (fun _ => 0)); [apply Sum_0|]. intros b Hb. rewrite HX.
      destruct (Nat.eqb_spec (b * (n / k) + a * q + (q - 1)) ((k - 1) * (n / k) + (j - 1) * q + (q - 1))) as [D|]; [|reflexivity].
      exfalso. assert (A : (a * q < (j - 1) * q)%nat) by (apply Nat.mul_lt_mono_pos_r; lia).
      destruct (Nat.eq_dec b (k - 1)) as [->|Nb]; [lia|].
      assert (B : (b * (n / k) + n / k <= (k - 1) * (n / k))%nat) by (replace (b * (n / k) + n / k)%nat with (S b * (n / k))%nat by lia; apply Nat.mul_le_mono_r; lia).
      lia. }
  assert (Top : (k * j * q <= (k - 1) * (n / k) + (j - 1) * q + (q - 1))%nat).
  { rewrite En. replace k with (S (k - 1)) at 1 by lia. set (k1 := (k - 1)%nat). assert (1 <= k1)%nat by (unfold k1; lia).
    replace j with (S (j - 1)) at 1 2 by lia. set (j1 := (j - 1)%nat). clearbody k1 j1 q s. nia. }
  destruct (Nat.eq_dec (n mod (k * j)) 0) as [D|D].
  - destruct (bin_drop_claim m (k * j) n p X H) as (m'' & E'' & _ & S''); [nia|exact Hp|exact D|].
    exists m', m'', X', (fun _ _ => 0), O. repeat (split; [first [assumption|reflexivity]|]). reflexivity.
  - destruct (bin_strided_claim m (k * j) n p X H) as (m'' & X'' & E'' & S'' & V'' & _); [nia|exact Hp|exact D|].
    exists m', m'', X', X'', q. split; [exact E|]. split; [exact S'|]. split; [exact E''|]. split; [exact S''|]. split; [exact F|].
    intros i c Hi Hc. rewrite V'' by assumption. rewrite (Sum_ext _ _ (fun _ => 0)); [apply Sum_0|]. intros b Hb. rewrite HX.
    fold q. destruct (Nat.eqb_spec (b * q + i) ((k - 1) * (n / k) + (j - 1) * q + (q - 1))) as [A|]; [|reflexivity].
    exfalso. assert (b * q + q <= k * j * q)%nat by (replace (b * q + q)%nat with (S b * q)%nat by lia; apply Nat.mul_le_mono_r; lia).
    lia.
Qed.
