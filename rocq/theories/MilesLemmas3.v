(** * MilesLemmas3: wavelength truncation and pixel binning of read_miles.py. *)
From Coq Require Import Reals Lra Lia List Bool Arith ZArith String Ascii Permutation Sorted.
From Verif Require Import Num NumLemmas Arr ArrLemmas PyStr ReadMiles MilesSpec MilesLemmas MilesLemmas2.
Import ListNotations.
Local Open Scope R_scope.

(** the rows of a matrix with [n] rows and [p] columns *)
Definition row (x : arr num) (p i : nat) : list num := map (fun j => ent x [i; j]) (seq 0 p).
Definition rows (x : arr num) (n p : nat) : list (list num) := map (row x p) (seq 0 n).

Lemma fold_min_le l x : (forall y, In y (x :: l) -> fold_left Rmin l x <= y) /\ In (fold_left Rmin l x) (x :: l).
Proof.
  revert x; induction l as [|a l IH]; intros x; cbn [fold_left].
  - split; [intros y [->|[]]; lra|left; reflexivity].
  - destruct (IH (Rmin x a)) as [H1 H2]. split.
    + intros y [<-|[<-|Hy]].
      * apply Rle_trans with (Rmin x a); [apply H1; left; reflexivity|apply Rmin_l].
      * apply Rle_trans with (Rmin x a); [apply H1; left; reflexivity|apply Rmin_r].
      * apply H1; right; exact Hy.
    + destruct H2 as [<-|H2]; [|right; right; exact H2].
      unfold Rmin. destruct (Rle_dec x a); [left; reflexivity|right; left; reflexivity].
Qed.
Lemma fold_max_le l x : (forall y, In y (x :: l) -> y <= fold_left Rmax l x) /\ In (fold_left Rmax l x) (x :: l).
Proof.
  revert x; induction l as [|a l IH]; intros x; cbn [fold_left].
  - split; [intros y [->|[]]; lra|left; reflexivity].
  - destruct (IH (Rmax x a)) as [H1 H2]. split.
    + intros y [<-|[<-|Hy]].
      * apply Rle_trans with (Rmax x a); [apply Rmax_l|apply H1; left; reflexivity].
      * apply Rle_trans with (Rmax x a); [apply Rmax_r|apply H1; left; reflexivity].
      * apply H1; right; exact Hy.
    + destruct H2 as [<-|H2]; [|right; right; exact H2].
      unfold Rmax. destruct (Rle_dec x a); [right; left; reflexivity|left; reflexivity].
Qed.

Lemma where_lt mask i : In i (where_ mask) -> (i < List.length mask)%nat.
Proof.
  unfold where_. rewrite in_map_iff. intros ([j b] & <- & H). apply filter_In in H as [H _].
  apply in_combine_l in H. apply in_seq in H. cbn. lia.
Qed.

Lemma rows_length x n p : List.length (rows x n p) = n.
Proof. unfold rows. rewrite map_length, seq_length. reflexivity. Qed.

Lemma take_idx_lt {A} idx (l : list A) d : (forall i, In i idx -> (i < List.length l)%nat) ->
  take_idx idx l = Ok (map (fun i => nth i l d) idx).
Proof. intros H. apply map_res_ok. intros i Hi. apply item_nth. auto. Qed.

Lemma map_fst_combine {A B} (l : list A) (m : list B) : List.length l = List.length m -> map fst (combine l m) = l.
Proof. revert m; induction l as [|a l IH]; intros [|b m] H; cbn in *; try lia; [reflexivity|]. f_equal. apply IH; lia. Qed.
Lemma map_snd_combine {A B} (l : list A) (m : list B) : List.length l = List.length m -> map snd (combine l m) = m.
Proof. revert m; induction l as [|a l IH]; intros [|b m] H; cbn in *; try lia; [reflexivity|]. f_equal. apply IH; lia. Qed.
Lemma combine_split' {A B} (l : list (A * B)) : combine (map fst l) (map snd l) = l.
Proof. induction l as [|[a b] l IH]; cbn; congruence. Qed.

(** requested limits; None means the end of the template range *)
Definition below_all (a : option R) (l : list R) : Prop := exists x, a = Some x /\ forall y, In y l -> x < y.
Definition above_all (a : option R) (l : list R) : Prop := exists x, a = Some x /\ forall y, In y l -> y < x.
Definition in_request (lo hi : option R) (l : R) : Prop :=
  match lo with None => True | Some a => a <= l end /\ match hi with None => True | Some b => l <= b end.

Lemma truncate_raises m lo hi : lmd m <> [] -> below_all lo (lmd m) \/ above_all hi (lmd m) ->
  truncate_wavelengths m lo hi = Err ValueError.
Proof.
  intros Hne H. unfold truncate_wavelengths. destruct (lmd m) as [|w l] eqn:E; [contradiction|]. cbn [np_min np_max bind].
  destruct (fold_min_le l w) as [_ Hmin]. destruct (fold_max_le l w) as [_ Hmax].
  destruct H as [(x & -> & Hx)|(x & -> & Hx)].
  - assert (B : Rltb x (fold_left Rmin l w) = true) by (apply Rltb_true; apply Hx; exact Hmin). rewrite B. reflexivity.
  - assert (B : Rltb (fold_left Rmax l w) x = true) by (apply Rltb_true; apply Hx; exact Hmax). rewrite B, orb_true_r. reflexivity.
Qed.

Lemma truncate_ok m lo hi x p : lmd m <> [] -> m_X m = Some x -> shp x = [List.length (lmd m); p] ->
  ~ below_all lo (lmd m) -> ~ above_all hi (lmd m) ->
  exists m' x', truncate_wavelengths m lo hi = Ok m' /\ m_X m' = Some x' /\
    shp x' = [List.length (lmd m'); p] /\
    kept (fun r => in_request lo hi (fst r))
      (combine (lmd m) (rows x (List.length (lmd m)) p)) (combine (lmd m') (rows x' (List.length (lmd m')) p)) /\
    m_names m' = m_names m /\ z_unq m' = z_unq m /\ t_unq m' = t_unq m /\ m_nz m' = m_nz m /\ m_nt m' = m_nt m.
Proof.
  intros Hne Hx Hs Nlo Nhi. unfold truncate_wavelengths.
  set (L := lmd m) in *. set (n := List.length L) in *.
  destruct (fold_min_le (tl L) (hd 0 L)) as [Min1 Min2]. destruct (fold_max_le (tl L) (hd 0 L)) as [Max1 Max2].
  assert (EL : hd 0 L :: tl L = L) by (destruct L; [contradiction|reflexivity]). rewrite EL in *.
  set (mn := fold_left Rmin (tl L) (hd 0 L)) in *. set (mx := fold_left Rmax (tl L) (hd 0 L)) in *.
  assert (E1 : np_min L = Ok mn) by (subst mn; destruct L; [contradiction|reflexivity]).
  assert (E2 : np_max L = Ok mx) by (subst mx; destruct L; [contradiction|reflexivity]).
  rewrite E1, E2. cbn [bind].
  set (a := match lo with None => mn | Some v => v end). set (b := match hi with None => mx | Some v => v end).
  assert (Ba : Rltb a mn = false).
  { apply Rltb_false. intros H. destruct lo as [v|]; subst a; [|lra]. apply Nlo. exists v. split; [reflexivity|].
    intros y Hy. specialize (Min1 y Hy). lra. }
  assert (Bb : Rltb mx b = false).
  { apply Rltb_false. intros H. destruct hi as [v|]; subst b; [|lra]. apply Nhi. exists v. split; [reflexivity|].
    intros y Hy. specialize (Max1 y Hy). lra. }
  rewrite Ba, Bb. cbn [orb]. unfold get_X. rewrite Hx. cbn [bind].
  set (P := fun l => (Rleb a l && Rleb l b)%bool).
  set (idx := where_ (map P L)).
  assert (Hidx : forall i, In i idx -> (i < n)%nat) by (intros i Hi; apply where_lt in Hi; rewrite map_length in Hi; exact Hi).
  unfold take_rows. rewrite Hs.
  assert (Ef : forallb (fun i => Nat.ltb i n) idx = true) by (apply forallb_forall; intros i Hi; apply Nat.ltb_lt; auto).
  rewrite Ef. cbn [bind]. rewrite (take_idx_lt idx L 0) by exact Hidx. cbn [bind].
  eexists; eexists. split; [reflexivity|]. cbn [with_lmd with_X m_X lmd m_names z_unq t_unq m_nz m_nt shp].
  rewrite map_length. split; [reflexivity|]. split; [reflexivity|]. split; [|repeat split].
  set (Q := fun r : R * list num => P (fst r)).
  assert (EI : idx = where_ (map Q (combine L (rows x n p)))).
  { subst idx. f_equal. transitivity (map P (map fst (combine L (rows x n p)))).
    - rewrite map_fst_combine by (rewrite rows_length; reflexivity). reflexivity.
    - apply map_map. }
  assert (T1 := take_where Q fst (combine L (rows x n p))).
  assert (T2 := take_where Q snd (combine L (rows x n p))).
  rewrite <- EI in T1, T2. rewrite map_fst_combine in T1 by (rewrite rows_length; reflexivity).
  rewrite map_snd_combine in T2 by (rewrite rows_length; reflexivity).
  rewrite (take_idx_lt idx L 0) in T1 by exact Hidx. injection T1 as T1.
  rewrite (take_idx_lt idx _ []) in T2 by (rewrite rows_length; exact Hidx). injection T2 as T2.
  rewrite T1.
  assert (ER : rows (Arr [List.length idx; p] (fun k => match k with [i; j] => ent x [nth i idx O; j] | _ => NaN end))
                 (List.length idx) p = map snd (filter Q (combine L (rows x n p)))).
  { rewrite <- T2. unfold rows, row. cbn [ent].
    rewrite <- (map_nth_seq idx O) at 2. rewrite map_map. apply map_ext_in. intros i Hi. apply in_seq in Hi.
    assert (Hn : (nth i idx O < n)%nat) by (apply Hidx, nth_In; lia).
    rewrite (nth_indep _ [] ((fun i0 => map (fun j => ent x [i0; j]) (seq 0 p)) O)) by (rewrite map_length, seq_length; exact Hn).
    rewrite (map_nth (fun i0 => map (fun j => ent x [i0; j]) (seq 0 p))), seq_nth by exact Hn. reflexivity. }
  rewrite ER, combine_split'.
  assert (KP : forall r, In r (combine L (rows x n p)) -> (Q r = true <-> in_request lo hi (fst r))).
  { intros [w r] Hr. apply in_combine_l in Hr. unfold Q, P, in_request. cbn [fst].
    rewrite andb_true_iff, !Rleb_true. specialize (Min1 w Hr). specialize (Max1 w Hr).
    subst a b. destruct lo, hi; intuition lra. }
  clear -KP. induction (combine L (rows x n p)) as [|r l IH]; cbn; [constructor|].
  destruct (Q r) eqn:E.
  - constructor; [apply KP; [left; reflexivity|exact E]|apply IH; intros; apply KP; right; assumption].
  - constructor; [intros Hp; apply KP in Hp; [congruence|left; reflexivity]|apply IH; intros; apply KP; right; assumption].
Qed.

(** ** pixel binning *)
Lemma nth_firstn_lt {A} (l : list A) n i d : (i < n)%nat -> nth i (firstn n l) d = nth i l d.
Proof. revert n i; induction l as [|a l IH]; intros [|n] [|i] H; cbn; try lia; try reflexivity. apply IH; lia. Qed.

Lemma bin_divides m k x n p : m_X m = Some x -> shp x = [n; p] -> List.length (lmd m) = n -> (2 <= k)%nat -> (0 < p)%nat ->
  (n mod k = 0)%nat ->
  exists m' x', bin_pixels m k = Ok m' /\ m_X m' = Some x' /\ shp x' = [O; p] /\ lmd m' = [].
Proof.
  intros Hx Hs Hl Hk Hp Hr. unfold bin_pixels, get_X. rewrite Hx. cbn [bind].
  destruct (Nat.eqb_spec k 1); [lia|]. rewrite Hs. destruct (Nat.eqb_spec k 0); [lia|].
  rewrite Hr. cbn [drop_last firstn]. unfold sum_blocks. cbn [List.length]. rewrite Nat.div_0_l, Nat.mul_0_r by lia.
  cbn [Nat.eqb bind seq map]. destruct (Nat.eqb_spec p 0); [lia|]. cbn [negb].
  unfold reshape. cbn [shp size_of fold_right]. rewrite !Nat.mul_0_l, Nat.mul_0_r. cbn [Nat.eqb bind].
  unfold asum. cbn. eexists; eexists. split; [reflexivity|]. cbn. repeat split.
Qed.

Lemma unravel_block n p k q b j c : (n = k * q)%nat -> (b < k)%nat -> (j < q)%nat -> (c < p)%nat ->
  unravel_idx [n; p] (ravel_idx [k; q; p] [b; j; c]) = [(b * q + j)%nat; c].
Proof.
  intros -> Hb Hj Hc. cbn [unravel_idx ravel_idx size_of fold_right]. rewrite !Nat.mul_1_r, Nat.add_0_r, Nat.div_1_r.
  replace (b * (q * p) + (j * p + c))%nat with (c + (b * q + j) * p)%nat by nia.
  rewrite Nat.div_add, Nat.mod_add, (Nat.div_small c p), (Nat.mod_small c p) by lia. reflexivity.
Qed.

Lemma bin_general m k x n p X : m_X m = Some x -> shp x = [n; p] -> List.length (lmd m) = n -> (2 <= k)%nat -> (0 < p)%nat ->
  (forall i c, (i < n)%nat -> (c < p)%nat -> ent x [i; c] = Fin (X i c)) ->
  (n mod k <> 0)%nat ->
  exists m' x', bin_pixels m k = Ok m' /\ m_X m' = Some x' /\ shp x' = [(n / k)%nat; p] /\
    List.length (lmd m') = (n / k)%nat /\
    (forall j c, (j < n / k)%nat -> (c < p)%nat -> ent x' [j; c] = Fin (Sum k (fun b => X (b * (n / k) + j)%nat c))) /\
    (forall j, (j < n / k)%nat -> nth j (lmd m') 0 = Sum k (fun b => nth (b * (n / k) + j) (lmd m) 0)).
Proof.
  intros Hx Hs Hl Hk Hp HX Hr. unfold bin_pixels, get_X. rewrite Hx. cbn [bind].
  destruct (Nat.eqb_spec k 1); [lia|]. rewrite Hs. destruct (Nat.eqb_spec k 0); [lia|].
  set (q := (n / k)%nat).
  assert (En : (n - n mod k = k * q)%nat) by (pose proof (Nat.div_mod n k); subst q; lia).
  assert (Ed : drop_last n (n mod k) = (k * q)%nat) by (unfold drop_last; destruct (n mod k)%nat; [contradiction|exact En]).
  rewrite Hl, Ed.
  assert (Hq : (k * q <= n)%nat) by lia.
  unfold sum_blocks. rewrite firstn_length, Hl, Nat.min_l by exact Hq.
  assert (Eq : (k * q / k = q)%nat) by (rewrite Nat.mul_comm; apply Nat.div_mul; lia). rewrite Eq, Nat.eqb_refl. cbn [bind].
  destruct (Nat.eqb_spec p 0); [lia|]. cbn [negb].
  unfold reshape. cbn [shp size_of fold_right].
  replace (k * q * (p * 1))%nat with (k * (q * (p * 1)))%nat by lia. rewrite Nat.eqb_refl. cbn [bind].
  set (y := Arr [k; q; p] _).
  assert (Hy : arr_is y [k; q; p] (fun idx => match idx with [b; j; c] => Fin (X (b * q + j)%nat c) | _ => NaN end)).
  { split; [reflexivity|]. intros idx Hi. inb_inv. subst y. cbn [ent].
    rewrite unravel_block by (reflexivity || assumption). apply HX; nia. }
  destruct (asum_is [0%Z] [O] y _ _ Hy eq_refl) as (x' & Ex & Hx'). rewrite Ex. cbn [bind].
  eexists; eexists. split; [reflexivity|]. cbn [with_X with_lmd m_X lmd].
  split; [reflexivity|]. split; [apply Hx'|]. split; [rewrite map_length, seq_length; reflexivity|]. split.
  - intros j c Hj Hc. destruct Hx' as [_ Hx']. rewrite Hx' by (repeat constructor; assumption).
    cbn [length seq map axis_mask memb existsb Nat.eqb orb keep Bool.eqb merge hd tl].
    rewrite (nsum_map_Fin _ (fun sub => X (hd O sub * q + j)%nat c)) by reflexivity.
    change (keep true (axis_mask (List.length [k; q; p]) [O]) [k; q; p]) with [k]. rewrite sum_all_idx_cons. f_equal. apply Sum_ext. intros b Hb. apply sum_all_idx_nil.
  - intros j Hj. set (F := fun j0 => sumR _). rewrite (nth_indep _ 0 (F O)) by (rewrite map_length, seq_length; exact Hj).
    rewrite map_nth, seq_nth by exact Hj. subst F. cbn [Nat.add]. rewrite sumR_map_seq. apply Sum_ext.
    intros b Hb. apply nth_firstn_lt. nia.
Qed.

(** grouping a sum into k blocks of q *)
Lemma Sum_blocks k q f : Sum (k * q) f = Sum k (fun b => Sum q (fun j => f (b * q + j)%nat)).
Proof.
  induction k as [|k IH]; [reflexivity|]. cbn [Sum]. rewrite <- IH.
  replace (S k * q)%nat with (k * q + q)%nat by lia. apply Sum_split.
Qed.
Lemma bin_conserves n k X : (0 < k)%nat ->
  Sum (n / k) (fun j => Sum k (fun b => X (b * (n / k) + j)%nat)) = Sum (n - n mod k) X.
Proof.
  intros Hk. rewrite Sum_swap, <- Sum_blocks. f_equal. pose proof (Nat.div_mod n k). lia.
Qed.
