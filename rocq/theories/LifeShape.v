(** * LifeShape: which queries of a partly set up component succeed. *)
From Coq Require Import Reals Lra Lia List Bool Arith ZArith String Ascii.
From Verif Require Import Num NumLemmas Arr ArrLemmas PyStr Cube Base Parametric Spec SpecLemmas Repr
  CubeLemmas CondLemmas BaseLemmas DistLemmas ParSpec ParRepr ParLemmas Life LifeSpec.
Import ListNotations.
Local Open Scope R_scope.

(** [Ok] with an array of the given shape, or AttributeError *)
Definition out {A} (b : bool) (s : list nat) (r : res (arr A)) : Prop :=
  if b then exists a, r = Ok a /\ shp a = s else r = Err AttributeError.

Lemma out_bind {A B} b1 b2 s1 s2 (r : res (arr A)) (k : arr A -> res (arr B)) : out b1 s1 r -> (forall a, shp a = s1 -> out b2 s2 (k a)) -> out (b1 && b2) s2 (bind r k).
Proof.
  unfold out. destruct b1; cbn.
  - intros (a & -> & Ha) Hk. exact (Hk a Ha).
  - intros -> _. reflexivity.
Qed.
Lemma out_ok {A} (a : arr A) s : shp a = s -> out true s (Ok a).
Proof. intros; exists a; auto. Qed.
Lemma out_bind_ok {A B} b s1 s2 (r : res (arr A)) (k : arr A -> res (arr B)) : out true s1 r -> (forall a, shp a = s1 -> out b s2 (k a)) -> out b s2 (bind r k).
Proof. intros H1 H2. exact (out_bind true b s1 s2 r k H1 H2). Qed.
Lemma out_bind_last {A B} b s1 s2 (r : res (arr A)) (k : arr A -> res (arr B)) : out b s1 r -> (forall a, shp a = s1 -> out true s2 (k a)) -> out b s2 (bind r k).
Proof. intros H1 H2. rewrite <- (andb_true_r b). exact (out_bind b true s1 s2 r k H1 H2). Qed.
Lemma out_eq {A} b b' s (r : res (arr A)) : b = b' -> out b s r -> out b' s r.
Proof. intros ->; auto. Qed.

Lemma out_bop {A B C} (op : A -> B -> C) a b sa sb s : shp a = sa -> shp b = sb -> bshape sa sb = Some s -> out true s (bop op a b).
Proof. intros H1 H2 H3. unfold bop. rewrite H1, H2, H3. apply out_ok. reflexivity. Qed.
Lemma out_iop {A B} (op : A -> B -> A) a b sa sb : shp a = sa -> shp b = sb -> bshape sa sb = Some sa -> out true sa (iop op a b).
Proof. intros H1 H2 H3. unfold iop. rewrite H1, H2, H3, natlist_eqb_refl. apply out_ok. reflexivity. Qed.
Lemma out_get {A} spec (a : arr A) s s' : shp a = s -> gi_shape spec s = Some s' -> out true s' (getitem spec a).
Proof. intros H1 H2. unfold getitem. rewrite H1, H2. apply out_ok. reflexivity. Qed.
Lemma out_lse axes axs a s s' : shp a = s -> norm_axes (List.length s) axes = Ok axs ->
  has_zero (keep true (axis_mask (List.length s) axs) s) = false ->
  keep false (axis_mask (List.length s) axs) s = s' -> out true s' (logsumexp a axes).
Proof. intros H1 H2 H3 <-. unfold logsumexp. rewrite H1, H2. cbn [bind]. rewrite H3. apply out_ok. unfold reduce; cbn [shp]. rewrite H1. reflexivity. Qed.
Lemma out_lse_all a s : shp a = s -> has_zero s = false -> out true [] (logsumexp_all a).
Proof. intros H1 H2. unfold logsumexp_all. rewrite H1, H2. apply out_ok. reflexivity. Qed.
Lemma out_mov {A} (a : arr A) s src dst src' dst' s' : shp a = s -> norm_axes (List.length s) src = Ok src' -> norm_axes (List.length s) dst = Ok dst' ->
  List.length src' = List.length dst' ->
  map (fun k => nth k s 0%nat) (moveaxis_order (List.length s) src' dst') = s' -> out true s' (moveaxis a src dst).
Proof.
  intros H1 H2 H3 H4 <-. unfold moveaxis. rewrite H1, H2. cbn [bind]. rewrite H3. cbn [bind]. rewrite H4, Nat.eqb_refl.
  apply out_ok. unfold transpose; cbn [shp]. rewrite H1. reflexivity.
Qed.
Lemma shp_T {A} (a : arr A) s s' : shp a = s -> rev s = s' -> shp (T a) = s'.
Proof. intros <- <-. reflexivity. Qed.
Lemma shp_amap {A B} (f : A -> B) (a : arr A) s : shp a = s -> shp (amap f a) = s.
Proof. intros <-. reflexivity. Qed.
Lemma shp_tail0 {A} (a : arr A) d s : shp a = (d + 1)%nat :: s -> shp (tail0 a) = d :: s.
Proof. unfold tail0, slice0, len0. intros ->. cbn [shp hd]. f_equal. lia. Qed.
Lemma shp_init0 {A} (a : arr A) d s : shp a = (d + 1)%nat :: s -> shp (init0 a) = d :: s.
Proof. unfold init0, slice0, len0. intros ->. cbn [shp hd]. f_equal. lia. Qed.

(** the shape of an array expression *)
Ltac shape := 
  match goal with
  | H : shp ?a = _ |- shp ?a = _ => exact H
  | |- shp (T _) = _ => eapply shp_T; [shape|cbn [rev app]; reflexivity]
  | |- shp (amap _ _) = _ => eapply shp_amap; shape
  | |- shp (tail0 _) = _ => eapply shp_tail0; shape
  | |- shp (init0 _) = _ => eapply shp_init0; shape
  | |- shp (scal _) = _ => reflexivity
  | |- shp (log_dxdy _) = _ => reflexivity
  end.
Ltac out_na := match goal with |- norm_axes ?n ?a = _ =>
  let v := eval vm_compute in (norm_axes n a) in change (norm_axes n a) with v; reflexivity end.
Ltac nozero := apply has_zero_false; cbn; intuition lia.
Ltac prim :=
  lazymatch goal with
  | |- out _ _ (bop _ _ _) => eapply out_bop; [shape|shape|cbn [rev app]; bsh]
  | |- out _ _ (iop _ _ _) => eapply out_iop; [shape|shape|cbn [rev app]; bsh]
  | |- out _ _ (getitem _ _) => eapply out_get; [shape|cbn; reflexivity]
  | |- out _ _ (logsumexp _ _) => eapply out_lse; [shape|out_na|nozero|cbn; reflexivity]
  | |- out _ _ (logsumexp_all _) => eapply out_lse_all; [shape|nozero]
  | |- out _ _ (moveaxis _ _ _) => eapply out_mov; [shape|out_na|out_na|reflexivity|cbn; reflexivity]
  end.

(** what is stored under an attribute *)
Definition held (b : bool) (s : list nat) (o : option (arr num)) : Prop :=
  if b then exists a, o = Some a /\ shp a = s else o = None.
Lemma out_attr b s o : held b s o -> out b s (attr o).
Proof. unfold held, out. destruct b; [intros (a & -> & Ha); exists a; auto|intros ->; reflexivity]. Qed.

Lemma all_done_or f h d : all_done (fun k => f k || h k)%bool d = (all_done f d && all_done h d)%bool.
Proof.
  unfold all_done. generalize [Kt; Kx; Kz; Kmu; Ksig]. induction l as [|k l IH]; [reflexivity|].
  cbn [forallb]. rewrite IH. destruct (f k), (h k), (d k), (forallb (fun k => implb (f k) (d k)) l); reflexivity.
Qed.

Section Shapes.
Context (L : stats_lib) (self : par) (g : grid) (bt bx bz bm bs : bool).
Context (Hc : cube_on (pa_cube self) g) (Hg : good_grid g).
Context (Ht : held bt [nt g] (pa_log_p_t self)) (Hx : held bx [nx g; ny g; nt g] (pa_log_p_x_t self)).
Context (Hz : held bz [nz g; nt g; nx g; ny g] (pa_log_p_z_tx self)).
Context (Hm : held bm [nt g; nx g; ny g] (pa_mu_v self)) (Hs : held bs [nt g; nx g; ny g] (pa_sig_v self)).
Let Gt := gg_t _ Hg. Let Gv := gg_v _ Hg. Let Gx := gg_x _ Hg. Let Gy := gg_y _ Hg. Let Gz := gg_z _ Hg.

Lemma out_vol S : nonempty S = true -> out true (dims S (pt g)) (log_vol self (name S)).
Proof.
  intros HS. unfold log_vol. destruct (vol_ok _ _ Hc Hg S HS) as (a & E & Ha & _). rewrite E. cbn [bind].
  apply out_ok. exact Ha.
Qed.
Lemma out_dt : out true [nt g] (log_vol self "t"). Proof. exact (out_vol (VSet true false false false) eq_refl). Qed.
Lemma out_dz : out true [nz g] (log_vol self "z"). Proof. exact (out_vol (VSet false false false true) eq_refl). Qed.
Lemma out_dv : out true [nv g] (log_vol self "v"). Proof. exact (out_vol (VSet false true false false) eq_refl). Qed.
Lemma out_dtz : out true [nt g; nz g] (log_vol self "tz"). Proof. exact (out_vol (VSet true false false true) eq_refl). Qed.
Lemma shp_lw : shp (light_weights (c_ssps (pa_cube self))) = [nt g; nz g].
Proof. apply (so_lw_shp _ _ (co_ssps _ _ Hc)). Qed.
Lemma shp_vedg : shp (c_v_edg (pa_cube self)) = [(nv g + 1)%nat].
Proof. exact (proj1 (co_v _ _ Hc)). Qed.

(** run the code, collecting what it needs *)
Ltac walk_ lem :=
  lazymatch goal with
  | |- out _ _ (log_vol _ _) => first [exact out_dt | exact out_dz | exact out_dv | exact out_dtz]
  | |- out _ _ (attr (pa_log_p_t _)) => apply out_attr; exact Ht
  | |- out _ _ (attr (pa_log_p_x_t _)) => apply out_attr; exact Hx
  | |- out _ _ (attr (pa_log_p_z_tx _)) => apply out_attr; exact Hz
  | |- out _ _ (attr (pa_mu_v _)) => apply out_attr; exact Hm
  | |- out _ _ (attr (pa_sig_v _)) => apply out_attr; exact Hs
  | |- out _ _ (bop _ _ _) => prim
  | |- out _ _ (iop _ _ _) => prim
  | |- out _ _ (getitem _ _) => prim
  | |- out _ _ (logsumexp _ _) => prim
  | |- out _ _ (logsumexp_all _) => prim
  | |- out _ _ (moveaxis _ _ _) => prim
  | |- _ => lem
  end.
Ltac walk lem :=
  cbv beta iota;
  lazymatch goal with
  | |- out _ _ (bind ?r _) => eapply out_bind; [walk lem|intros ? ?; walk lem]
  | |- out _ _ (Ok _) => apply out_ok; shape
  | |- _ => walk_ lem
  end.
Ltac bools := destruct bt, bx, bz, bm, bs; cbn; repeat match goal with |- context [negb ?l] => is_var l; destruct l end; reflexivity.
Tactic Notation "query" tactic3(lem) :=
  eapply out_eq; cycle 1; [pose proof shp_lw; pose proof shp_vedg; walk lem|bools].

Lemma o_x_t_mw d : out bx [nx g; ny g; nt g] (x_t_mw self d).
Proof. unfold x_t_mw. destruct d; query fail. Qed.
Lemma o_t_mw d : out bt [nt g] (t_mw self d).
Proof. unfold t_mw. destruct d; query fail. Qed.
Lemma o_tx_mw d : out (bt && bx) [nt g; nx g; ny g] (tx_mw self d).
Proof. unfold tx_mw. query (first [apply o_x_t_mw|apply o_t_mw]). Qed.
Lemma o_z_tx_mw d : out bz [nz g; nt g; nx g; ny g] (z_tx_mw self d).
Proof. unfold z_tx_mw. destruct d; query fail. Qed.
Lemma o_txz_mw d : out (bt && bx && bz) [nt g; nx g; ny g; nz g] (txz_mw self d).
Proof. unfold txz_mw. query (first [apply o_tx_mw|apply o_z_tx_mw]). Qed.
Lemma o_txz d lw : out (bt && bx && bz) [nt g; nx g; ny g; nz g] (p_txz self d lw).
Proof. unfold p_txz. destruct lw; query (apply o_txz_mw). Qed.

(** the factors and all marginals *)
Lemma o_tz d lw : out (bt && bx && bz) [nt g; nz g] (p_tz self d lw).
Proof. unfold p_tz. destruct d; query (apply o_txz). Qed.
Lemma o_t d lw : out (bt && (negb lw || bx && bz)) [nt g] (p_t self d lw).
Proof. unfold p_t. destruct lw, d; query (first [apply o_tz | apply o_t_mw]). Qed.
Lemma o_x_t d lw : out (bx && (negb lw || bt && bz)) [nx g; ny g; nt g] (p_x_t self d lw).
Proof. unfold p_x_t. destruct lw, d; query (first [apply o_txz | apply o_t | apply o_x_t_mw]). Qed.
Lemma o_tx d lw : out (bt && bx && (negb lw || bz)) [nt g; nx g; ny g] (p_tx self d lw).
Proof. unfold p_tx. destruct lw, d; query (first [apply o_txz | apply o_tx_mw]). Qed.
Lemma o_z_tx d lw : out (bz && (negb lw || bt && bx)) [nz g; nt g; nx g; ny g] (p_z_tx self d lw).
Proof. unfold p_z_tx. destruct lw, d; query (first [apply o_txz | apply o_z_tx_mw]). Qed.
Lemma o_logcdf loc scale x s : shp loc = [nt g; nx g; ny g] -> shp scale = [nt g; nx g; ny g] -> shp x = [s; 1; 1; 1]%nat ->
  out true [s; nt g; nx g; ny g] (norm_logcdf L loc scale x).
Proof. intros. unfold norm_logcdf. eapply out_bind_ok; [prim|intros ? ?]. prim. Qed.
Lemma o_logdiff hi lo s : shp hi = s -> shp lo = s -> out true s (logdiffexp hi lo).
Proof. intros H1 H2. unfold logdiffexp. eapply out_bop; [exact H1|exact H2|apply bshape_same]. Qed.
Lemma o_v_tx_mw d : out (bm && bs) [nv g; nt g; nx g; ny g] (v_tx_mw L self d).
Proof.
  unfold v_tx_mw. destruct d; query (first [apply o_logcdf; shape | apply o_logdiff; shape]).
Qed.
Lemma o_tvxz_mw d : out (bt && bx && bz && (bm && bs)) [nt g; nv g; nx g; ny g; nz g] (tvxz_mw L self d).
Proof. unfold tvxz_mw. query (first [apply o_txz_mw | apply o_v_tx_mw]). Qed.
Lemma o_tvxz d lw : out (bt && bx && bz && (bm && bs)) [nt g; nv g; nx g; ny g; nz g] (p_tvxz L self d lw).
Proof. unfold p_tvxz. destruct lw; query (apply o_tvxz_mw). Qed.
Lemma o_v_tx d lw : out (bm && bs && (negb lw || bt && bx && bz)) [nv g; nt g; nx g; ny g] (p_v_tx L self d lw).
Proof. unfold p_v_tx. destruct lw, d; query (first [apply o_tvxz | apply o_v_tx_mw]). Qed.
Lemma o_tvx d lw : out (bt && bx && (bm && bs) && (negb lw || bz)) [nt g; nv g; nx g; ny g] (p_tvx L self d lw).
Proof. unfold p_tvx. destruct lw, d; query (first [apply o_tvxz | apply o_tx_mw | apply o_v_tx_mw]). Qed.
Lemma o_tv d lw : out (bt && bx && (bm && bs) && (negb lw || bz)) [nt g; nv g] (p_tv L self d lw).
Proof. unfold p_tv. destruct d; query (apply o_tvx). Qed.
Lemma o_tvz d lw : out (bt && bx && bz && (bm && bs)) [nt g; nv g; nz g] (p_tvz L self d lw).
Proof. unfold p_tvz. destruct d; query (apply o_tvxz). Qed.
Lemma o_v d lw : out (bt && bx && (bm && bs) && (negb lw || bz)) [nv g] (p_v L self d lw).
Proof. unfold p_v, add_log_dt. destruct d; query (apply o_tvx). Qed.
Lemma o_vx d lw : out (bt && bx && (bm && bs) && (negb lw || bz)) [nv g; nx g; ny g] (p_vx L self d lw).
Proof. unfold p_vx, add_log_dt. destruct d; query (apply o_tvx). Qed.
Lemma o_vxz d lw : out (bt && bx && bz && (bm && bs)) [nv g; nx g; ny g; nz g] (p_vxz L self d lw).
Proof. unfold p_vxz, add_log_dt. destruct d; query (apply o_tvxz). Qed.
Lemma o_vz d lw : out (bt && bx && bz && (bm && bs)) [nv g; nz g] (p_vz L self d lw).
Proof. unfold p_vz. destruct d; query (apply o_vxz). Qed.
Lemma o_x d lw : out (bt && bx && (negb lw || bz)) [nx g; ny g] (p_x self d lw).
Proof. unfold p_x. destruct lw, d; query (first [apply o_txz | apply o_x_t_mw | apply o_t_mw]). Qed.
Lemma o_xz d lw : out (bt && bx && bz) [nx g; ny g; nz g] (p_xz self d lw).
Proof. unfold p_xz, add_log_dt. destruct d; query (apply o_txz). Qed.
Lemma o_z d lw : out (bt && bx && bz) [nz g] (p_z self d lw).
Proof. unfold p_z, add_log_dt. destruct d; query (apply o_tz). Qed.

Definition done (k : setter) : bool :=
  match k with Kt => bt | Kx => bx | Kz => bz | Kmu => bm | Ksig => bs end.

Lemma marg_method S (d lw : bool) f : par_table L self (name S) = Some f ->
  get_log_marginal (par_table L self) (name S) d lw = f d lw.
Proof. unfold get_log_marginal, getattr_log_p. intros ->. reflexivity. Qed.
Ltac m_case lem :=
  match goal with |- out _ _ (get_log_marginal _ (name ?S) ?d ?lw) => rewrite (marg_method S d lw _ eq_refl) end; eapply out_eq; [|apply lem]; match goal with |- context [needs_marg ?l] => destruct l end; unfold all_done, needs_marg, done; bools.
Lemma o_marg S (d lw : bool) : nonempty S = true ->
  out (all_done (needs_marg lw S) done) (dims S g) (get_log_marginal (par_table L self) (name S) d lw).
Proof.
  destruct S as [[] [] [] []]; intros HS; try discriminate HS; clear HS.
  - m_case o_tvxz.
  - m_case o_tvx.
  - m_case o_tvz.
  - m_case o_tv.
  - m_case o_txz.
  - m_case o_tx.
  - m_case o_tz.
  - m_case o_t.
  - m_case o_vxz.
  - m_case o_vx.
  - m_case o_vz.
  - m_case o_v.
  - m_case o_xz.
  - m_case o_x.
  - m_case o_z.
Qed.

(** the quotient of joint and marginal *)
Definition quotient (w A C : string) (d lw : bool) : res (arr num) :=
  let joint := sorted_str (A ++ C) in
  log_p_joint <- get_log_marginal (par_table L self) joint false lw ;;
  log_p_marginal <- get_log_marginal (par_table L self) C false lw ;;
  let joint := replace_char "x" ["x"%char; "y"%char] joint in
  let marginal := replace_char "x" ["x"%char; "y"%char] C in
  log_p_joint <- moveaxis log_p_joint (map (find joint) (chars marginal)) (neg_positions (String.length marginal)) ;;
  log_p_cond <- bop nsub log_p_joint log_p_marginal ;;
  if d then
    dvol <- construct_volume_element (pa_cube self) w ;; bop nsub log_p_cond (amap nlog dvol)
  else Ok log_p_cond.

Lemma o_quotient A C (d lw : bool) : nonempty A = true -> nonempty C = true -> disjoint A C = true ->
  out (all_done (needs_marg lw (union A C)) done && all_done (needs_marg lw C) done) (dims A g ++ dims C g)
    (quotient (cname A C) (name A) (name C) d lw).
Proof.
  intros HA HC HD. pose proof (o_marg (union A C) false lw (nonempty_union _ _ HA)) as Ej.
  pose proof (o_marg C false lw HC) as Em. destruct (vol_cond_ok _ g Hc Hg A C HA HC HD) as (va & Ev & Sv & _).
  unfold quotient.
  replace (sorted_str (name A ++ name C)) with (name (union A C))
    by (clear - HA HC HD; destruct A as [[] [] [] []], C as [[] [] [] []]; try discriminate HD; reflexivity).
  cbv zeta. eapply out_bind; [exact Ej|intros aj Sj]. eapply out_bind_last; [exact Em|intros am Sm].
  clear Ej Em. revert Ev Sv Sj Sm.
  clear - Gt Gv Gx Gy Gz HA HC HD.
  destruct A as [[] [] [] []]; try discriminate HA; clear HA;
  destruct C as [[] [] [] []]; try discriminate HD; try discriminate HC; clear HC HD; intros Ev Sv Sj Sm.
  all: cbn [name cname has_t has_v has_x has_z append union orb] in Ev |- *.
  all: str_compute.
  all: cbn [dims unit_dims all_vars has_t has_v has_x has_z opt app pt nt nv nx ny nz union orb] in *.
  all: eapply out_bind_ok; [prim|intros r1 S1].
  all: eapply out_bind_ok; [prim|intros r2 S2].
  all: destruct d; [rewrite Ev; cbn [bind]; prim | apply out_ok; shape].
Qed.

Lemma cond_quotient A C (d lw : bool) : nonempty A = true -> nonempty C = true -> disjoint A C = true ->
  get_log_conditional (pa_cube self) (par_table L self) (cname A C) d lw =
  match (f <- getattr_log_p (par_table L self) (cname A C) ;; f d lw) with
  | Ok r => Ok r
  | Err AttributeError => quotient (cname A C) (name A) (name C) d lw
  | Err NotImplementedError => quotient (cname A C) (name A) (name C) d lw
  | Err e => Err e
  end.
Proof.
  intros HA HC HD. clear - HA HC HD. unfold get_log_conditional. rewrite cname_sep. cbn [py_assert bind].
  replace (split "_" (cname A C)) with [name A; name C]; [reflexivity|].
  destruct A as [[] [] [] []], C as [[] [] [] []]; try discriminate HD; reflexivity.
Qed.

(** a special method which fails only when the quotient fails too *)
Lemma o_special A C (d lw : bool) f b : nonempty A = true -> nonempty C = true -> disjoint A C = true ->
  par_table L self (cname A C) = Some f -> out b (dims A g ++ dims C g) (f d lw) ->
  (b = false -> all_done (needs_marg lw (union A C)) done && all_done (needs_marg lw C) done = false)%bool ->
  out b (dims A g ++ dims C g) (get_log_conditional (pa_cube self) (par_table L self) (cname A C) d lw).
Proof.
  intros HA HC HD Ef Hf Hb. rewrite cond_quotient by assumption. unfold getattr_log_p. rewrite Ef. cbn [bind].
  pose proof (o_quotient A C d lw HA HC HD) as Hq. destruct b.
  - destruct Hf as (a & -> & Ha). apply out_ok. exact Ha.
  - cbn [out] in Hf. rewrite Hf. rewrite (Hb eq_refl) in Hq. exact Hq.
Qed.
Lemma o_plain A C (d lw : bool) : nonempty A = true -> nonempty C = true -> disjoint A C = true ->
  par_table L self (cname A C) = None ->
  out (all_done (needs_marg lw (union A C)) done && all_done (needs_marg lw C) done) (dims A g ++ dims C g)
    (get_log_conditional (pa_cube self) (par_table L self) (cname A C) d lw).
Proof.
  intros HA HC HD Ef. rewrite cond_quotient by assumption. unfold getattr_log_p. rewrite Ef. cbn [bind].
  apply o_quotient; assumption.
Qed.
Lemma plain A C (d lw : bool) : nonempty A = true -> nonempty C = true -> disjoint A C = true ->
  par_table L self (cname A C) = None -> needs_cond lw A C = (fun k => needs_marg lw (union A C) k || needs_marg lw C k)%bool ->
  out (all_done (needs_cond lw A C) done) (dims A g ++ dims C g)
    (get_log_conditional (pa_cube self) (par_table L self) (cname A C) d lw).
Proof.
  intros HA HC HD Ef ->. rewrite all_done_or. apply o_plain; assumption.
Qed.

Lemma o_cond A C (d lw : bool) : nonempty A = true -> nonempty C = true -> disjoint A C = true ->
  out (all_done (needs_cond lw A C) done) (dims A g ++ dims C g)
    (get_log_conditional (pa_cube self) (par_table L self) (cname A C) d lw).
Proof.
  intros HA HC HD.
  destruct A as [[] [] [] []], C as [[] [] [] []]; try discriminate HA; try discriminate HC; try discriminate HD;
  try (apply plain; [reflexivity|reflexivity|reflexivity|reflexivity|destruct lw; reflexivity]).
  - eapply out_eq; cycle 1; [eapply o_special; [reflexivity|reflexivity|reflexivity|reflexivity|apply o_v_tx|]|];
    unfold all_done, done; destruct lw, bt, bx, bz, bm, bs; cbn; intros; try discriminate; reflexivity.
  - eapply out_eq; cycle 1; [eapply o_special; [reflexivity|reflexivity|reflexivity|reflexivity|apply o_x_t|]|];
    unfold all_done, done; destruct lw, bt, bx, bz, bm, bs; cbn; intros; try discriminate; reflexivity.
  - eapply out_eq; cycle 1; [eapply o_special; [reflexivity|reflexivity|reflexivity|reflexivity|apply o_z_tx|]|];
    unfold all_done, done; destruct lw, bt, bx, bz, bm, bs; cbn; intros; try discriminate; reflexivity.
Qed.

Lemma o_get_log_p_marg S (d lw : bool) : nonempty S = true ->
  out (all_done (needs_marg lw S) done) (dims S g) (par_get_log_p L self (name S) d lw).
Proof. intros HS. unfold par_get_log_p, get_log_p_of. rewrite name_no_sep. apply o_marg; assumption. Qed.
Lemma o_get_log_p_cond A C (d lw : bool) : nonempty A = true -> nonempty C = true -> disjoint A C = true ->
  out (all_done (needs_cond lw A C) done) (dims A g ++ dims C g) (par_get_log_p L self (cname A C) d lw).
Proof. intros. unfold par_get_log_p, get_log_p_of. rewrite cname_sep. apply o_cond; assumption. Qed.
Lemma out_exp b s r : out b s r -> out b s (a <- r ;; Ok (amap nexp a)).
Proof. intros. eapply out_bind_last; [eassumption|]. intros a Ha. apply out_ok. exact Ha. Qed.
Lemma o_get_p_marg S (d lw : bool) : nonempty S = true ->
  out (all_done (needs_marg lw S) done) (dims S g) (par_get_p L self (name S) d lw).
Proof. intros. apply out_exp. apply o_get_log_p_marg; assumption. Qed.
Lemma o_get_p_cond A C (d lw : bool) : nonempty A = true -> nonempty C = true -> disjoint A C = true ->
  out (all_done (needs_cond lw A C) done) (dims A g ++ dims C g) (par_get_p L self (cname A C) d lw).
Proof. intros. apply out_exp. apply o_get_log_p_cond; assumption. Qed.
End Shapes.
