(** C96: laws of total expectation, variance and covariance among returned
    arrays. *)
From Coq Require Import Reals Lra Lia List Bool Arith ZArith String Ascii.
From Verif Require Import Num NumLemmas Arr PyStr Cube Base Moments Parametric Spec SpecLemmas Repr MomSpec Build MomClaims TotalSpec TotalClaims
  ParSpec ParRepr ParMoments ParMomSpec ParMomOther ParExample ParMomExample ParStatExample
  Mixture MixSpec MixLemmas MixGen MixExample MixStat MomRefuted.
Import ListNotations.
Local Open Scope R_scope.

(** ** Base components *)
Theorem C96_total_variance : forall self g f lw,
  comp_on self g f -> good_grid g -> nonneg g f -> lw_ok g f lw ->
  let P := prob g f lw in let o := base_obj self in
  forall k B C, nonempty B = true ->
  disjoint (cvar k) B = true -> disjoint (cvar k) C = true -> disjoint B C = true ->
  (nonempty C = false -> total g P = 1) ->
  exists p m v m0 v0, get_p self (dname B C) false lw = Ok p /\ get_mean o (dname (cvar k) (union B C)) lw = Ok m /\
    get_variance o (dname (cvar k) (union B C)) lw = Ok v /\ get_mean o (dname (cvar k) C) lw = Ok m0 /\
    get_variance o (dname (cvar k) C) lw = Ok v0 /\
    forall i, in_grid g i -> 0 < marg g P C i ->
      averaged g P B C p (fun j => ent m (mcoords k (union B C) j)) i = ent m0 (mcoords k C i) /\
      averaged g P B C p (fun j => nadd (ent v (mcoords k (union B C) j))
         (npow (nsub (ent m (mcoords k (union B C) j)) (ent m0 (mcoords k C i))) 2)) i = ent v0 (mcoords k C i) /\
      ent v0 (mcoords k C i) <> NaN.
Proof. exact base_total_variance. Qed.
Print Assumptions C96_total_variance.
Theorem C96_total_covariance : forall self g f lw,
  comp_on self g f -> good_grid g -> nonneg g f -> lw_ok g f lw ->
  let P := prob g f lw in let o := base_obj self in
  forall a b B C, nonempty B = true -> before a b = true ->
  disjoint (union (cvar a) (cvar b)) B = true -> disjoint (union (cvar a) (cvar b)) C = true -> disjoint B C = true ->
  (nonempty C = false -> total g P = 1) ->
  exists p ma mb c ma0 mb0 c0, get_p self (dname B C) false lw = Ok p /\
    get_mean o (dname (cvar a) (union B C)) lw = Ok ma /\ get_mean o (dname (cvar b) (union B C)) lw = Ok mb /\
    get_covariance o (dname (union (cvar a) (cvar b)) (union B C)) lw = Ok c /\
    get_mean o (dname (cvar a) C) lw = Ok ma0 /\ get_mean o (dname (cvar b) C) lw = Ok mb0 /\
    get_covariance o (dname (union (cvar a) (cvar b)) C) lw = Ok c0 /\
    forall i, in_grid g i -> 0 < marg g P C i ->
      averaged g P B C p (fun j => nadd (ent c (mcoords (xkey a b) (union B C) j))
         (nmul (nsub (ent ma (mcoords a (union B C) j)) (ent ma0 (mcoords a C i)))
               (nsub (ent mb (mcoords b (union B C) j)) (ent mb0 (mcoords b C i))))) i
      = ent c0 (mcoords (xkey a b) C i) /\ ent c0 (mcoords (xkey a b) C i) <> NaN.
Proof. exact base_total_covariance. Qed.
Print Assumptions C96_total_covariance.
(** the covariance is that of the second variable with the mean of the first at
    each of its values *)
Theorem C96_covariance_by_means : forall self g f lw,
  comp_on self g f -> good_grid g -> nonneg g f -> lw_ok g f lw ->
  let P := prob g f lw in let o := base_obj self in
  forall a b C, before a b = true -> disjoint (union (cvar a) (cvar b)) C = true ->
  (nonempty C = false -> total g P = 1) ->
  exists p ma ma0 mb0 c0, get_p self (dname (cvar b) C) false lw = Ok p /\
    get_mean o (dname (cvar a) (union (cvar b) C)) lw = Ok ma /\
    get_mean o (dname (cvar a) C) lw = Ok ma0 /\ get_mean o (dname (cvar b) C) lw = Ok mb0 /\
    get_covariance o (dname (union (cvar a) (cvar b)) C) lw = Ok c0 /\
    forall i, in_grid g i -> 0 < marg g P C i ->
      averaged g P (cvar b) C p (fun j =>
         nmul (nsub (ent ma (mcoords a (union (cvar b) C) j)) (ent ma0 (mcoords a C i)))
              (nsub (Fin (cmid g b j)) (ent mb0 (mcoords b C i)))) i
      = ent c0 (mcoords (xkey a b) C i).
Proof. exact base_means. Qed.
Print Assumptions C96_covariance_by_means.

(** ** Parametric components: anything but velocities, and not summed over them *)
Theorem C96_parametric : forall L self g m q lw, par_on L self g m -> good_grid g -> good_par g m ->
  let o := par_obj L q self in
  forall k B C, k <> Cv -> nonempty B = true -> has_v B = false ->
  disjoint (cvar k) B = true -> disjoint (cvar k) C = true -> disjoint B C = true -> par_lw_ok g m lw (has_v C) ->
  let P := par_joint g m lw (has_v C) in
  (nonempty C = false -> total g P = 1) ->
  no_holes g m lw B C -> no_holes g m lw (cvar k) C -> no_holes g m lw (cvar k) (union B C) ->
  exists p a v a0 v0, par_get_p L self (dname B C) false lw = Ok p /\ get_mean o (dname (cvar k) (union B C)) lw = Ok a /\
    get_variance o (dname (cvar k) (union B C)) lw = Ok v /\ get_mean o (dname (cvar k) C) lw = Ok a0 /\
    get_variance o (dname (cvar k) C) lw = Ok v0 /\
    forall i, in_grid g i -> 0 < marg g P C i ->
      averaged g P B C p (fun j => ent a (mcoords k (union B C) j)) i = ent a0 (mcoords k C i) /\
      averaged g P B C p (fun j => nadd (ent v (mcoords k (union B C) j))
         (npow (nsub (ent a (mcoords k (union B C) j)) (ent a0 (mcoords k C i))) 2)) i = ent v0 (mcoords k C i) /\
      ent v0 (mcoords k C i) <> NaN.
Proof. exact par_total_variance. Qed.
Print Assumptions C96_parametric.

(** ** Mixtures of base components, where every member has mass *)
Theorem C96_mixture_variance : forall self g comps l lw, mix_on self g comps l -> good_grid g ->
  (forall q, (q < List.length l)%nat -> lw_ok g (pf l q) lw) ->
  let P := prob g (mixf l) lw in
  let there D i := forall q, (q < List.length l)%nat -> 0 < marg g (prob g (pf l q) lw) D i in
  forall k B C, nonempty B = true ->
  disjoint (cvar k) B = true -> disjoint (cvar k) C = true -> disjoint B C = true ->
  (nonempty C = false -> lw = false ->
     sumR (map snd l) = 1 /\ forall q, (q < List.length l)%nat -> total g (mass g (pf l q)) = 1) ->
  exists p m v m0 v0, mix_get_p self (dname B C) true false lw = Ok p /\ mix_mean self (dname (cvar k) (union B C)) lw = Ok m /\
    mix_variance self (dname (cvar k) (union B C)) lw = Ok v /\ mix_mean self (dname (cvar k) C) lw = Ok m0 /\
    mix_variance self (dname (cvar k) C) lw = Ok v0 /\
    forall i, in_grid g i -> there C i -> (forall j, In j (bins_over g B i) -> 0 < marg g P (union B C) j -> there (union B C) j) ->
      averaged g P B C p (fun j => ent m (mcoords k (union B C) j)) i = ent m0 (mcoords k C i) /\
      averaged g P B C p (fun j => nadd (ent v (mcoords k (union B C) j))
         (npow (nsub (ent m (mcoords k (union B C) j)) (ent m0 (mcoords k C i))) 2)) i = ent v0 (mcoords k C i) /\
      ent v0 (mcoords k C i) <> NaN.
Proof. exact mix_total_variance. Qed.
Print Assumptions C96_mixture_variance.
Theorem C96_mixture_covariance : forall self g comps l lw, mix_on self g comps l -> good_grid g ->
  (forall q, (q < List.length l)%nat -> lw_ok g (pf l q) lw) ->
  let P := prob g (mixf l) lw in
  let there D i := forall q, (q < List.length l)%nat -> 0 < marg g (prob g (pf l q) lw) D i in
  forall a b B C, nonempty B = true -> before a b = true ->
  disjoint (union (cvar a) (cvar b)) B = true -> disjoint (union (cvar a) (cvar b)) C = true -> disjoint B C = true ->
  (nonempty C = false -> lw = false ->
     sumR (map snd l) = 1 /\ forall q, (q < List.length l)%nat -> total g (mass g (pf l q)) = 1) ->
  exists p ma mb c ma0 mb0 c0, mix_get_p self (dname B C) true false lw = Ok p /\
    mix_mean self (dname (cvar a) (union B C)) lw = Ok ma /\ mix_mean self (dname (cvar b) (union B C)) lw = Ok mb /\
    mix_covariance self (dname (union (cvar a) (cvar b)) (union B C)) lw = Ok c /\
    mix_mean self (dname (cvar a) C) lw = Ok ma0 /\ mix_mean self (dname (cvar b) C) lw = Ok mb0 /\
    mix_covariance self (dname (union (cvar a) (cvar b)) C) lw = Ok c0 /\
    forall i, in_grid g i -> there C i -> (forall j, In j (bins_over g B i) -> 0 < marg g P (union B C) j -> there (union B C) j) ->
      averaged g P B C p (fun j => nadd (ent c (mcoords (xkey a b) (union B C) j))
         (nmul (nsub (ent ma (mcoords a (union B C) j)) (ent ma0 (mcoords a C i)))
               (nsub (ent mb (mcoords b (union B C) j)) (ent mb0 (mcoords b C i))))) i
      = ent c0 (mcoords (xkey a b) C i) /\ ent c0 (mcoords (xkey a b) C i) <> NaN.
Proof. exact mix_total_covariance. Qed.
Print Assumptions C96_mixture_covariance.

(** ** Cases *)
Definition tx : vset := VSet false false true false.
Definition tt_ : vset := VSet true false false false.
Definition tv : vset := VSet false true false false.
Definition tz : vset := VSet false false false true.
Definition t0 : bin := Bin 0 0 0 0 0.
Lemma t0_in : in_grid exg t0. Proof. unfold in_grid; cbn; lia. Qed.
Lemma t0_pos : 0 < marg exg (prob exg exf false) tx t0. Proof. ex_num. Qed.
(** velocities at the first pixel: within the two ages and between them *)
Example C96_base_case : exists p m v m0 v0,
  get_p exc "t_x" false false = Ok p /\ get_mean (base_obj exc) "v_tx" false = Ok m /\ get_variance (base_obj exc) "v_tx" false = Ok v /\
  get_mean (base_obj exc) "v_x" false = Ok m0 /\ get_variance (base_obj exc) "v_x" false = Ok v0 /\
  (exists r, ent v0 [0; 0]%nat = Fin r /\ 0 < r) /\
  nadd (nmul (nadd (ent v [0; 0; 0]%nat) (npow (nsub (ent m [0; 0; 0]%nat) (ent m0 [0; 0]%nat)) 2)) (ent p [0; 0; 0]%nat))
       (nmul (nadd (ent v [1; 0; 0]%nat) (npow (nsub (ent m [1; 0; 0]%nat) (ent m0 [0; 0]%nat)) 2)) (ent p [1; 0; 0]%nat))
  = ent v0 [0; 0]%nat.
Proof.
  destruct (C96_total_variance exc exg exf false exc_on exg_good exf_nonneg (ex_lw_ok _) Cv tt_ tx
    eq_refl eq_refl eq_refl eq_refl ltac:(discriminate)) as (p & m & v & m0 & v0 & E1 & E2 & E3 & E4 & E5 & He).
  exists p, m, v, m0, v0. do 5 (split; [assumption|]). destruct (He t0 t0_in t0_pos) as (_ & He' & _). split.
  - destruct (variance_claim exc exg exf false exc_on exg_good exf_nonneg (ex_lw_ok _) Cv tx eq_refl ltac:(discriminate)) as (v' & s & E & _ & _ & _ & K).
    assert (v' = v0) by (apply (f_equal (fun r => match r with Ok x => x | _ => v0 end)) in E, E5; cbn in E, E5; congruence). subst v'.
    destruct (K t0 t0_in t0_pos) as (V & EV & _ & E' & _). exists V. split; [exact EV|]. rewrite E'. mom_num.
  - etransitivity; [|exact He']. unfold averaged, occupied.
    change (bins_over exg tt_ t0) with [Bin 0 0 0 0 0; Bin 1 0 0 0 0]. cbn [filter].
    do 2 (destruct (Rlt_dec _ _) as [_|n]; [|exfalso; apply n; ex_num]).
    unfold nsum. cbn [map fold_right mcoords coords union no_vars tt_ tx t0 has_t has_v has_x has_z orb opt app bt bv bx by_ bz].
    rewrite nadd_zero_r. reflexivity.
Qed.
(** the velocity of the two ages carries the whole covariance at the first pixel *)
Example C96_covariance_case : exists p m m0 n0 c0,
  get_p exc "v_x" false false = Ok p /\ get_mean (base_obj exc) "t_vx" false = Ok m /\ get_mean (base_obj exc) "t_x" false = Ok m0 /\
  get_mean (base_obj exc) "v_x" false = Ok n0 /\ get_covariance (base_obj exc) "tv_x" false = Ok c0 /\
  nadd (nmul (nmul (nsub (ent m [0; 0; 0]%nat) (ent m0 [0; 0]%nat)) (nsub (Fin (- (1 / 2))) (ent n0 [0; 0]%nat))) (ent p [0; 0; 0]%nat))
       (nmul (nmul (nsub (ent m [1; 0; 0]%nat) (ent m0 [0; 0]%nat)) (nsub (Fin (1 / 2)) (ent n0 [0; 0]%nat))) (ent p [1; 0; 0]%nat))
  = ent c0 [0; 0]%nat.
Proof.
  destruct (C96_covariance_by_means exc exg exf false exc_on exg_good exf_nonneg (ex_lw_ok _) Ct Cv tx
    eq_refl eq_refl ltac:(discriminate)) as (p & m & m0 & n0 & c0 & E1 & E2 & E3 & E4 & E5 & He).
  exists p, m, m0, n0, c0. do 5 (split; [assumption|]). specialize (He t0 t0_in t0_pos).
  etransitivity; [|exact He]. unfold averaged, occupied.
  change (bins_over exg (cvar Cv) t0) with [Bin 0 0 0 0 0; Bin 0 1 0 0 0]. cbn [filter].
  do 2 (destruct (Rlt_dec _ _) as [_|n]; [|exfalso; apply n; ex_num]).
  assert (X0 : cmid exg Cv (Bin 0 0 0 0 0) = - (1 / 2)) by (unfold cmid, mid; cbn; lra).
  assert (X1 : cmid exg Cv (Bin 0 1 0 0 0) = 1 / 2) by (unfold cmid, mid; cbn; lra).
  unfold nsum. cbn [map fold_right]. rewrite X0, X1.
  cbn [mcoords coords union no_vars cvar tx t0 has_t has_v has_x has_z orb opt app bt bv bx by_ bz].
  rewrite nadd_zero_r. reflexivity.
Qed.
Example C96_total_covariance_case : exists p ma mb c ma0 mb0 c0,
  get_p exc "z_x" false false = Ok p /\ get_mean (base_obj exc) "t_xz" false = Ok ma /\ get_mean (base_obj exc) "v_xz" false = Ok mb /\
  get_covariance (base_obj exc) "tv_xz" false = Ok c /\ get_mean (base_obj exc) "t_x" false = Ok ma0 /\
  get_mean (base_obj exc) "v_x" false = Ok mb0 /\ get_covariance (base_obj exc) "tv_x" false = Ok c0 /\
  nadd (nmul (nadd (ent c [0; 0; 0]%nat) (nmul (nsub (ent ma [0; 0; 0]%nat) (ent ma0 [0; 0]%nat)) (nsub (ent mb [0; 0; 0]%nat) (ent mb0 [0; 0]%nat)))) (ent p [0; 0; 0]%nat))
       (nmul (nadd (ent c [0; 0; 1]%nat) (nmul (nsub (ent ma [0; 0; 1]%nat) (ent ma0 [0; 0]%nat)) (nsub (ent mb [0; 0; 1]%nat) (ent mb0 [0; 0]%nat)))) (ent p [1; 0; 0]%nat))
  = ent c0 [0; 0]%nat.
Proof.
  destruct (C96_total_covariance exc exg exf false exc_on exg_good exf_nonneg (ex_lw_ok _) Ct Cv tz tx
    eq_refl eq_refl eq_refl eq_refl eq_refl ltac:(discriminate)) as (p & ma & mb & c & ma0 & mb0 & c0 & E1 & E2 & E3 & E4 & E5 & E6 & E7 & He).
  exists p, ma, mb, c, ma0, mb0, c0. do 7 (split; [assumption|]). destruct (He t0 t0_in t0_pos) as [He' _].
  etransitivity; [|exact He']. unfold averaged, occupied.
  change (bins_over exg tz t0) with [Bin 0 0 0 0 0; Bin 0 0 0 0 1]. cbn [filter].
  do 2 (destruct (Rlt_dec _ _) as [_|n]; [|exfalso; apply n; ex_num]).
  unfold nsum. cbn [map fold_right xkey mcoords coords union no_vars tz tx t0 has_t has_v has_x has_z orb opt app bt bv bx by_ bz].
  rewrite nadd_zero_r. reflexivity.
Qed.
(** metallicities at the first pixel of a parametric component, age by age *)
Example C96_parametric_case : exists p a v a0 v0,
  par_get_p exL exmp "t_x" false false = Ok p /\ get_mean (par_obj exL (Fin 1) exmp) "z_tx" false = Ok a /\
  get_variance (par_obj exL (Fin 1) exmp) "z_tx" false = Ok v /\ get_mean (par_obj exL (Fin 1) exmp) "z_x" false = Ok a0 /\
  get_variance (par_obj exL (Fin 1) exmp) "z_x" false = Ok v0 /\
  averaged exg (par_joint exg exmod false false) tt_ tx p (fun j => nadd (ent v (coords (union tt_ tx) j))
    (npow (nsub (ent a (coords (union tt_ tx) j)) (ent a0 [0; 0]%nat)) 2)) t0 = ent v0 [0; 0]%nat /\ ent v0 [0; 0]%nat <> NaN.
Proof.
  assert (Hp : 0 < par_prob exg exmod false pv_x t0) by (unfold t0; rewrite exmod_x; lra).
  assert (Hpm : 0 < marg exg (par_joint exg exmod false false) tx t0)
    by exact (eq_ind_r (fun r => 0 < r) Hp (joint_marg exg exmod false exg_good tx t0)).
  destruct (C96_parametric exL exmp exg exmod (Fin 1) false exmp_on exg_good exmod_good Cz tt_ tx ltac:(discriminate) eq_refl eq_refl
    eq_refl eq_refl eq_refl ltac:(discriminate) ltac:(discriminate)) as (p & a & v & a0 & v0 & E1 & E2 & E3 & E4 & E5 & He).
  - intros _ [K|[K|[]]]; discriminate K.
  - intros _ [K|[K|[]]]; discriminate K.
  - intros _ _ [t v x y z] (Ht & _ & Hx & Hy & _). unfold par_prob, marg, over, pprob, pjoint, txz_mass.
    cbn [has_t has_v has_x has_z tt_ tx union orb pgrid bt bv bx by_ bz] in *.
    cbn in Ht, Hx, Hy. destruct t as [|[|t]]; [| |lia]; (destruct x as [|[|x]]; [| |lia]); (destruct y as [|y]; [|lia]); ev; lra.
  - exists p, a, v, a0, v0. do 5 (split; [assumption|]). destruct (He t0 t0_in Hpm) as (_ & X & Y). split; [exact X|exact Y].
Qed.
(** velocities in the first age bin of a mixture, metallicity by metallicity *)
Lemma exm_there D : D = tt_ \/ D = union tz tt_ -> forall i, in_grid exg i -> bt i = 0%nat ->
  forall q, (q < List.length expts)%nat -> 0 < marg exg (prob exg (pf expts q) false) D i.
Proof.
  intros HD [t v x y z] (_ & _ & _ & _ & Hz) E q Hq. cbn in E, Hz. subst t.
  destruct q as [|[|q]]; [| |cbn in Hq; lia]; (destruct z as [|[|z]]; [| |lia]); destruct HD as [-> | ->]; unfold tt_, tz, union; mix_num; ex_num.
Qed.
Example C96_mixture_case : exists p m v m0 v0,
  mix_get_p exm "z_t" true false false = Ok p /\ mix_mean exm "v_tz" false = Ok m /\ mix_variance exm "v_tz" false = Ok v /\
  mix_mean exm "v_t" false = Ok m0 /\ mix_variance exm "v_t" false = Ok v0 /\
  nadd (nmul (nadd (ent v [0; 0]%nat) (npow (nsub (ent m [0; 0]%nat) (ent m0 [0]%nat)) 2)) (ent p [0; 0]%nat))
       (nmul (nadd (ent v [0; 1]%nat) (npow (nsub (ent m [0; 1]%nat) (ent m0 [0]%nat)) 2)) (ent p [1; 0]%nat))
  = ent v0 [0]%nat /\ ent v0 [0]%nat <> NaN.
Proof.
  destruct (C96_mixture_variance exm exg _ expts false exm_on exg_good (exm_members _) Cv tz tt_ eq_refl eq_refl eq_refl eq_refl ltac:(discriminate))
    as (p & m & v & m0 & v0 & E1 & E2 & E3 & E4 & E5 & He).
  exists p, m, v, m0, v0. do 5 (split; [assumption|]).
  destruct (He t0 t0_in (exm_there tt_ (or_introl eq_refl) t0 t0_in eq_refl)) as (_ & He' & He'').
  { intros j Hj _. apply exm_there; [right; reflexivity| |].
    - apply bins_over_in in Hj as [Hj _]; [exact Hj|exact t0_in].
    - change (bins_over exg tz t0) with [Bin 0 0 0 0 0; Bin 0 0 0 0 1] in Hj. destruct Hj as [<-|[<-|[]]]; reflexivity. }
  split; [|exact He'']. etransitivity; [|exact He']. unfold averaged, occupied.
  change (bins_over exg tz t0) with [Bin 0 0 0 0 0; Bin 0 0 0 0 1]. cbn [filter].
  do 2 (destruct (Rlt_dec _ _) as [_|n]; [|exfalso; apply n; unfold tz, tt_, union; mix_num; ex_num]).
  unfold nsum. cbn [map fold_right xkey mcoords coords union no_vars tz tt_ t0 has_t has_v has_x has_z orb opt app bt bv bx by_ bz].
  rewrite nadd_zero_r. reflexivity.
Qed.
Example C96_mixture_covariance_case : exists p ma mb c ma0 mb0 c0,
  mix_get_p exm "z_t" true false false = Ok p /\ mix_mean exm "v_tz" false = Ok ma /\ mix_mean exm "x_tz" false = Ok mb /\
  mix_covariance exm "vx_tz" false = Ok c /\ mix_mean exm "v_t" false = Ok ma0 /\ mix_mean exm "x_t" false = Ok mb0 /\
  mix_covariance exm "vx_t" false = Ok c0 /\
  averaged exg (prob exg (mixf expts) false) tz tt_ p (fun j => nadd (ent c (0%nat :: coords (union tz tt_) j))
    (nmul (nsub (ent ma (coords (union tz tt_) j)) (ent ma0 [0]%nat)) (nsub (ent mb (0%nat :: coords (union tz tt_) j)) (ent mb0 [0; 0]%nat)))) t0
  = ent c0 [0; 0]%nat /\ ent c0 [0; 0]%nat <> NaN.
Proof.
  destruct (C96_mixture_covariance exm exg _ expts false exm_on exg_good (exm_members _) Cv Cx1 tz tt_ eq_refl eq_refl eq_refl eq_refl eq_refl ltac:(discriminate))
    as (p & ma & mb & c & ma0 & mb0 & c0 & E1 & E2 & E3 & E4 & E5 & E6 & E7 & He).
  exists p, ma, mb, c, ma0, mb0, c0. do 7 (split; [assumption|]).
  apply (He t0 t0_in (exm_there tt_ (or_introl eq_refl) t0 t0_in eq_refl)).
  intros j Hj _. apply exm_there; [right; reflexivity| |].
  - apply bins_over_in in Hj as [Hj _]; [exact Hj|exact t0_in].
  - change (bins_over exg tz t0) with [Bin 0 0 0 0 0; Bin 0 0 0 0 1] in Hj. destruct Hj as [<-|[<-|[]]]; reflexivity.
Qed.
