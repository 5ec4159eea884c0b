(** * Claims C38-C40: components from particles. *)
From Coq Require Import Reals Lra Lia List Bool Arith ZArith String Ascii Permutation.
From Verif Require Import Num NumLemmas Arr Cube Base Spec Repr Build Particle ParticleSpec ParticleLemmas ParticleClaims
  NanLemmas ParticleExample.
Import ListNotations.
Local Open Scope R_scope.

(** ** C38 *)
(** the probability of a bin is its share of the in-bounds weight *)
Theorem C38_fractions : forall c g pw, cube_on c g -> good_grid g ->
  (forall q, In q pw -> 0 <= snd q) -> 0 < weight (in_bounds g) pw ->
  exists note comp p, from_particle c (map fst pw) (Some (map Fin (map snd pw))) = Ok (note, comp) /\
    get_p comp "tvxz" false false = Ok p /\ shp p = [nt g; nv g; nx g; ny g; nz g] /\
    (forall i, in_grid g i ->
       ent p [bt i; bv i; bx i; by_ i; bz i] = Fin (weight (inside g i) pw / weight (in_bounds g) pw)) /\
    nsum (map (ent p) (all_idx (shp p))) = Fin 1.
Proof. exact (fun c g pw Hc Hg => fraction_claim c g Hc Hg pw). Qed.
Print Assumptions C38_fractions.
Example C38_fractions_case : exists note comp p,
  from_particle excube [pa; pb; pout] (Some [Fin 1; Fin 3; Fin 2]) = Ok (note, comp) /\
  get_p comp "tvxz" false false = Ok p /\ ent p [1; 0; 0; 0; 1]%nat = Fin (1 / 4).
Proof.
  destruct (C38_fractions excube exg expw excube_on exg_good exp_pos) as (n & c & p & E & Ep & _ & Hp & _).
  { rewrite exp_total. lra. }
  exists n, c, p. split; [exact E|]. split; [exact Ep|]. etransitivity; [apply (Hp (Bin 1 0 0 0 1)); unfold in_grid; cbn; lia|].
  rewrite exp_bin, exp_total. reflexivity.
Qed.
(** so the component has this density, from which all its distributions follow
    (claims C01-C11) *)
Theorem C38_density : forall c g pw, cube_on c g -> good_grid g -> 0 < weight (in_bounds g) pw ->
  exists comp, from_particle c (map fst pw) (Some (map Fin (map snd pw))) = Ok (note_of g (map fst pw), comp) /\
    comp_on comp g (particle_density g pw).
Proof. exact (fun c g pw Hc Hg => density_claim c g Hc Hg pw). Qed.
Print Assumptions C38_density.
(** no weights means unit weights *)
Theorem C38_no_weights : forall c ps, from_particle c ps None = from_particle c ps (Some (repeat (Fin 1) (List.length ps))).
Proof. exact none_claim. Qed.
Print Assumptions C38_no_weights.
(** weights of another length are an error, unless there are no particles *)
Theorem C38_weights_length : forall c g ps w, cube_on c g -> good_grid g -> ps <> [] ->
  List.length w <> List.length ps -> from_particle c ps (Some w) = Err ValueError.
Proof. exact (fun c g ps w Hc Hg => length_claim c g Hc Hg ps w). Qed.
Print Assumptions C38_weights_length.
Example C38_weights_length_case : from_particle excube [pa; pb] (Some [Fin 1]) = Err ValueError.
Proof. apply (C38_weights_length excube exg); [exact excube_on|exact exg_good|discriminate|discriminate]. Qed.
Theorem C38_no_particles : forall c w, from_particle c [] w = from_particle c [] None.
Proof. exact unread_claim. Qed.
Print Assumptions C38_no_particles.
(** each particle on the grid is in exactly one bin *)
Theorem C38_one_bin : forall g p, good_grid g -> in_bounds g p = true ->
  exists i, in_grid g i /\ inside g i p = true /\ forall j, in_grid g j -> inside g j p = true -> j = i.
Proof. exact (fun g p Hg => one_bin g Hg p). Qed.
Print Assumptions C38_one_bin.
Theorem C38_only_in_bounds : forall g p i, good_grid g -> in_grid g i -> inside g i p = true -> in_bounds g p = true.
Proof. exact (fun g p i Hg => inside_bounds g Hg i p). Qed.
Print Assumptions C38_only_in_bounds.
Example C38_one_bin_case : in_bounds exg pa = true /\ in_bounds exg pout = false.
Proof. exact (conj pa_bounds pout_bounds). Qed.

(** ** C39 *)
(** dropping the particles off the grid leaves the component unchanged *)
Theorem C39_outside_ignored : forall c g pw, cube_on c g -> good_grid g ->
  let pw' := filter (fun q => in_bounds g (fst q)) pw in
  exists n n' comp, from_particle c (map fst pw) (Some (map snd pw)) = Ok (n, comp) /\
                    from_particle c (map fst pw') (Some (map snd pw')) = Ok (n', comp).
Proof. exact (fun c g pw Hc Hg => outside_claim c g Hc Hg pw). Qed.
Print Assumptions C39_outside_ignored.
Example C39_outside_ignored_case : exists n n' comp,
  from_particle excube [pa; pout; pb] (Some [Fin 1; NaN; Fin 3]) = Ok (n, comp) /\
  from_particle excube [pa; pb] (Some [Fin 1; Fin 3]) = Ok (n', comp).
Proof.
  pose proof (C39_outside_ignored excube exg [(pa, Fin 1); (pout, NaN); (pb, Fin 3)] excube_on exg_good) as H.
  cbv zeta in H. cbn [filter fst] in H. rewrite pa_bounds, pb_bounds, pout_bounds in H. exact H.
Qed.
(** the printed counts *)
Theorem C39_note : forall c g pw, cube_on c g -> good_grid g ->
  exists note comp, from_particle c (map fst pw) (Some (map snd pw)) = Ok (note, comp) /\
    n_total note = List.length pw /\
    n_lost note = List.length (filter (fun p => negb (in_bounds g p)) (map fst pw)) /\
    lost_lo_hi note = note_lo_hi g (map fst pw).
Proof. exact note_claim. Qed.
Print Assumptions C39_note.
Example C39_note_case : exists note comp,
  from_particle excube [pa; pb; pout] (Some [Fin 1; Fin 3; Fin 2]) = Ok (note, comp) /\
  n_lost note = 1%nat /\ n_total note = 3%nat.
Proof.
  destruct (C38_density excube exg expw excube_on exg_good) as (comp & E & _); [rewrite exp_total; lra|].
  eexists _, comp. split; [exact E|]. exact exp_note.
Qed.
(** without weight on the grid every distribution is nan *)
Theorem C39_nan : forall c g pw, cube_on c g -> good_grid g ->
  (forall q, In q pw -> 0 <= snd q) -> weight (in_bounds g) pw = 0 ->
  exists note comp, from_particle c (map fst pw) (Some (map Fin (map snd pw))) = Ok (note, comp) /\
    (forall S density lw, nonempty S = true ->
      exists p, get_p comp (name S) density lw = Ok p /\ shp p = dims S g /\
        forall i, in_grid g i -> ent p (coords S i) = NaN) /\
    (forall A C density lw, nonempty A = true -> nonempty C = true -> disjoint A C = true ->
      exists p, get_p comp (cname A C) density lw = Ok p /\ shp p = (dims A g ++ dims C g)%list /\
        forall i, in_grid g i -> ent p (coords A i ++ coords C i) = NaN).
Proof. exact nan_claim. Qed.
Print Assumptions C39_nan.
Example C39_nan_case : exists note comp p, from_particle excube [pout] (Some [Fin 2]) = Ok (note, comp) /\
  get_p comp "t" true true = Ok p /\ ent p [1%nat] = NaN.
Proof.
  destruct (C39_nan excube exg [(pout, 2)] excube_on exg_good) as (n & c & E & H & _).
  { intros q [<-|[]]; cbn; lra. }
  { rewrite weight_cons, weight_nil. cbn [fst]. rewrite pout_bounds. lra. }
  destruct (H (VSet true false false false) true true eq_refl) as (p & Ep & _ & Hp).
  exists n, c, p. split; [exact E|]. split; [exact Ep|]. apply (Hp (Bin 1 0 0 0 0)). unfold in_grid; cbn; lia.
Qed.

(** ** C40 *)
Theorem C40_order : forall c g pw pw', cube_on c g -> good_grid g -> Permutation pw pw' ->
  from_particle c (map fst pw) (Some (map snd pw)) = from_particle c (map fst pw') (Some (map snd pw')).
Proof. exact (fun c g pw pw' Hc Hg => order_claim c g Hc Hg pw pw'). Qed.
Print Assumptions C40_order.
Example C40_order_case :
  from_particle excube [pa; pb; pout] (Some [Fin 1; Fin 3; Fin 2]) =
  from_particle excube [pout; pa; pb] (Some [Fin 2; Fin 1; Fin 3]).
Proof.
  apply (C40_order excube exg [(pa, Fin 1); (pb, Fin 3); (pout, Fin 2)] [(pout, Fin 2); (pa, Fin 1); (pb, Fin 3)]
           excube_on exg_good).
  apply Permutation_sym. eapply Permutation_trans; [apply perm_swap|]. apply perm_skip, perm_swap.
Qed.
Theorem C40_scale : forall c g pw k, cube_on c g -> good_grid g -> 0 < k ->
  from_particle c (map fst pw) (Some (map Fin (map snd pw))) =
  from_particle c (map fst pw) (Some (map Fin (map (fun q => k * snd q) pw))).
Proof. exact (fun c g pw k Hc Hg => scale_claim c g Hc Hg pw k). Qed.
Print Assumptions C40_scale.
Example C40_scale_case :
  from_particle excube [pa; pb; pout] (Some [Fin 1; Fin 3; Fin 2]) =
  from_particle excube [pa; pb; pout] (Some [Fin (7 * 1); Fin (7 * 3); Fin (7 * 2)]).
Proof. apply (C40_scale excube exg expw 7 excube_on exg_good). lra. Qed.
