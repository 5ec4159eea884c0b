(** * MixGen: what the lemmas on mixtures need to know of the members.

    A member is given by two densities: [f true] for the strings with v and
    [f false] for the others.  They are the same for a base component; for a
    parametric component the latter includes the mass outside the velocity
    range. *)
From Coq Require Import Reals Lra Lia List Bool Arith ZArith String Ascii.
From Verif Require Import Num NumLemmas Arr ArrLemmas PyStr Cube Base Spec SpecLemmas Repr CubeLemmas BaseLemmas
  CondLemmas Moments DistLemmas Mixture MixSpec.
Import ListNotations.
Local Open Scope R_scope.

Record member_on (mb : member) (g : grid) (f : bool -> joint) : Prop := {
  mb_nonneg : forall b, nonneg g (f b);
  mb_dom : forall t x y z, (t < nt g)%nat -> (x < nx g)%nat -> (y < ny g)%nat -> (z < nz g)%nat ->
    Sum (nv g) (fun v => mass g (f true) t v x y z) <= Sum (nv g) (fun v => mass g (f false) t v x y z);
  mb_log : forall S density, nonempty S = true ->
    exists m a, getattr_log_p (mb_table mb) (name S) = Ok m /\ m density false = Ok a /\
      arr_is a (dims S g) (fun idx => lg (marg g (mass g (f (has_v S))) S (rd S idx) / dens g density S (rd S idx)));
  mb_p : forall S density lw, nonempty S = true -> lw_ok g (f (has_v S)) lw ->
    exists a, mb_get_p mb (name S) density lw = Ok a /\ shp a = dims S g /\
      forall i, in_grid g i -> ent a (coords S i) =
        Fin (marg g (prob g (f (has_v S)) lw) S i / (if density then vol g S i else 1))
}.

Record mix_gen (self : mixture) (g : grid) (l : bool -> parts) : Prop := {
  mg_cube : cube_on (mx_cube self) g;
  mg_len : forall b, List.length (mx_members self) = List.length (l b);
  mg_weights : forall b, mx_weights self = map (fun q => Fin (snd q)) (l b);
  mg_ne : l false <> [];
  mg_pos : forall b k, (k < List.length (l b))%nat -> 0 < pw (l b) k;
  mg_mb : forall k mb, nth_error (mx_members self) k = Some mb -> member_on mb g (fun b => pf (l b) k)
}.

(** base components *)
Lemma base_member_on c g f : comp_on c g f -> good_grid g -> nonneg g f -> member_on (comp_member c) g (fun _ => f).
Proof.
  intros Hc Hg Hf. constructor.
  - intros _; exact Hf.
  - intros; apply Rle_refl.
  - intros S density HS. destruct (marginal_ok c g f Hc Hg Hf S density false HS ltac:(discriminate)) as (a & E & Ha).
    unfold get_log_marginal in E. cbn [mb_table comp_member].
    destruct (getattr_log_p (base_table c) (name S)) as [m|]; [|discriminate]. cbn [bind] in E. exists m, a. auto.
  - intros S density lw HS Hl. exact (get_p_marg c g f Hc Hg Hf S density lw HS Hl).
Qed.

Lemma mix_on_gen self g comps l : mix_on self g comps l -> good_grid g -> mix_gen self g (fun _ => l).
Proof.
  intros H Hg. constructor.
  - apply (mo_cube _ _ _ _ H).
  - intros _. rewrite (mo_members _ _ _ _ H), map_length. apply (mo_len _ _ _ _ H).
  - intros _. apply (mo_weights _ _ _ _ H).
  - apply (mo_ne _ _ _ _ H).
  - intros _ k Hk. destruct (nth_error comps k) as [c|] eqn:E.
    2:{ apply nth_error_None in E. rewrite (mo_len _ _ _ _ H) in E. lia. }
    pose proof (nth_error_nth' l ((fun _ _ _ _ _ => 0), 0) Hk) as El.
    destruct (mo_comp _ _ _ _ H _ _ _ E El) as (_ & _ & ?). exact H0.
  - intros k mb E. rewrite (mo_members _ _ _ _ H), nth_error_map in E.
    destruct (nth_error comps k) as [c|] eqn:Ec; [|discriminate E]. injection E as <-.
    assert (Hk : (k < List.length l)%nat) by (rewrite <- (mo_len _ _ _ _ H); apply nth_error_Some; congruence).
    pose proof (nth_error_nth' l ((fun _ _ _ _ _ => 0), 0) Hk) as El.
    destruct (mo_comp _ _ _ _ H _ _ _ Ec El) as (H1 & H2 & _). exact (base_member_on c g _ H1 Hg H2).
Qed.
