(** * NormalL: L-moments of a normal distribution and excess L-moments,
    popkinmocks/components/base.py lines 673-733 and 771-787.

    scipy's stats.norm(0,1).ppf is a function of the real numbers between 0 and
    1, given as an argument. *)
From Coq Require Import Reals List Bool Arith ZArith String.
From Verif Require Import Num Arr PyStr Cube Base Ssps Moments.
Import ListNotations.

(** nrm.ppf(p): infinite at the ends of the unit interval, nan outside *)
Definition nppf (ppf : R -> R) (p : num) : num :=
  match p with
  | Fin u => if Rltb 0 u then if Rltb u 1 then Fin (ppf u)
                              else if Reqb u 1 then PInf else NaN
             else if Reqb u 0 then NInf else NaN
  | _ => NaN
  end.

(** get_l_moment_normal, base.py lines 673-694, for np.linspace(0, 1, nodes);
    special.legendre(-1) raises ValueError *)
Definition l_moment_normal_on (nodes : nat) (ppf : R -> R) (j : nat) : res num :=
  match j with
  | O => Err ValueError
  | S n =>
      let F_edg := linspace 0 1 nodes in
      dF <- bop nsub (tail0 F_edg) (init0 F_edg) ;;
      s <- bop nadd (init0 F_edg) (tail0 F_edg) ;;
      let F_cnt := halve s in
      let x := amap (nppf ppf) F_cnt in
      let g := amap (fun a => npoly n (nsub (nmul (Fin 2) a) (Fin 1))) F_cnt in
      y <- bop nmul x g ;;
      q <- bop nmul y dF ;;
      total <- asum [0]%Z q ;;
      let l_moment_normal := ent total [] in
      Ok (if isclose l_moment_normal (Fin 0) then Fin 0 else l_moment_normal)
  end.

(** the number of points in base.py line 685 *)
Definition normal_nodes : nat := Z.to_nat 100000.
Definition get_l_moment_normal (ppf : R -> R) (j : nat) : res num := l_moment_normal_on normal_nodes ppf j.

(** get_normalised_l_moment_normal, base.py lines 696-708 *)
Definition get_normalised_l_moment_normal (ppf : R -> R) (j : nat) : res num :=
  l_moment_normal <- get_l_moment_normal ppf j ;;
  l2_normal <- get_l_moment_normal ppf 2 ;;
  Ok (ndiv l_moment_normal l2_normal).

(** get_excess_l_moment, base.py lines 710-733 *)
Definition get_excess_l_moment (ppf : R -> R) (o : obj) (which_dist : string) (j : nat) (light_weighted : bool)
  : res (arr num) :=
  l_moment <- get_normalised_l_moment o which_dist j light_weighted ;;
  l_moment_normal <- get_normalised_l_moment_normal ppf j ;;
  bop nsub l_moment (scal l_moment_normal).

(** get_excess_l_kurtosis, base.py lines 771-787 *)
Definition get_excess_l_kurtosis (ppf : R -> R) (o : obj) (which_dist : string) (light_weighted : bool) :=
  get_excess_l_moment ppf o which_dist 4 light_weighted.
