(** * CalibSpec: the calibration of Zhu et al. 2020 with its numbers written out
    (C47, C74), and names of .npz files (C72). *)
From Coq Require Import Reals String.
Local Open Scope R_scope.

(** variance of metallicity about the mean mu: log10 var = -0.689 + 0.899 log10 mu *)
Definition calibrated (mu var : R) : Prop :=
  0 < var /\ ln var / ln 10 = - (689 / 1000) + 899 / 1000 * (ln mu / ln 10).

(** the largest metallicity of the table is 0.9999 of the one, top, at which the
    variance relation reaches 1 *)
Definition table_top (zt : R) : Prop :=
  exists top, 0 < top /\ 689 / 1000 = 899 / 1000 * (ln top / ln 10) /\ zt = 9999 / 10000 * top.

(** a name has the extension .npz *)
Definition has_npz (s : string) : Prop := exists r, s = (r ++ ".npz")%string.
