(** * Pad: transforms of the templates on a padded number of pixels. *)
From Coq Require Import Reals List Bool Arith ZArith String Ascii.
From Verif Require Import Num Arr PyStr Cube Base Parametric Fft Ssps ReadMiles Sharing.
Import ListNotations.
Local Open Scope string_scope.

(** the argument pad: False (or anything equal to it) or a string *)
Inductive padding := PadFalse | PadStr (p : string).

(** 2 ** int(np.ceil(np.log2(nl))), model_grids.py line 274, in real arithmetic.
    (Templates without pixels, for which np.log2 gives -inf and int raises
    OverflowError, cannot be made by the resampling and are not modelled.) *)
Definition padded_length (nl : nat) : nat := 2 ^ Z.to_nat (ceil (ln (INR nl) / ln 2)).

(** lines 271-276; len(self.w) is the number of rows of Xw *)
Definition fft_length (pad : padding) (nl : nat) : res nat :=
  match pad with
  | PadFalse => Ok nl
  | PadStr p => if String.eqb p "ppxf" then Ok (padded_length nl) else Err ValueError
  end.

(** _calculate_fourier_transform, model_grids.py lines 263-281, without the
    attributes n_pix and pad, which nothing reads *)
Definition calculate_fourier_transform (pad : padding) (s : ssps) : res ssps :=
  n <- fft_length pad (nth 0 (shp (Xw s)) O) ;;
  F <- rfft (T (Xw s)) n ;;
  Ok (Ssps (par_edges_z s) (par_edges_t s) (par_cents_z s) (par_cents_t s) (delta_t s) (delta_z s)
        (par_dims s) (light_weights s) (ssp_dv s) (Xw s) (T F) n).

(** a component after the attributes of its cube's templates were replaced in place *)
Definition base_see (self : component) (s : ssps) : component := Component (see (comp_cube self) s) (log_p_tvxz self).
Definition par_see (p : par) (s : ssps) : par :=
  Par (see (pa_cube p) s) (pa_xxp p) (pa_yyp p) (pa_zgrid p) (pa_t_pars p) (pa_log_p_t p) (pa_log_p_x_t p) (pa_t_dep p) (pa_log_p_z_tx p)
    (pa_mu_v p) (pa_sig_v p) (pa_theta_lims p).
