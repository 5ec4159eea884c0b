(** * MilesSpec: what a directory of MILES template files means.

    Independent of the parser: a template file is described by its fields, and
    its name is the text  <imf>Z<m|p><digits>.<digits>T<digits>.<digits>_i<end>. *)
From Coq Require Import Reals List Bool Arith String Ascii.
From Verif Require Import Num PyStr.
Import ListNotations.
Local Open Scope R_scope.
Local Open Scope string_scope.

Record mfile := MFile {
  f_imf : string;
  f_neg : bool;                 (* metallicity sign letter is 'm' *)
  f_zi : list nat; f_zf : list nat;   (* digits of |[M/H]| before and after the point *)
  f_ti : list nat; f_tf : list nat;   (* digits of the age in Gyr *)
  f_end : string
}.

(** the decimal numeral with digits [i] before and [f] after the point *)
Definition digit_char (d : nat) : ascii := ascii_of_nat (48 + d).
Definition dec_str (i f : list nat) : string :=
  of_chars (map digit_char i) ++ "." ++ of_chars (map digit_char f).
(** its value by positional notation *)
Definition dec_val (i f : list nat) : R :=
  Sum (List.length i) (fun k => INR (nth k i O) * 10 ^ (List.length i - 1 - k)) +
  Sum (List.length f) (fun k => INR (nth k f O) / 10 ^ S k).

Definition z_text (f : mfile) : string := (if f_neg f then "m" else "p") ++ dec_str (f_zi f) (f_zf f).
Definition t_text (f : mfile) : string := dec_str (f_ti f) (f_tf f).
Definition file_name (f : mfile) : string :=
  f_imf f ++ "Z" ++ z_text f ++ "T" ++ t_text f ++ "_i" ++ f_end f.
Definition file_z (f : mfile) : R :=
  if f_neg f then - dec_val (f_zi f) (f_zf f) else dec_val (f_zi f) (f_zf f).
Definition file_t (f : mfile) : R := dec_val (f_ti f) (f_tf f).

(** the restrictions under which the fields can be told apart *)
Record miles_form (f : mfile) : Prop := {
  mf_imf : has_char "Z" (f_imf f) = false;
  mf_end_Z : has_char "Z" (f_end f) = false;
  mf_end_T : (count_occ ascii_dec (chars (f_end f)) "T"%char <= 1)%nat;
  mf_end_i : forall a b, f_end f <> a ++ "_i" ++ b;
  mf_zi : f_zi f <> []; mf_ti : f_ti f <> [];
  mf_dzi : Forall (fun d => d < 10)%nat (f_zi f);
  mf_dzf : Forall (fun d => d < 10)%nat (f_zf f);
  mf_dti : Forall (fun d => d < 10)%nat (f_ti f);
  mf_dtf : Forall (fun d => d < 10)%nat (f_tf f)
}.

(** closed limits; None means the default range of the code *)
Definition within (lim : R * R) (x : R) : Prop := fst lim <= x <= snd lim.
Definition age_range (l : option (R * R)) : R * R := match l with None => (-3, 30) | Some l => l end.
Definition z_range (l : option (R * R)) : R * R := match l with None => (-3, 3) | Some l => l end.

(** [l'] consists of exactly the elements of [l] satisfying [P], in order *)
Inductive kept {A} (P : A -> Prop) : list A -> list A -> Prop :=
| kept_nil : kept P [] []
| kept_yes x l l' : P x -> kept P l l' -> kept P (x :: l) (x :: l')
| kept_no x l l' : ~ P x -> kept P l l' -> kept P (x :: l) l'.

(** [u] lists the distinct values of [l] in increasing order *)
Definition distinct_sorted (l u : list R) : Prop :=
  (forall x, In x u <-> In x l) /\
  (forall i j, (i < j)%nat -> (j < List.length u)%nat -> nth i u 0 < nth j u 0).

(** exactly one file for every metallicity and age that occurs *)
Definition full_grid (fs : list mfile) : Prop :=
  forall f h, In f fs -> In h fs ->
    exists k, In k fs /\ file_z k = file_z f /\ file_t k = file_t h /\
      forall k', In k' fs -> file_z k' = file_z f -> file_t k' = file_t h -> k' = k.
