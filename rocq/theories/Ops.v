(** * Ops: sequences of truncate_wavelengths, bin_pixels and reset calls on one
    milesSSPs object, those that raise included. *)
From Coq Require Import Reals List Bool Arith ZArith String.
From Verif Require Import Num Arr PyStr ReadMiles Bin.
Import ListNotations.

Inductive op := Cut (lmd_min lmd_max : option R) | BinBy (pix_per_bin : R) | Reset.

(** bin_pixels, read_miles.py lines 182-193: when it raises, self.lmd may have been
    assigned already (line 191), which is so when the first np.reshape succeeds *)
Definition bin_step (m : miles) (k : R) : miles * res unit :=
  match bin_any m k with
  | Ok m' => (m', Ok tt)
  | Err e =>
      match m_X m with
      | Some x =>
          match shp x with
          | [n; p] =>
              if (0 <? py_int k)%Z
              then let i := Z.to_nat (py_int k) in
                   match sum_blocks i (firstn (drop_last (List.length (lmd m)) (n mod i)) (lmd m)) with
                   | Ok l => (with_lmd m l, Err e)
                   | Err _ => (m, Err e)
                   end
              else (m, Err e)
          | _ => (m, Err e)
          end
      | None => (m, Err e)
      end
  end.
(** truncate_wavelengths, lines 169-180: the indices are those of wavelengths, so of
    lines 179 and 180 only the first can raise, and nothing has been assigned by then *)
Definition cut_step (m : miles) (lo hi : option R) : miles * res unit :=
  match truncate_wavelengths m lo hi with Ok m' => (m', Ok tt) | Err e => (m, Err e) end.
(** reset, lines 195-197: self.lmd is assigned before the spectra are read *)
Definition reset_step (d : disk) (m : miles) : disk * miles * res unit :=
  match reset d m with
  | (d', Ok m') => (d', m', Ok tt)
  | (d', Err e) => (d', with_lmd m default_lmd, Err e)
  end.

Definition op_step (s : disk * miles) (o : op) : disk * miles * res unit :=
  match o with
  | Cut lo hi => let r := cut_step (snd s) lo hi in (fst s, fst r, snd r)
  | BinBy k => let r := bin_step (snd s) k in (fst s, fst r, snd r)
  | Reset => reset_step (fst s) (snd s)
  end.
Definition run_ops (s : disk * miles) (h : list op) : disk * miles := fold_left (fun s o => fst (op_step s o)) h s.
