(** * Plot: the coordinate side of the plotting methods of popkinmocks/ifu_cube.py.

    What matplotlib draws is represented by the array and the extent handed to
    it; [pixel_box] states where it puts each pixel (origin "upper", the default;
    keyword arguments that change this are not modelled).  Colour bars are left
    out; ticks and labels are in PlotAxes.v. *)
From Coq Require Import Reals List Bool Arith ZArith String Ascii.
From Verif Require Import Num Arr PyStr Cube.
Import ListNotations.
Local Open Scope string_scope.

(** A Python sequence of floats is a tuple or a list; lists can be changed in
    place, so the cube's ranges live in a small heap. *)
Inductive pyseq := PTuple (l : list num) | PList (l : list num).
Definition items (s : pyseq) : list num := match s with PTuple l | PList l => l end.
Definition is_list (s : pyseq) : bool := match s with PList _ => true | PTuple _ => false end.
Definition heap := nat -> pyseq.
Definition upd (h : heap) (l : nat) (s : pyseq) : heap := fun k => if Nat.eqb k l then s else h k.

(** a cube whose x1rng and x2rng are the objects at two heap locations
    (ifu_cube.py lines 34-35 store the arguments themselves) *)
Record pcube := PCube { p_cube : cube; p_x1 : nat; p_x2 : nat }.

(** a reference to a sequence: an object in the heap or a freshly built tuple *)
Inductive ref := RLoc (l : nat) | RVal (s : pyseq).
Definition deref (h : heap) (r : ref) : pyseq := match r with RLoc l => h l | RVal s => s end.

(** get_variable_extent, ifu_cube.py lines 234-258, returning references *)
Definition get_variable_extent_ref (p : pcube) (which_variable : string) : res ref :=
  if String.eqb which_variable "x1" then Ok (RLoc (p_x1 p))
  else if String.eqb which_variable "x2" then Ok (RLoc (p_x2 p))
  else e <- get_variable_extent (p_cube p) which_variable ;; Ok (RVal (PTuple [fst e; snd e])).

(** _get_image_extent, ifu_cube.py lines 260-277 *)
Definition get_image_extent (p : pcube) (which_variable : string) : res ref :=
  if (String.eqb which_variable "x1" || String.eqb which_variable "x2" || String.eqb which_variable "v")%bool
  then get_variable_extent_ref p which_variable
  else if (String.eqb which_variable "t" || String.eqb which_variable "z")%bool
       then Ok (RVal (PTuple [Fin 0; Fin 1]))
       else Err ValueError.

(** extent += other (ifu_cube.py line 311): a list is extended in place, a tuple
    is replaced by a new tuple and cannot be added to a list *)
Definition iadd (h : heap) (extent other : ref) : res (heap * ref) :=
  match deref h extent, deref h other with
  | PTuple a, PTuple b => Ok (h, RVal (PTuple (a ++ b)))
  | PTuple _, PList _ => Err TypeError
  | PList a, o => match extent with
                  | RLoc l => Ok (upd h l (PList (a ++ items o)), extent)
                  | RVal _ => Ok (h, RVal (PList (a ++ items o)))
                  end
  end.

(** np.flipud *)
Definition flipud {A} (a : arr A) : arr A :=
  Arr (shp a) (fun idx => match idx with [] => ent a [] | i :: r => ent a ((len0 a - 1 - i)%nat :: r) end).

(** what ax.imshow is given *)
Record axes_image := AxesImage { ai_data : arr num; ai_extent : list num }.

(** imshow, ifu_cube.py lines 279-327.  [view] is a list of names.  matplotlib
    raises TypeError for arrays that are not two dimensional (colour images,
    i.e. three dimensional arrays, are not modelled) and ValueError when the
    extent does not have four entries. *)
Definition imshow (p : pcube) (h : heap) (img : arr num) (view : list string) : heap * res axes_image :=
  match view with
  | v0 :: v1 :: _ =>
      match get_image_extent p v0 with
      | Err e => (h, Err e)
      | Ok extent =>
          match get_image_extent p v1 with
          | Err e => (h, Err e)
          | Ok other =>
              match iadd h extent other with
              | Err e => (h, Err e)
              | Ok (h', extent') =>
                  let data := flipud (T img) in
                  (h', match shp data with
                       | [_; _] => if Nat.eqb (List.length (items (deref h' extent'))) 4
                                   then Ok (AxesImage data (items (deref h' extent')))
                                   else Err ValueError
                       | _ => Err TypeError
                       end)
              end
          end
      end
  | _ => (h, Err IndexError)
  end.

(** a history of plotting calls; exceptions are caught by the user *)
Fixpoint run_imshow (p : pcube) (h : heap) (calls : list (arr num * list string)) : heap :=
  match calls with
  | [] => h
  | (img, view) :: calls' => run_imshow p (fst (imshow p h img view)) calls'
  end.

(** Where matplotlib draws pixel (r, c) of a rows x cols image with extent
    (left, right, bottom, top) and origin "upper": horizontal and vertical range. *)
Definition pixel_box (rows cols : nat) (left right bottom top : R) (r c : nat) : (R * R) * (R * R) :=
  ((left + INR c * ((right - left) / INR cols), left + INR (c + 1) * ((right - left) / INR cols)),
   (top - INR (r + 1) * ((top - bottom) / INR rows), top - INR r * ((top - bottom) / INR rows)))%R.

(** get_axis_label, ifu_cube.py lines 181-203 *)
Definition get_axis_label (which_dist : string) : res string :=
  if String.eqb which_dist "x1" then Ok "$x_1$"
  else if String.eqb which_dist "x2" then Ok "$x_2$"
  else if String.eqb which_dist "t" then Ok "$t$ [Gyr]"
  else if String.eqb which_dist "z" then Ok "$z$ [M/H]"
  else if String.eqb which_dist "v" then Ok "$v$ [km/s]"
  else Err ValueError.

(** the abscissae chosen by plot, ifu_cube.py lines 352-363: physical or
    discrete spacing; any other xspacing leaves x unbound *)
Definition plot_x (c : cube) (which_var : string) (ydata : arr num) (xspacing : string) : res (arr num) :=
  if String.eqb xspacing "physical" then get_variable_values c which_var
  else if String.eqb xspacing "discrete" then
    _ <- get_variable_extent c which_var ;;
    Ok (linspace 0 1 (size_of (shp ydata)))
  else Err UnboundLocalError.

(** the wavelengths chosen by plot_spectrum, ifu_cube.py lines 382-394: by the
    length of the first axis; a mismatch only prints and leaves the name unbound *)
Definition plot_spectrum_x (lmd w : arr num) (ydata : arr num) : res (arr num) :=
  match shp ydata with
  | [] => Err IndexError
  | n :: _ =>
      if Nat.eqb n (size_of (shp lmd)) then Ok lmd
      else if Nat.eqb n (size_of (shp w)) then Ok (amap nexp w)
      else Err UnboundLocalError
  end.
