(** * PlotAxes: ticks and labels of images and lines, popkinmocks/ifu_cube.py
    lines 205-232, 312-331, 333-372 and 374-408.

    matplotlib's axes are represented by what the methods hand to them. *)
From Coq Require Import Reals List Bool Arith ZArith String Ascii.
From Verif Require Import Num Arr PyStr Cube Ssps Plot.
Import ListNotations.
Local Open Scope string_scope.

(** _get_ticks, lines 205-232; None is the string "default", i.e. matplotlib's
    own ticks, whose labels are their positions *)
Definition ticks := option (list R * list R).   (* positions, labels *)
Definition get_ticks (mg : mgrid) (which_variable : string) : res ticks :=
  if String.eqb which_variable "x1" then Ok None
  else if String.eqb which_variable "x2" then Ok None
  else if String.eqb which_variable "t" then Ok (Some (g_img_t_ticks mg, g_t_ticks mg))
  else if String.eqb which_variable "z" then Ok (Some (g_img_z_ticks mg, g_z_ticks mg))
  else if String.eqb which_variable "v" then Ok None
  else Err ValueError.

(** an axis: ticks and label *)
Record axis := Axis { ax_ticks : ticks; ax_label : option string }.

(** ticks and label of one axis, lines 318-330; set_xticks([]) removes the ticks *)
Definition image_axis (mg : mgrid) (v : string) (label_ax : bool) : res axis :=
  if negb label_ax then Ok (Axis (Some ([], [])) None)
  else t <- get_ticks mg v ;; l <- get_axis_label v ;; Ok (Axis t (Some l)).

(** imshow, lines 279-331, with the axes *)
Definition imshow_axes (p : pcube) (mg : mgrid) (h : heap) (img : arr num) (view : list string) (label_ax : bool)
  : heap * res (axes_image * (axis * axis)) :=
  let (h', r) := imshow p h img view in
  (h', ai <- r ;;
       a0 <- image_axis mg (nth 0 view "") label_ax ;;
       a1 <- image_axis mg (nth 1 view "") label_ax ;;
       Ok (ai, (a0, a1))).

(** ax.plot(x, y): numbers count as arrays of length one; the first axes must
    agree, and there are at most two.  A second axis gives one line for each
    entry. *)
Definition mpl_plot (x y : arr num) : res unit :=
  match shp y with
  | [] => if Nat.eqb (len0 x) 1 then Ok tt else Err ValueError
  | [n] | [n; _] => if Nat.eqb (len0 x) n then Ok tt else Err ValueError
  | _ => Err ValueError
  end.

(** what is drawn *)
Record line_plot := LinePlot { lp_x : arr num; lp_y : arr num; lp_axis : axis }.

(** plot, lines 333-372 *)
Definition plot (c : cube) (mg : mgrid) (which_var : string) (y : arr num) (xspacing : string) : res line_plot :=
  x <- plot_x c which_var y xspacing ;;
  t <- (if String.eqb xspacing "discrete" then get_ticks mg which_var else Ok None) ;;
  _ <- mpl_plot x y ;;
  l <- get_axis_label which_var ;;
  Ok (LinePlot x y (Axis t (Some l))).

(** plot_spectrum, lines 374-408 *)
Definition plot_spectrum (lmd w y : arr num) : res line_plot :=
  x <- plot_spectrum_x lmd w y ;;
  _ <- mpl_plot x y ;;
  Ok (LinePlot x y (Axis None (Some "Wavelength [$\AA$]"))).
