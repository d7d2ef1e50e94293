(** The page of the diagrams with an age axis and of the maps: Craterplotset.py EstablishFontandScaling, create_time_axis_plotspace (layout),
    create_map_plotspace, and the texts and the ratios of age_area_plot.  Definitions only. *)
From Coq Require Import String Ascii List ZArith Reals Bool.
From Verif Require Import Base NumModel StrModel FmtModel IoModel CliModel PlotModel PdfModel AaModel.
Import ListNotations.
Local Open Scope R_scope.

(** ** Craterplotset.py 316, 999: the text of print_dimensions as numbers *)
Definition dims_of (s : str) : res (list R) := mapM py_float (split_chr (ch "x") [] s).
(** Craterplotset.py 315-322, 998-1005: margin, size of the page in cm, and aspect ratio *)
Record page := mkPage { pg_margin : R; pg_x : R; pg_y : R; pg_aspect : R }.
(** Craterplotset.py 315-322, 998-1005; two variables cannot be set to more than two numbers *)
Definition page_of (pt_size : R) (dims : list R) : res page :=
  let margin := pt_size * (2 / 10) in
  match dims with
  | [d] => Ok (mkPage margin (5 * d + 2 * margin) (5 * d + 2 * margin) 1)
  | [w; h] => if Reqb w 0 then Err ZeroDivision else Ok (mkPage margin (w + 2 * margin) (h + 2 * margin) (h / w))
  | _ => Err ValueError
  end.
(** as in Craterplotset.py 374-377: position of axes: left, bottom, width, height *)
Record box := mkBox { bx : R; by_ : R; bw : R; bh : R }.
(** Craterplotset.py 381-383, 397, 1008: as fractions of the page; matplotlib accepts only numbers *)
Definition fractions (p : page) (b : box) : res box :=
  if Reqb (pg_x p) 0 || Reqb (pg_y p) 0 then Err NotANumber
  else Ok (mkBox (bx b / pg_x p) (by_ b / pg_y p) (bw b / pg_x p) (bh b / pg_y p)).

(** ** Craterplotset.py 990-1011: the page of a map and its axes *)
Definition map_page (dimensions : str) (pt_size : R) : res (page * box) :=
  do! dims <- dims_of dimensions;
  do! p <- page_of pt_size dims;
  let m := pg_margin p in
  if Reqb m 0 then Err ZeroDivision
  else do! b <- fractions p (mkBox (m * 1) (m * 1) (m * (pg_x p / m - 2)) (m * (pg_y p / m - 2))); Ok (p, b).

(** ** Craterplotset.py 372-397, 445-447: the axes of the two parts of the age axis, those of the whole, those of the colours, and the mark between the parts *)
Record time_page := mkTimePage { tp_page : page; tp_lin : box; tp_log : box; tp_all : box; tp_bar : option box; tp_joint : option (R * R) }.
(** Craterplotset.py 365-397, 445-447 *)
Definition time_layout (uncertainty : bool) (dimensions : str) (pt_size : R) (a : time_axis) : res time_page :=
  do! dims <- dims_of dimensions;
  do! p <- page_of pt_size dims;
  let m := pg_margin p in
  let width_linear := ta_linear a * (pg_x p - m * 2) in
  let pos_linear := mkBox m m width_linear (pg_y p - 2 * m) in
  let pos_log := mkBox (m + width_linear) m ((1 - ta_linear a) * (pg_x p - m * 2)) (bh pos_linear) in
  let pos_all := mkBox m m (pg_x p - m * 2) (pg_y p - m * 2) in
  do! lin <- fractions p pos_linear;
  do! log <- fractions p pos_log;
  do! all <- fractions p pos_all;
  do! bar <- (if uncertainty then do! b <- fractions p (mkBox (pg_x p - m + 2 / 10) m (2 / 10) (pg_y p - m * 2)); Ok (Some b) else Ok None);
  Ok (mkTimePage p lin log all bar
        (if ta_crossover a && (Rltb (ta_switch a) (ta_max a) && Rltb (ta_min a) (ta_switch a)) then Some (ta_linear a, 0) else None)).

(** ** Craterplotset.py 110-117: the factor of a font *)
Definition fonts : list (str * R) :=
  [(L "Open Sans", 89 / 100); (L "Noto Sans", 89 / 100); (L "Myriad Pro", 1); (L "Verdana", 83 / 100); (L "DejaVu Sans", 83 / 100);
   (L "Tahoma", 93 / 100); (L "Times New Roman", 99 / 100)].
(** Craterplotset.py 118-141: size of the letters, of the names of the axes, distance of the title, width of lines *)
Record letters := mkLetters { lt_size : R; lt_axis : R; lt_pad : R; lt_line : R }.
(** Craterplotset.py 110-117: a font that is not in the table *)
Fixpoint font_factor (l : list (str * R)) (font : str) : res R :=
  match l with
  | [] => Err KeyError
  | (k, f) :: r => if seqb k font then Ok f else font_factor r font
  end.
(** Craterplotset.py 98-141: the settings that depend on letter size and font; registering the fonts is not modelled *)
Definition letters_of (font : str) (pt_size sz_ratio : R) : res letters :=
  do! f <- font_factor fonts font;
  let s := pt_size * f in
  Ok (mkLetters s (s * (9 / 10)) (s * 1) (4 / 10 * sz_ratio)).

(** ** Craterplotset.py 964-968: the logarithm of a ratio that is shown; others are not numbers *)
Definition ratio_range : R * R := (log10 (1 / 5), log10 5).
(** Craterplotset.py 965-968; the logarithm of 0 is not greater than any number *)
Definition shown_ratio (r : R) : option R :=
  if Rleb r 0 then None
  else if Rltb (fst ratio_range) (log10 r) && Rltb (log10 r) (snd ratio_range) then Some (log10 r) else None.
(** Craterplotset.py 902, 969-971: the nine colours *)
Definition ratio_colour (r : R) : option Z :=
  match shown_ratio r with Some v => Some (colour_index 9 (fst ratio_range) (snd ratio_range) v) | None => None end.
(** Craterplotset.py 972-973: the labels beside the colours and where they are *)
Definition ratio_labels : list (str * R) :=
  combine (map L ["0.1"; ".2"; ".33"; ".5"; ".7"; "1"; "1.4"; "2"; "3"; "5"; "10"]%string)
          (map log10 [1 / 10; 2 / 10; 1 / 3; 5 / 10; 1 / (14 / 10); 1; 14 / 10; 2; 3; 5; 10]).

(** ** Craterplotset.py 977-984: the texts at the borders of the covered part and where they are; [xe] is None without an equilibrium function.
    The transformation of the second is that of the data, which here is the same. *)
Definition border_texts (ef : bool) (ye xe : option R) : list (str * (R * R)) :=
  (match ye with Some y => if truth ye && Rltb y (98 / 100) then [(L "whole globe", (82 / 100, y))] else [] | None => [] end) ++
  (if ef then match xe with Some x => if truth xe && Rltb (2 / 100) x then [(L "saturation", (x, 87 / 100))] else [] | None => [] end else []).
