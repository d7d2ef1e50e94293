(** Specification vocabulary for the layout of a crater plot: independent of how the ranges are computed. *)
From Coq Require Import String List Ascii ZArith Reals.
Import ListNotations.
From Verif Require Import Base StrModel SetModel.
Local Open Scope R_scope.

(** a plot is given by what plotting it yields: its points (diameter, density), or an exception *)
Definition is_point (plots : list (res points)) (d y : R) : Prop := exists pts, In (Ok pts) plots /\ In (d, y) pts.
Definition all_positive (plots : list (res points)) : Prop := forall d y, is_point plots d y -> 0 < d /\ 0 < y.
(** the first plot that can be drawn has a point *)
Definition first_has_point (plots : list (res points)) : Prop :=
  exists pre q post, plots = pre ++ Ok q :: post /\ q <> [] /\ Forall (fun p => exists e, p = Err e) pre.
(** [lo] and [hi] are the least and greatest of the numbers described by [P] *)
Definition spans (P : R -> Prop) (lo hi : R) : Prop := P lo /\ P hi /\ forall v, P v -> lo <= v <= hi.
Definition log_diameter (plots : list (res points)) (v : R) : Prop := exists d y, is_point plots d y /\ v = log10 d.
Definition log_density (plots : list (res points)) (v : R) : Prop := exists d y, is_point plots d y /\ v = log10 y.

(** the margin above and below the data, in decades; left and right it is 0.3 and 0.8 *)
Definition y_margin (p : presentation) : R := match p with Differential => 6 / 10 | _ => 3 / 10 end.
(** y decades drawn in the length of one x decade *)
Definition y_per_x (p : presentation) : Z := match p with Differential => 2%Z | _ => 1%Z end.
(** the data and the margins are inside x0..x1, y0..y1 *)
Definition shows (p : presentation) (plots : list (res points)) (x0 x1 y0 y1 : Z) : Prop :=
  forall d y, is_point plots d y ->
    IZR x0 + 3 / 10 <= log10 d <= IZR x1 - 8 / 10 /\
    IZR y0 + y_margin p <= log10 y <= IZR y1 - y_margin p.
