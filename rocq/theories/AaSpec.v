(** Vocabulary for the statements about the uncertainty plot. *)
From Coq Require Import List ZArith Reals Bool.
From Verif Require Import Base PlotModel AaModel.
Import ListNotations.
Local Open Scope R_scope.

(** the position x, in widths of the plot, at which the axis shows the age t *)
Definition along (p : part) (u : R) : R := x_left p + (x_right p - x_left p) * u.
Inductive placed (a : time_axis) (t x : R) : Prop :=
| placed_linear : let p := linear_part a in t_right p <= t <= t_left p -> x = along p ((t_left p - t) / (t_left p - t_right p)) -> placed a t x
| placed_log p : log_part a = Some p -> t_right p <= t <= t_left p ->
    x = along p ((log10 (t_left p) - log10 t) / (log10 (t_left p) - log10 (t_right p))) -> placed a t x.

(** ** Polygons with horizontal and vertical edges: a point is inside if the ray to the right crosses an odd number of edges *)
Definition crosses (p q r : R * R) : bool :=
  if Req_EM_T (fst q) (fst r) then
    if Rlt_dec (fst p) (fst q) then
      if Rlt_dec (Rmin (snd q) (snd r)) (snd p) then if Rlt_dec (snd p) (Rmax (snd q) (snd r)) then true else false else false
    else false
  else false.
Fixpoint crossings (p : R * R) (l : list (R * R)) (first : R * R) : bool :=
  match l with
  | [] => false
  | [q] => crosses p q first
  | q :: ((r :: _) as t) => xorb (crosses p q r) (crossings p t first)
  end.
Definition inside (p : R * R) (l : list (R * R)) : bool := match l with q :: _ => crossings p l q | [] => false end.
(** whether a point of the plot is covered *)
Definition shaded (ye xe : option R) (p : R * R) : bool := match covered ye xe with Some l => inside p l | None => false end.
