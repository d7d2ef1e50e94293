(** Independent specification for what a plot adds to a diagram.  Does not mention the model of overplot. *)
From Coq Require Import List Reals.
From Verif Require Import Base.
Import ListNotations.
Local Open Scope R_scope.

(** [l] has [n] points of the relation f between diameter and density, evenly spaced in the logarithm of the diameter (the first coordinate) from [lo] to [hi] *)
Definition curve_points (f : R -> R -> Prop) (lo hi : R) (n : nat) (l : list (R * R)) : Prop :=
  length l = n /\ forall i, (i < n)%nat -> exists x y, nth_error l i = Some (x, y) /\ x = log10 lo + INR i / INR (n - 1) * (log10 hi - log10 lo) /\ f (pow10 x) y.
(** where a point of axes with the ranges [xr] and [yr] (in decades), [w] wide and [h] high, is on the paper, from their lower left corner *)
Definition on_paper (xr yr : R * R) (w h : R) (log_d log_y : R) : R * R :=
  (w * ((log_d - fst xr) / (snd xr - fst xr)), h * ((log_y - fst yr) / (snd yr - fst yr))).
(** a place given in fractions of the axes *)
Definition fraction_on_paper (w h : R) (p : R * R) : R * R := (w * fst p, h * snd p).
