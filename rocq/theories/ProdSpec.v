(** Vocabulary for the statements about production functions. *)
From Coq Require Import String List ZArith Reals.
From Verif Require Import Base ProdModel.
Import ListNotations.
Local Open Scope R_scope.

(** c0 + c1 x + c2 x^2 + ... *)
Fixpoint series (i : nat) (c : list R) (x : R) : R :=
  match c with [] => 0 | a :: r => a * x ^ i + series (S i) r x end.

(** number of craters at least as large as entry i of an incremental table *)
Fixpoint total_from (i : nat) (h : list R) : R :=
  match h, i with
  | [], _ => 0
  | x :: r, O => x + total_from O r
  | _ :: r, S j => total_from j r
  end.

(** lower limit of root-2 bin i, where bin idx starts at 1 km *)
Definition root2_edge (idx : Z) (i : nat) : R := Rpower 2 (IZR (Z.of_nat i - idx) / 2).
(** its centre (geometric mean of its limits) *)
Definition root2_centre (idx : Z) (i : nat) : R := Rpower 2 (IZR (Z.of_nat i - idx) / 2 + 1 / 4).

(** weighted sum of squares of a one-parameter model f(x, a) *)
Fixpoint chi2 (f : R -> R -> R) (xs ys sigma : list R) (a : R) : R :=
  match xs, ys, sigma with
  | x :: xs, y :: ys, s :: ss => ((f x a - y) / s) ^ 2 + chi2 f xs ys ss a
  | _, _, _ => 0
  end.
Definition minimises (g : R -> R) (a : R) : Prop := forall b, g a <= g b.

(** a production function as the program builds it *)
Inductive built : productionfn -> Prop :=
| built_poly a lo hi : built (Poly a lo hi)
| built_tab h idx t : Forall (fun x => 0 < x) h -> (idx < length h)%nat -> (2 <= length h)%nat ->
    make_tabular h (Z.of_nat idx) = Ok t -> built (Tab t).

(** squared residuals of a model of the density, in the logarithm, with weights w *)
Fixpoint log_misfit (model : R -> R -> R) (w d y : list R) (a : R) : R :=
  match w, d, y with
  | w :: ws, d :: ds, y :: ys => w * (log10 (model d a) - log10 y) ^ 2 + log_misfit model ws ds ys a
  | _, _, _ => 0
  end.
(** what is expected of scipy's curve_fit for a one-parameter model whose parameter is additive *)
Definition solves_least_squares (cfit : (R -> R -> R) -> list R -> list R -> list R -> R) : Prop :=
  forall f xs ys sigma, xs <> [] -> length xs = length ys -> length ys = length sigma ->
    Forall (fun s => 0 < s) sigma -> (forall x a, In x xs -> f x a = a + f x 0) ->
    minimises (chi2 f xs ys sigma) (cfit f xs ys sigma).
