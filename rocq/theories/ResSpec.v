(** Vocabulary for the statements about counts corrected for resurfacing. *)
From Coq Require Import List Reals.
From Verif Require Import Base BinSpec ProdSpec EndSpec DfitSpec.
Import ListNotations.
Local Open Scope R_scope.

(** the position of the isochron that best fits the densities y x + c at the diameters d, in powers of ten of craters of 1 km or larger per
    km2, with the points weighted by their densities; a position of exactly 0 is taken for one that was not given, and stands for a0 *)
Definition best_isochron (a0 : R) (a : list R) (y : R -> R) (d : list R) (c : R) : R :=
  let n := weighted_mean (fun x => y x + c) (fun x => log10 (y x + c) - series 1 a (log10 x)) d in
  if Req_EM_T n 0 then a0 else n.
(** the density on that isochron at the largest of the diameters, less the density counted there *)
Definition missing (a0 : R) (a : list R) (y : R -> R) (d : list R) (c : R) : R :=
  pow10 (best_isochron a0 a y d c) * unit_isochron a (last d 0) - y (last d 0).
(** nothing is added at first; then, time after time, what was missing with the last addition *)
Fixpoint added (a0 : R) (a : list R) (y : R -> R) (d : list R) (k : nat) : R :=
  match k with
  | O => 0
  | S k => missing a0 a y d (added a0 a y d k)
  end.
(** two additions in a row differ by less than one crater in 10000 km2 *)
Definition settled (a0 : R) (a : list R) (y : R -> R) (d : list R) (k : nat) : Prop :=
  Rabs (added a0 a y d (S k) - added a0 a y d k) < 1 / 10000.
(** c is the correction: none for a single diameter, otherwise the addition at which it settles first, or the 21st *)
Definition correction (a0 : R) (a : list R) (y : R -> R) (d : list R) (c : R) : Prop :=
  ((length d <= 1)%nat -> c = 0) /\
  ((1 < length d)%nat -> exists k, (k <= 20)%nat /\ c = added a0 a y d (S k) /\ ((k < 20)%nat -> settled a0 a y d k) /\
    forall j, (j < k)%nat -> ~ settled a0 a y d j).
