(** What "binning" means, independently of how the code computes it. *)
From Coq Require Import String List ZArith Reals.
Import ListNotations.
Local Open Scope R_scope.

(** The universal grids of bin boundaries, indexed by all integers.
    pseudo-log: 18 boundaries per decade (they do not move with the offset);
    the others: geometric progressions of ratio 2, 2^(1/2), 2^(1/4), 10^(1/10),
    10^(1/20), shifted by a fraction [offset] of a bin towards smaller sizes. *)
Definition pseudo_log_digits : list R :=
  [1; 1.1; 1.2; 1.3; 1.4; 1.5; 1.7; 2; 2.5; 3; 3.5; 4; 4.5; 5; 6; 7; 8; 9].

Definition grid (binning : string) (offset : R) (z : Z) : R :=
  if String.eqb binning "pseudo-log" then
    nth (Z.to_nat (z mod 18)) pseudo_log_digits 0 * Rpower 10 (IZR (z / 18))
  else if String.eqb binning "x2" then Rpower 2 (IZR z - offset)
  else if String.eqb binning "root-2" then Rpower 2 ((IZR z - offset) / 2)
  else if String.eqb binning "4th root-2" then Rpower 2 ((IZR z - offset) / 4)
  else if String.eqb binning "10/decade" then Rpower 10 ((IZR z - offset) / 10)
  else Rpower 10 ((IZR z - offset) / 20).

Definition real_binnings : list string :=
  ["pseudo-log"; "20/decade"; "10/decade"; "x2"; "root-2"; "4th root-2"]%string.

(** [n] consecutive grid points from number [z] on. *)
Definition grid_points (binning : string) (offset : R) (z : Z) (n : nat) : list R :=
  map (fun i => grid binning offset (z + Z.of_nat i)) (seq 0 n).

(** Craters are (diameter, fraction).  Total fraction / number of those with
    lo <= D < hi, and of those with lo <= D. *)
Fixpoint fraction_between (lo hi : R) (cs : list (R * R)) : R :=
  match cs with
  | [] => 0
  | (d, f) :: r =>
      (if Rle_dec lo d then if Rlt_dec d hi then f else 0 else 0) + fraction_between lo hi r
  end.
Fixpoint number_between (lo hi : R) (cs : list (R * R)) : nat :=
  match cs with
  | [] => O
  | (d, _) :: r =>
      (if Rle_dec lo d then if Rlt_dec d hi then 1 else 0 else 0) + number_between lo hi r
  end%nat.
Fixpoint fraction_from (lo : R) (cs : list (R * R)) : R :=
  match cs with
  | [] => 0
  | (d, f) :: r => (if Rle_dec lo d then f else 0) + fraction_from lo r
  end.
Fixpoint number_from (lo : R) (cs : list (R * R)) : nat :=
  match cs with
  | [] => O
  | (d, _) :: r => (if Rle_dec lo d then 1 else 0) + number_from lo r
  end%nat.
Fixpoint total_fraction (cs : list (R * R)) : R :=
  match cs with [] => 0 | (_, f) :: r => f + total_fraction r end.

Definition ascending (l : list R) : Prop :=
  forall i j, (i < j < length l)%nat -> nth i l 0 < nth j l 0.
