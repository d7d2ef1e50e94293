(** Vocabulary for the statements about ages from files. *)
From Coq Require Import String List ZArith Reals Sorted.
From Verif Require Import Base BinSpec ChronSpec.
Import ListNotations.
Local Open Scope R_scope.

(** the boundary of the binning at or below x, that above allowed if it is nearer than a ten-millionth *)
Definition lower_boundary (b : string) (x g : R) : Prop := exists z, g = grid b 0 z /\ g < x * 1.0000001 <= grid b 0 (z + 1).
(** the boundary at or above y, that below allowed if it is nearer than a millionth *)
Definition upper_boundary (b : string) (y g : R) : Prop := exists z, g = grid b 0 z /\ grid b 0 (z - 1) < y * 0.999999 <= g.
(** bin number z of the binning lies between lo and hi and has a crater *)
Definition occupied (b : string) (lo hi : R) (craters : list (R * R)) (z : Z) : Prop :=
  lo <= grid b 0 z /\ grid b 0 (z + 1) <= hi /\ exists c, In c craters /\ grid b 0 z <= fst c < grid b 0 (z + 1).
(** d are the lower ends of these bins, smallest first *)
Definition fitted_at (b : string) (lo hi : R) (craters : list (R * R)) (d : list R) : Prop :=
  StronglySorted Rlt d /\ forall x, In x d <-> exists z, x = grid b 0 z /\ occupied b lo hi craters z.
(** the mean of v over d with weights w *)
Definition weighted_mean (w v : R -> R) (d : list R) : R := Rsum (map (fun x => w x * v x) d) / Rsum (map w d).
(** t is the age, in Ga, at which the chronology n1 has reached n: never older than the exact age, and younger by at most a step of 5/999 Ga;
    5 Ga for what it has not reached by then *)
Definition age_on (n1 : R -> R) (n t : R) : Prop :=
  0 <= t <= 5 /\ (forall T, 0 <= T <= 5 -> n1 T = n -> T - age_step <= t <= T) /\ (n1 5 <= n -> t = 5).
