(** Independent specification for spatial counts: spherical caps, arcs, rims and frames.  Does not mention the model's functions. *)
From Coq Require Import List Reals Lra.
Import ListNotations.
Local Open Scope R_scope.

(** area of the spherical cap of diameter [d], measured along the surface, on a sphere of radius [r] *)
Definition cap_area (r d : R) : R := 2 * PI * r ^ 2 * (1 - cos (d / (2 * r))).
(** area of a segment of the unit disc cut off at the fraction [x] of its diameter, as a fraction of the disc *)
Definition segment_area (x : R) : R := (acos (1 - 2 * x) - (1 - 2 * x) * sqrt (1 - (1 - 2 * x)²)) / PI.

(** the direction of a point given by longitude and latitude in degrees *)
Definition deg (x : R) : R := x * PI / 180.
Definition vec := (R * R * R)%type.
Definition direction (p : R * R) : vec := (cos (deg (snd p)) * cos (deg (fst p)), cos (deg (snd p)) * sin (deg (fst p)), sin (deg (snd p))).
Definition scale (k : R) (a : vec) : vec := match a with (x, y, z) => (k * x, k * y, k * z) end.
Definition plus (a b : vec) : vec := match a, b with (x, y, z), (u, v, w) => (x + u, y + v, z + w) end.
Definition dot (a b : vec) : R := match a, b with (x, y, z), (u, v, w) => x * u + y * v + z * w end.
Definition minus (a b : vec) : vec := plus a (scale (-1) b).
(** [q] lies on the shorter great-circle arc from [a] to [b]: its direction is a non-negative combination of theirs *)
Definition on_arc (a b q : R * R) : Prop := exists u v, 0 <= u /\ 0 <= v /\ direction q = plus (scale u (direction a)) (scale v (direction b)).
Definition in_limits (l : (R * R) * (R * R)) (q : R * R) : Prop :=
  fst (fst l) <= fst q <= snd (fst l) /\ fst (snd l) <= snd q <= snd (snd l).
Definition on_globe (q : R * R) : Prop := -180 <= fst q <= 180 /\ -90 <= snd q <= 90.

(** distance in the plane *)
Definition apart (p q : R * R) : R := sqrt ((fst p - fst q)² + (snd p - snd q)²).

(** [lo] and [hi] are the least and greatest of some numbers *)
Definition spans (xs : list R) (lo hi : R) : Prop := In lo xs /\ In hi xs /\ forall x, In x xs -> lo <= x <= hi.
