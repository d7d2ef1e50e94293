(** Vocabulary for the measure of adjacent areas, the outlines of cells and the significance. *)
From Coq Require Import List ZArith Reals.
From Verif Require Import Base.
Import ListNotations.
Local Open Scope R_scope.

(** a point of the unit sphere *)
Definition unit_vector (v : R * R * R) : Prop := let '(x, y, z) := v in x ^ 2 + y ^ 2 + z ^ 2 = 1.
(** the point of the unit sphere at a longitude and latitude in degrees *)
Definition on_sphere (p : R * R) : R * R * R :=
  let lon := fst p * (PI / 180) in
  let lat := snd p * (PI / 180) in
  (cos lat * cos lon, cos lat * sin lon, sin lat).

(** the average, and the standard deviation: the root of the average squared distance from the average *)
Definition average (l : list R) (a : R) : Prop := a * INR (length l) = Rsum l.
Definition deviation (l : list R) (s : R) : Prop :=
  0 <= s /\ forall a, average l a -> average (map (fun x => (x - a) ^ 2) l) (s ^ 2).

(** ** Sides on a sphere of radius 1: from p to q at a distance d, and the places between *)
Section Sides.
Variable dist : R * R -> R * R -> R.
(** the place [x] is at the part [f] of the way from p to q *)
Definition part_of_way (p q : R * R) (f : R) (x : R * R) : Prop :=
  dist p x = f * dist p q /\ dist x q = (1 - f) * dist p q.
(** what is assumed of the geodesic from p to q *)
Definition geodesic (inv : R * R -> R * R -> R * R) (fwd : R * R -> R -> R -> R * R) (p q : R * R) : Prop :=
  let azimuth := fst (inv p q) in
  let distance := snd (inv p q) in
  distance = dist p q /\ 0 <= distance /\ fwd p azimuth 0 = p /\ fwd p azimuth distance = q /\
  forall s t, 0 <= s -> s <= t -> t <= distance -> dist (fwd p azimuth s) (fwd p azimuth t) = t - s.
End Sides.
(** the sides of a ring: from each place to the next, from the last to the first *)
Definition sides (ring : list (R * R)) : list ((R * R) * (R * R)) :=
  match ring with [] => [] | p :: r => combine ring (r ++ [p]) end.
(** the places whose indices are given *)
Definition corners {A} (vertices : list A) (region : list Z) (l : list A) : Prop :=
  Forall2 (fun id v => (0 <= id)%Z /\ nth_error vertices (Z.to_nat id) = Some v) region l.
