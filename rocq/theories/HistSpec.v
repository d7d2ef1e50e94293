(** What a histogram is, independent of the model. *)
From Coq Require Import List Reals.
Import ListNotations.
Local Open Scope R_scope.

(** the number of values from a up to, but without b; and with b *)
Definition between (a b : R) (m : list R) : nat := length (filter (fun v => if Rle_dec a v then if Rlt_dec v b then true else false else false) m).
Definition between_closed (a b : R) (m : list R) : nat := length (filter (fun v => if Rle_dec a v then if Rle_dec v b then true else false else false) m).
(** the smallest and the largest value *)
Definition extent (m : list R) (lo hi : R) : Prop := In lo m /\ In hi m /\ forall v, In v m -> lo <= v <= hi.

(** k bars of one width side by side from the smallest value to the largest, each as high as there are values in it; a bar is (left edge, width, height) *)
Definition bars_of (m : list R) (lo hi : R) (k : nat) (bars : list (R * R * R)) : Prop :=
  let w := (hi - lo) / INR k in
  length bars = k /\
  forall i, (i < k)%nat ->
    nth_error bars i = Some (lo + INR i * w, w, INR (if Nat.eqb (S i) k then between_closed (lo + INR i * w) hi m
                                                     else between (lo + INR i * w) (lo + INR (S i) * w) m)).
(** the line around the bars *)
Definition outline_of (lo hi : R) (bars : list (R * R * R)) : list (R * R) :=
  (lo, 0) :: flat_map (fun b => let '(l, w, h) := b in [(l, h); (l + w, h)]) bars ++ [(hi, 0)].
(** how high the histogram is at x: that of the bar x is in, and nothing outside all bars; where two bars meet the one to the right, or the one to the left *)
Definition height_right (bars : list (R * R * R)) (x y : R) : Prop :=
  (exists l w, In (l, w, y) bars /\ l <= x < l + w) \/ (y = 0 /\ forall l w h, In (l, w, h) bars -> ~ (l <= x < l + w)).
Definition height_left (bars : list (R * R * R)) (x y : R) : Prop :=
  (exists l w, In (l, w, y) bars /\ l < x <= l + w) \/ (y = 0 /\ forall l w h, In (l, w, h) bars -> ~ (l < x <= l + w)).
(** the points of a line strictly between two abscissae *)
Definition inside (a b : R) (line : list (R * R)) : list (R * R) :=
  filter (fun p => if Rlt_dec a (fst p) then if Rlt_dec (fst p) b then true else false else false) line.
(** mean and standard deviation of some values *)
Definition average (m : list R) (mn : R) : Prop := mn * INR (length m) = fold_right Rplus 0 m.
Definition deviation (m : list R) (mn sd : R) : Prop := 0 <= sd /\ sd ^ 2 * INR (length m) = fold_right Rplus 0 (map (fun v => (v - mn) ^ 2) m).
