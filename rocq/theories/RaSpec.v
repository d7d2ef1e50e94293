(** Vocabulary for the properties of the randomness analysis. *)
From Coq Require Import String Ascii List ZArith Reals Bool Permutation.
From Verif Require Import Base.
Import ListNotations.
Local Open Scope R_scope.

(** ** Points on a surface *)
Section Points.
Context {Point : Type}.
Variable dist : Point -> Point -> R.
(** points drawn one after the other: each erases the earlier ones not farther away than [r]; what is left *)
Fixpoint survivors (r : R) (drawn : list Point) : list Point :=
  match drawn with
  | [] => []
  | e :: later => if forallb (fun p => Rltb r (dist p e)) later then e :: survivors r later else survivors r later
  end.
(** no two points of the list within [r] of each other *)
Definition apart (r : R) (l : list Point) : Prop := ForallOrdPairs (fun p q => r < dist p q) l.
(** what is assumed of the distance *)
Definition metric : Prop := (forall p q, 0 <= dist p q) /\ (forall p, dist p p = 0) /\ (forall p q, dist p q = dist q p).
(** what is assumed of the grid of cells: the search around p with angle a finds once every cell with a point not farther than
    a times the radius *)
Definition search_covers (pix : Point -> Z) (cone : Point -> R -> list Z) (radius : R) : Prop :=
  0 < radius /\ (forall p a, NoDup (cone p a)) /\ (forall p q a, dist p q <= a * radius -> In (pix q) (cone p a)).
(** a table of cells that holds exactly the given points, each in its own cell *)
Definition holds (pix : Point -> Z) (h : list (Z * list Point)) (pts : list Point) : Prop :=
  NoDup (map fst h) /\ (forall id l, In (id, l) h -> Forall (fun p => pix p = id) l) /\ Permutation (concat (map snd h)) pts.
End Points.

(** the points of the rounds so far, [zs] being the numbers asked for *)
Definition stream {Point} (batch : nat -> Z -> list Point) (zs : list Z) : list Point :=
  concat (map (fun p => batch (fst p) (snd p)) (combine (seq 0 (length zs)) zs)).

(** d is the k-th smallest number (k = 1, 2 ...) of the list *)
Definition count (P : R -> bool) (l : list R) : nat := length (filter P l).
Definition kth_smallest (k : nat) (l : list R) (d : R) : Prop :=
  In d l /\ (count (fun x => Rltb x d) l < k)%nat /\ (k <= count (fun x => Rleb x d) l)%nat.

(** cells that can be reached over neighbours *)
Inductive reach (neighbours : Z -> res (list Z)) (a : Z) : Z -> Prop :=
| reach_start : reach neighbours a a
| reach_next b c : reach neighbours a b -> (exists l, neighbours b = Ok l /\ In c l) -> reach neighbours a c.
(** a grid of cells all of whose neighbours are cells *)
Definition closed_grid (neighbours : Z -> res (list Z)) (grid : list Z) : Prop :=
  forall b, In b grid -> exists l, neighbours b = Ok l /\ incl l grid.

(** ** Trials.  The workers in the order in which they take up trials 0, 1, 2 ... fix everything: *)
Section Trials.
Context {Measure Rng : Type}.
Variable trial : nat -> Rng -> Measure * Rng.
Fixpoint one_after_the_other (i : nat) (rng : nat -> Rng) (takers : list nat) : list Measure :=
  match takers with
  | [] => []
  | w :: r => fst (trial i (rng w)) :: one_after_the_other (S i) (fun v => if Nat.eqb v w then snd (trial i (rng w)) else rng v) r
  end.
End Trials.
(** the n-th measure of one generator, for trials that do not depend on their index *)
Fixpoint draw {Measure Rng} (f : Rng -> Measure * Rng) (g : Rng) (n : nat) : Measure :=
  match n with O => fst (f g) | S n => draw f (snd (f g)) n end.

(** the workers that take up trials, in order; the number of trials taken up before trial i by the worker that takes up trial i *)
Fixpoint takers_of {A} (take : A -> option nat) (l : list A) : list nat :=
  match l with [] => [] | a :: r => match take a with Some w => w :: takers_of take r | None => takers_of take r end end.
Definition earlier_of_same (takers : list nat) (i : nat) : nat := count_occ Nat.eq_dec (firstn i takers) (nth i takers O).

(** the share of values below v, in percent *)
Definition percent_below (l : list R) (v : R) : R := 100 * INR (count (fun x => Rltb x v) l) / INR (length l).
