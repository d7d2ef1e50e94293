(** Vocabulary for the statements about Poisson ages from files. *)
From Coq Require Import List ZArith Reals.
From Verif Require Import Base PdfSpec EndSpec.
Import ListNotations.
Local Open Scope R_scope.

(** the i-th of n densities between 10^-10 and 10^5 times that of 1 Ga, evenly spaced in the logarithm *)
Definition relative_density (n i : nat) : R := pow10 (-10 + INR i * (15 / INR (n - 1))).
(** The Poisson age of k craters where e are expected at the density of 1 Ga, for a chronology n1 with the given rate: T are the ages of
    the densities, W their probabilities, in proportion to the probability of k craters at that density, the rate and the time since the age before *)
Definition poisson_ages (n1 rate : R -> R) (e : R) (k n : nat) (T W : nat -> R) : Prop :=
  (forall i, (i < n)%nat -> age_on n1 (n1 1 * relative_density n i) (T i)) /\
  (forall i j, (i <= j < n)%nat -> T i <= T j) /\
  (exists c, 0 < c /\ forall i, (i < n)%nat ->
     let lam := e * relative_density n i in
     W i = c * (lam ^ k * exp (- lam) / INR (fact k)) * rate (T i) * (match i with O => T 1%nat - T 0%nat | S j => T i - T j end)) /\
  sum_to W n = 1.
(** t is the age below which the fraction f of the probability lies, to within the spacing of the ages *)
Definition percentile (T W : nat -> R) (n : nat) (f t : R) : Prop :=
  forall i, (i < n)%nat -> (sum_to W (S i) <= f -> T i <= t) /\ (f <= sum_to W (S i) -> t <= T i).
