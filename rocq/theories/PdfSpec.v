(** Vocabulary for the statements about Poisson age distributions. *)
From Coq Require Import List ZArith Reals.
From Verif Require Import Base PdfModel.
Import ListNotations.
Local Open Scope R_scope.

(** the weight of sample i: density times width *)
Definition weight (p : pdf) (i : nat) : R := nth i (pdf_pdf p) 0 * nth i (pdf_dt p) 0.
Fixpoint sum_to (f : nat -> R) (n : nat) : R :=
  match n with O => 0 | S m => sum_to f m + f m end.

(** a discrete probability distribution on a non-decreasing time grid of n samples between 0 and
    5 Ga: sample i stands for the time between samples i-1 and i (sample 0 is given the width of
    sample 1); the cdf adds up the weights and ends at 1 *)
Record distribution (p : pdf) (n : nat) : Prop := {
  d_lengths : length (pdf_ts p) = n /\ length (pdf_dt p) = n /\ length (pdf_pdf p) = n /\ length (pdf_cdf p) = n;
  d_grid : forall i j, (i <= j < n)%nat -> 0 <= nth i (pdf_ts p) 0 <= nth j (pdf_ts p) 0 /\ nth j (pdf_ts p) 0 <= 5;
  d_width : forall i, (0 < i < n)%nat -> nth i (pdf_dt p) 0 = nth i (pdf_ts p) 0 - nth (i - 1) (pdf_ts p) 0;
  d_width0 : nth 0 (pdf_dt p) 0 = nth 1 (pdf_dt p) 0;
  d_nonneg : forall i, (i < n)%nat -> 0 <= nth i (pdf_pdf p) 0;
  d_total : sum_to (weight p) n = 1;
  d_cdf : forall i, (i < n)%nat -> nth i (pdf_cdf p) 0 = sum_to (weight p) (S i) }.

(** number of elements of a list with a property, counted one by one *)
Fixpoint tally (P : R -> Prop) (dec : forall x, {P x} + {~ P x}) (l : list R) : nat :=
  match l with [] => O | x :: r => if dec x then S (tally P dec r) else tally P dec r end.
