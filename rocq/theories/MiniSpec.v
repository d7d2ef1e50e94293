(** Vocabulary for the statements about the small plots of an age distribution. *)
From Coq Require Import List ZArith Reals.
From Verif Require Import Base PdfModel.
Import ListNotations.
Local Open Scope R_scope.

(** sample i is the last one at a time before t *)
Definition last_before (p : pdf) (t : R) (i : nat) : Prop :=
  (i < length (pdf_ts p))%nat /\ nth i (pdf_ts p) 0 < t /\ forall j, (i < j < length (pdf_ts p))%nat -> t <= nth j (pdf_ts p) 0.
(** samples a, a+1, ..., b-1: time and density *)
Definition run (p : pdf) (a b : nat) : list (R * R) := map (fun i => (nth i (pdf_ts p) 0, nth i (pdf_pdf p) 0)) (seq a (b - a)).
(** the highest density *)
Definition peak (p : pdf) (m : R) : Prop := In m (pdf_pdf p) /\ Forall (fun x => x <= m) (pdf_pdf p).
(** the first and the last sample with more than half of the highest density *)
Definition half_width (p : pdf) (a b : nat) : Prop :=
  exists m, peak p m /\
    let high i := (i < length (pdf_pdf p))%nat /\ m / 2 < nth i (pdf_pdf p) 0 in
    high a /\ high b /\ forall i, high i -> (a <= i <= b)%nat.
