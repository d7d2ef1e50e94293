(** Vocabulary for the statements about chronology functions. *)
From Coq Require Import List Reals.
From Verif Require Import Base NumModel ChronModel.
Local Open Scope R_scope.

(** what every chronology definition shipped with the program satisfies *)
Definition positive_coefficients (c : chron) : Prop := 0 < ch_p0 c /\ 0 < ch_p1 c /\ 0 <= ch_p3 c.
(** the ages of the inversion table: 1000 equidistant ages from 0 to 5 Ga *)
Definition table_age (t : R) : Prop := exists i : nat, (i <= 999)%nat /\ t = 5 * INR i / 999.
(** the spacing of these ages *)
Definition age_step : R := 5 / 999.
