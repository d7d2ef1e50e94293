(** Chronology functions.  Definitions only. *)
From Coq Require Import String List ZArith Reals Bool.
From Verif Require Import Base NumModel.
Import ListNotations.
Local Open Scope R_scope.

(** Chronologyfn.py 43-45: the coefficients used by the formulas, p[0], p[1], p[3]. *)
Record chron := mkChron { ch_p0 : R; ch_p1 : R; ch_p3 : R }.

(** Chronologyfn.py 22-59 after the definition has been found in the source.  Without
    'coefficients' self.model is never set and N1 (line 59) fails with AttributeError; with fewer
    than four coefficients the formula fails with IndexError. *)
Definition make_chron (coefficients : option (list R)) : res chron :=
  match coefficients with
  | None => Err AttributeError
  | Some p =>
      do! p0 <- pyindex p 0; do! p1 <- pyindex p 1; do! p3 <- pyindex p 3;
      Ok (mkChron p0 p1 p3)
  end.

(** Chronologyfn.py 14-15, 64-67 *)
Definition N1 (c : chron) (t : R) : R := ch_p0 c * (exp (ch_p1 c * t) - 1) + ch_p3 c * t.
(** Chronologyfn.py 17-18, 72-75 *)
Definition phi (c : chron) (t : R) : R := ch_p1 c * ch_p0 c * exp (ch_p1 c * t) + ch_p3 c.
(** Chronologyfn.py 69-70.  For t=0 numpy gives -inf; log10 of a non-positive number is left
    unspecified here and not used. *)
Definition cf_a0 (c : chron) (t : R) : R := log10 (N1 c t).

(** Chronologyfn.py 24 *)
Definition t_steps : nat := 1000.
(** Chronologyfn.py 58 *)
Definition cf_ts : list R := linspace 0 5 t_steps.
(** Chronologyfn.py 58-59, 84: the inversion table *)
Definition cf_table (c : chron) : list (R * R) := map (fun t => (N1 c t, t)) cf_ts.
(** Chronologyfn.py 80-85, n1 given *)
Definition cf_t (c : chron) (n1 : R) : R :=
  match interp n1 (cf_table c) with Ok t => t | Err _ => 0 end.
(** Chronologyfn.py 80-85, a0 given *)
Definition cf_t_a0 (c : chron) (a0 : R) : R := cf_t c (pow10 a0).
