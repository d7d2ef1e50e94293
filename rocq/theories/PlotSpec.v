(** Vocabulary for the statements about scales and axes. *)
From Coq Require Import List ZArith Reals.
Import ListNotations.
Local Open Scope R_scope.

(** 1, 2 or 5 times a power of ten *)
Definition nice_number (s : R) : Prop := exists m e, (m = 1 \/ m = 2 \/ m = 5) /\ s = m * powerRZ 10 e.
(** the number of ticks asked for: five if nothing is asked for, never less than two *)
Definition wanted (max_ticks : option Z) : Z :=
  match max_ticks with None | Some 0%Z => 5%Z | Some n => Z.max n 2 end.
(** consecutive multiples of [step] *)
Definition multiples (first : Z) (step : R) (n : nat) : list R := map (fun j => IZR (first + Z.of_nat j) * step) (seq 0 n).
(** the integer next to x in the direction of zero *)
Definition toward_zero (x : R) (z : Z) : Prop := Rabs (IZR z) <= Rabs x < Rabs (IZR z) + 1 /\ 0 <= x * IZR z.
