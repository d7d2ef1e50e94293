(** Vocabulary for the statements about number formatting. *)
From Coq Require Import String Ascii List ZArith Reals Bool.
From Verif Require Import Base StrModel.
Import ListNotations.
Local Open Scope R_scope.

(** the value of a decimal digit, and of a string of digits *)
Definition digit_value (c : ascii) : Z := (Z.of_nat (nat_of_ascii c) - 48)%Z.
Definition digits_value (s : str) : Z := fold_left (fun a c => (10 * a + digit_value c)%Z) s 0%Z.
Definition all_digits (s : str) : Prop := Forall (fun c => is_digit c = true) s.
(** [s] is a plain decimal numeral: sign, integer part, decimals; [x] is its value *)
Definition numeral (s : str) (x : R) : Prop :=
  exists neg ip fp, ip <> [] /\ all_digits ip /\ all_digits fp /\
    s = (if neg : bool then L "-" else []) ++ ip ++ (match fp with [] => [] | _ => L "." ++ fp end) /\
    x = (if neg then -1 else 1) * IZR (digits_value (ip ++ fp)) / 10 ^ length fp.
(** a numeral with an exponent, such as 1.2e-05 *)
Definition exponent_numeral (s : str) (x : R) : Prop :=
  exists m y es e, numeral m y /\ s = m ++ L "e" ++ es /\ x = y * powerRZ 10 e /\
    exists k, all_digits k /\ k <> [] /\
      ((es = L "+" ++ k /\ e = digits_value k) \/ (es = L "-" ++ k /\ e = (- digits_value k)%Z)).
(** an integer written in decimal *)
Definition integer_numeral (s : str) (z : Z) : Prop := numeral s (IZR z) /\ ~ In "."%char s.

(** [y] is [x] rounded to a multiple of [u], half to even *)
Definition rounded_to (u x y : R) : Prop :=
  exists m, y = IZR m * u /\ Rabs (x - y) <= u / 2 /\ (Rabs (x - y) = u / 2 -> Z.Even m).
(** [y] is [x] rounded to [d] significant figures: to the place of the d-th figure of x *)
Definition significant (d : nat) (x y : R) : Prop :=
  (x = 0 /\ y = 0) \/
  exists e, powerRZ 10 e <= Rabs x < powerRZ 10 (e + 1) /\ rounded_to (powerRZ 10 (e - Z.of_nat d + 1)) x y.
(** the digits of a numeral *)
Definition digits_of (s : str) : str := filter is_digit s.

(** the units and their size in Ga *)
Definition unit_table : list (R * str) := [(1, L "Ga"); (/ 10 ^ 3, L "Ma"); (/ 10 ^ 6, L "ka"); (/ 10 ^ 9, L "a")].
(** the largest unit in which the age is at least 1, or years *)
Definition best_unit (age f : R) (u : str) : Prop :=
  In (f, u) unit_table /\ (f <= age \/ u = L "a") /\ forall f' u', In (f', u') unit_table -> f' <= age -> f' <= f.
