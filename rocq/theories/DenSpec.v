(** Independent specification for densities: the text of a density with its errors.  Does not mention the model of the program's densities. *)
From Coq Require Import String Ascii List ZArith Reals.
From Verif Require Import Base StrModel FmtModel FmtSpec.
Import ListNotations.
Local Open Scope R_scope.

(** [s] states the value [v] to three figures, with errors to two, in km^-2: a mantissa with errors and, unless it is 1, a power of ten *)
Definition states (s : str) (v lo hi : R) : Prop :=
  exists num m e n1 y1 n2 y2, numeral num m /\ significant 3 v (m * powerRZ 10 e) /\
    numeral n1 y1 /\ significant 2 ((hi - v) / powerRZ 10 e) y1 /\ numeral n2 y2 /\ significant 2 ((v - lo) / powerRZ 10 e) y2 /\
    s = L "$" ++ (num ++ L "^{+" ++ n1 ++ L "}_{-" ++ n2 ++ L "}") ++ (if Z.eqb e 0 then [] else L "\cdot10^{" ++ int_str e ++ L "}") ++ L "$ km$^{-2}" ++ L "$".
(** the ages at which the chronology is drawn *)
Definition drawn_age (t : R) : Prop := exists i : nat, (i < 1000)%nat /\ t = 5 * INR i / 999.
