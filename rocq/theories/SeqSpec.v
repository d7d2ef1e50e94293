(** Specification vocabulary for the sequence diagram. *)
From Coq Require Import String Ascii List Reals.
From Verif Require Import Base StrModel.
Import ListNotations.
Local Open Scope R_scope.

(** [broken s t]: [t] is [s] with a line break for each backslash that is followed by an n, and that n *)
Inductive broken : str -> str -> Prop :=
  | B_nil : broken [] []
  | B_break s t : broken s t -> broken (bsl :: ch "n" :: s) (nl :: t)
  | B_char c s t : ~ (c = bsl /\ exists r, s = ch "n" :: r) -> broken s t -> broken (c :: s) (c :: t).
(** a text without the pair of quotes around it, if it has one *)
Definition unquoted (s t : str) : Prop :=
  (exists q, (q = dq \/ q = sq) /\ s = [q] ++ t ++ [q]) \/
  ((~ exists q w, (q = dq \/ q = sq) /\ s = [q] ++ w ++ [q]) /\ t = s).
(** a colour of which [part] is [a] and the rest [b], channel by channel *)
Definition blend (part : R) (a b c : R * R * R) : Prop :=
  let '(ar, ag, ab) := a in let '(br, bg, bb) := b in let '(cr, cg, cb) := c in
  cr - br = part * (ar - br) /\ cg - bg = part * (ag - bg) /\ cb - bb = part * (ab - bb).
(** the number of the members of a list that have a property *)
Inductive count_of {A} (P : A -> Prop) : list A -> nat -> Prop :=
  | N_nil : count_of P [] 0
  | N_yes x l n : P x -> count_of P l n -> count_of P (x :: l) (S n)
  | N_no x l n : ~ P x -> count_of P l n -> count_of P (x :: l) n.
