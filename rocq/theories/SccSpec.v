(** Vocabulary for the statements about spatial crater counts. *)
From Coq Require Import String Ascii List ZArith Reals Bool.
From Verif Require Import Base StrModel StrSpec FmtSpec SccModel.
Import ListNotations.
Local Open Scope R_scope.

(** a coordinate as the file keeps it: 15 decimals *)
Definition kept_coordinate (x y : R) : Prop := rounded_to (/ 10 ^ 15) x y.
(** the vertices of s are those of r, with runs of the same vertex made one *)
Definition without_repeats (r s : ring) : Prop :=
  exists k : list nat, length k = length s /\ r = concat (map (fun p => repeat (fst p) (S (snd p))) (combine s k)) /\
    forall a p q b, s = a ++ p :: q :: b -> p <> q.
(** s is the ring r as the file keeps it *)
Definition kept_ring (r s : ring) : Prop :=
  exists t, Forall2 (fun p q => kept_coordinate (fst p) (fst q) /\ kept_coordinate (snd p) (snd q)) r t /\ without_repeats t s.
(** a version number, such as 3.6.10 *)
Definition version_number (v : str) : Prop := v <> [] /\ Forall (fun c => is_digit c = true \/ c = "."%char) v.
(** a crater as the file keeps it, for a reader of positions and for a reader of fractions *)
Definition kept_position (c d : crater) : Prop :=
  significant 7 (c_diam c) (c_diam d) /\ kept_coordinate (c_lon c) (c_lon d) /\ kept_coordinate (c_lat c) (c_lat d).
Definition kept_fraction (c : crater) (p : R * R) : Prop :=
  significant 7 (c_diam c) (fst p) /\ significant 3 (c_frac c) (snd p).
(** sizes that are written without an exponent *)
Definition plain_size (x : R) : Prop := 1 / 10 ^ 4 <= x < 10 ^ 6 - 1 / 2.
