(** Vocabulary for the statements about the marks of bins. *)
From Coq Require Import String Ascii List ZArith Reals Bool.
From Verif Require Import Base NumModel StrModel FmtSpec BinSpec DiagModel.
Import ListNotations.
Local Open Scope R_scope.

(** every third bin is left as it is, the next is red, the one after it blue *)
Definition turn (k : Z) (c : bin_colour) : Prop :=
  match (k mod 3)%Z with 0%Z => c = Ink | 1%Z => c = Red | _ => c = Blue end.
(** a blank and the first two figures of the diameter, without its power of ten *)
Definition two_figures (d : R) (text : str) : Prop :=
  exists num m e, text = L " " ++ num /\ numeral num m /\ 1 <= m < 10 /\ significant 2 d (m * powerRZ 10 e).
(** the marks of the bin that begins at the boundary [z] *)
Definition marks_bin (binning : string) (xr : R * R) (z0 z : Z) (m : bin_mark) : Prop :=
  let d := grid binning 0 z in
  d < pow10 (snd xr) /\
  exists c, turn (z - z0) c /\
  ((c <> Ink /\ m = Shade (log10 d) (log10 (grid binning 0 (z + 1))) c) \/
   (pow10 (fst xr) < d /\ exists h t, m = Edge (log10 d) h t c (Z.even (z - z0)) /\ In h [16 / 100; 1 / 2; 84 / 100] /\ two_figures d t)).
