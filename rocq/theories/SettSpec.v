(** Vocabulary for the statements about settings. *)
From Coq Require Import String Ascii List ZArith Reals Bool.
From Verif Require Import Base StrModel TsModel IoModel SccModel CliModel CliSpec NumModel SetModel SettModel.
Import ListNotations.
Local Open Scope R_scope.

(** the number that a value stands for; texts are read by Python's float *)
Inductive as_number : value -> R -> Prop :=
| an_num x : as_number (VNum x) x
| an_int z : as_number (VInt z) (IZR z)
| an_bool (b : bool) : as_number (VBool b) (if b then 1 else 0)
| an_text s x : py_float s = Ok x -> as_number (VStr s) x.
(** the whole number that a value stands for: a number is cut off towards zero, a text must be whole *)
Inductive as_whole : value -> Z -> Prop :=
| aw_int z : as_whole (VInt z) z
| aw_up x z : 0 <= x -> IZR z <= x < IZR z + 1 -> as_whole (VNum x) z
| aw_down x z : x < 0 -> IZR z - 1 < x <= IZR z -> as_whole (VNum x) z
| aw_bool (b : bool) : as_whole (VBool b) (if b then 1 else 0)%Z
| aw_text s z : int_of (TStr s) = Ok z -> as_whole (VStr s) z.
(** the parts of a list, or the characters of a text *)
Inductive parts : value -> list value -> Prop :=
| parts_list l : parts (VList l) l
| parts_text s : parts (VStr s) (map (fun c => VStr [c]) s).
(** a list of numbers *)
Definition as_numbers (v w : value) : Prop := exists l ns, parts v l /\ Forall2 as_number l ns /\ w = VList (map VNum ns).
(** how a plot set keeps the value [v] given for the setting [k] *)
Definition kept_by_set (k : str) (v w : value) : Prop :=
  let axes := map L ["xrange"; "yrange"]%string in
  let numbers := map L ["pt_size"; "ref_diameter"]%string in
  let wholes := map L ["randomness"; "mu"; "invert"; "text_halo"; "sig_figs"]%string in
  (In k axes /\ as_numbers v w) \/
  (In k numbers /\ exists x, as_number v x /\ w = VNum x) \/
  (In k wholes /\ exists z, as_whole v z /\ w = VInt z) \/
  (~ In k (axes ++ numbers ++ wholes) /\ w = v).
(** how a plot keeps the value [v] given for the setting [k]; said only of settings that the program knows *)
Definition kept_by_plot (k : str) (v w : value) : Prop :=
  let wholes := map L ["error_bars"; "snap"; "hide"; "age_left"; "show_age"; "resurf"; "resurf_showall"; "isochron"; "psym"]%string in
  let plain := map L ["cratercount"; "source"; "name"; "range"; "type"; "colour"; "binning"]%string in
  (k = L "offset_age" /\ as_numbers v w) \/
  (In k wholes /\ exists z, as_whole v z /\ w = VInt z) \/
  (In k plain /\ w = v).
(** calls of UpdateSettings one after the other, none of which is refused *)
Inductive updates : attributes -> list (list (list (str * value))) -> attributes -> Prop :=
| updates_none a : updates a [] a
| updates_one a c a1 cs a2 : update_set a c = (a1, None) -> updates a1 cs a2 -> updates a (c :: cs) a2.
(** settings after the values [given], in the order of giving, on top of [a] *)
Definition hold (kept : str -> value -> value -> Prop) (a : attributes) (given : list (str * value)) (a' : attributes) : Prop :=
  forall k, match last_given given k with Some v => exists w, kept k v w /\ a' k = Some w | None => a' k = a k end.
