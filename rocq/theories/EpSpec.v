(** Vocabulary for the statements about epoch systems and isochron lists. *)
From Coq Require Import String Ascii List ZArith Reals Bool.
From Verif Require Import Base StrModel CliModel FmtModel TsModel IoModel ProdModel.
Import ListNotations.
Local Open Scope R_scope.

(** ** Dictionaries of definitions *)
Definition named (n : str) (v : tsval) : Prop := exists d, v = TDict d /\ lookup d (L "name") = Some (TStr n).
(** [d] is the first definition with the name [n] *)
Definition first_named (n : str) (l : list tsval) (d : list (str * tsval)) : Prop :=
  exists before after, l = before ++ TDict d :: after /\ named n (TDict d) /\
    Forall (fun v => exists m, named m v /\ m <> n) before.
(** the fields every definition must have *)
Definition basic_fields (d : list (str * tsval)) (ep fm : tsval) : Prop :=
  lookup d (L "epoch") = Some ep /\ lookup d (L "formatting") = Some fm /\ lookup d (L "reference") <> None.

(** the isochron with parameter a has n craters per km2 of the diameter d and larger *)
Definition passes_through (pf : productionfn) (d n a : R) : Prop := pf_value pf "cumulative" d a = Ok (Some n).

(** ** Times *)
(** the part of epoch i that the axis from t_min to t_max shows: epoch i begins at its time, counted backwards from the present, and ends at
    the next one; the oldest has no end *)
Definition visible_from (time : list R) (t_min : R) (i : nat) : R := Rmax t_min (nth i time 0).
Definition visible_to (time : list R) (t_max : R) (i : nat) : R :=
  if Nat.ltb (S i) (length time) then Rmin t_max (nth (S i) time 0) else t_max.

(** ** Names *)
Definition separator (c : ascii) : Prop := c = ch " " \/ c = ch "-".
Definition word (w : str) : Prop := w <> [] /\ Forall (fun c => ~ separator c) w.
Inductive words_of : str -> list str -> Prop :=
| words_one w : word w -> words_of w [w]
| words_more w c s ws : word w -> separator c -> words_of s ws -> words_of (w ++ c :: s) (w :: ws).
Definition initial (w : str) : ascii := hd (ch " ") w.
(** two words: a small initial and the second initial; otherwise the initial of the first *)
Definition abbreviation (ws : list str) : str :=
  match ws with
  | [a; b] => [lower (initial a); initial b]
  | a :: _ => [initial a]
  | [] => []
  end.

(** ** Formatting entries: a digit and any letters *)
Definition entry_text (e : nat * str) : str := ascii_of_nat (48 + fst e) :: snd e.
Definition flagged (c : ascii) (e : nat * str) (b : bool) : Prop := b = true <-> In c (snd e).

(** ** Entries of an isochron list *)
Definition flag (c : ascii) : Prop := c = ch "a" \/ c = ch "s" \/ c = ch "h".
(** the age as written, and the letters after it *)
Definition iso_text (e : str * str) : str := fst e ++ snd e.
(** [shown es out]: the entries es ask for the isochrons out.  An entry whose beginning is no number is passed over. *)
Inductive shown : list (str * str) -> list (R * bool * bool * bool) -> Prop :=
| shown_nil : shown [] []
| shown_age t w v h a s es out :
    py_float t = Ok v -> t <> [] -> Forall (fun c => ~ flag c) t ->
    (h = true <-> In (ch "h") w) -> (a = true <-> In (ch "a") w) -> (s = true <-> In (ch "s") w) ->
    shown es out -> shown ((t, w) :: es) ((Rabs v, h, a, s) :: out)
| shown_other t w x es out : py_float t = Err x -> (t = [] \/ ~ flag (last t (ch " "))) -> shown es out -> shown ((t, w) :: es) out.
