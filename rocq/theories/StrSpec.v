(** Vocabulary for the statements about strings. *)
From Coq Require Import String Ascii List Arith Reals.
From Verif Require Import Base StrModel.
Import ListNotations.

Definition no_newline (s : str) : Prop := ~ In nl s.
(** a file extension: nothing, or a dot and 1..max letters, digits or underscores *)
Definition extension (max : nat) (e : str) : Prop :=
  e = [] \/ exists w, e = L "." ++ w /\ 1 <= length w <= max /\ Forall (fun c => is_word c = true) w.
(** characters that the program accepts in the name part *)
Definition plain_name (s : str) : Prop := Forall (fun c => is_word c = true \/ In c (L ".,= -")) s.
(** the piece of a file name denoted by a code letter *)
Definition piece (path name ext i1 i2 : str) (c : ascii) : str :=
  if ascii_dec c "p"%char then path else if ascii_dec c "n"%char then name
  else if ascii_dec c "e"%char then ext else if ascii_dec c "1"%char then i1
  else if ascii_dec c "2"%char then i2 else [].

(** ** Words in a text *)
Inductive token := Bare (w : str) | Quoted (q : ascii) (w : str).
(** put a backslash before every q *)
Definition escape (q : ascii) (w : str) : str := flat_map (fun c => if ascii_dec c q then [bsl; q] else [c]) w.
(** what the user writes *)
Definition token_text (t : token) : str :=
  match t with Bare w => w | Quoted q w => [q] ++ escape q w ++ [q] end.
(** what they mean *)
Definition token_word (t : token) : str := match t with Bare w => w | Quoted _ w => w end.
Definition no_quotes (w : str) : Prop := ~ In dq w /\ ~ In sq w.
(** bare words: not empty, no separators, not starting with a quote; backslashes and quotes not mixed.
    Quoted words: anything without backslashes, or without quotes and not ending in a backslash. *)
Definition token_ok (sep : ascii -> bool) (t : token) : Prop :=
  match t with
  | Bare w => w <> [] /\ Forall (fun c => sep c = false) w /\
              (no_quotes w \/ ~ In bsl w /\ hd zero w <> dq /\ hd zero w <> sq)
  | Quoted q w => (q = dq \/ q = sq) /\ (~ In bsl w \/ no_quotes w /\ last w zero <> bsl)
  end.
(** words with separators (at least one) between them; [g] is the separator text before the first word *)
Inductive layout (sep : ascii -> bool) : list token -> str -> Prop :=
| layout_end g : Forall (fun c => sep c = true) g -> layout sep [] g
| layout_last g t : Forall (fun c => sep c = true) g -> layout sep [t] (g ++ token_text t)
| layout_cons g t ts s : Forall (fun c => sep c = true) g -> layout sep ts s ->
    (exists c s', s = c :: s' /\ sep c = true) -> layout sep (t :: ts) (g ++ token_text t ++ s).

(** ** Lines *)
Definition one_line (l : str) : Prop := Forall (fun c => is_break c = false) l.
Definition comment_line (l : str) : Prop := exists ws r, Forall (fun c => is_space c = true) ws /\ l = ws ++ L "#" ++ r.
(** a piece of a line: text without quotes and semicolons, or a quoted string *)
Inductive segment := Plain (w : str) | InQuotes (q : ascii) (w : str).
Definition segment_text (s : segment) : str := match s with Plain w => w | InQuotes q w => [q] ++ w ++ [q] end.
Definition segment_ok (s : segment) : Prop :=
  match s with
  | Plain w => ~ In dq w /\ ~ In sq w /\ ~ In (ch ";") w
  | InQuotes q w => (q = dq \/ q = sq) /\ ~ In q w
  end.
