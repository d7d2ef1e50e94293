(** Vocabulary for the statements about text structures: what may be written in a file, and what it means. *)
From Coq Require Import String Ascii List Arith Bool.
From Verif Require Import Base StrModel StrSpec TsModel.
Import ListNotations.

Definition blanks (w : str) : Prop := Forall (fun c => c = " "%char) w.
Definition white (w : str) : Prop := Forall (fun c => is_space c = true) w.
Definition without (bad w : str) : Prop := Forall (fun c => ~ In c bad) w.

(** ** What is written *)
(** an element of a list or a column name, with padding around it and perhaps in quotes *)
Inductive item := Item (before : str) (q : option ascii) (w after : str).
Definition quoted (q : option ascii) (w : str) : str := match q with Some c => [c] ++ w ++ [c] | None => w end.
Definition item_text (p : item) : str := let '(Item a q w b) := p in a ++ quoted q w ++ b.
Definition item_word (p : item) : str := let '(Item _ _ w _) := p in w.
Inductive value :=
| Word (w : str)                               (* bare text up to the end of the line, or of several lines *)
| InQuote (q : ascii) (w : str)                (* 'text' *)
| Array (star round : bool) (l : list item)    (* [a,b,c], ( a, b ), *[a,b,c] *)
| Table (tags : list item) (rows : list (list token * str)) (foot : str)  (* {tag,tag / row / row / } *)
| Struct (gap : str) (l : list entry) (foot : str)                        (* { / entries / } *)
with entry := Entry (indent key : str) (caret : bool) (sp1 sp2 : str) (v : value) (trail : str).

Fixpoint value_text (v : value) : str :=
  match v with
  | Word w => w
  | InQuote q w => [q] ++ w ++ [q]
  | Array star round l =>
      (if star then L "*" else []) ++ (if round then L "(" else L "[") ++ join (L ",") (map item_text l) ++
      (if round then L ")" else L "]")
  | Table tags rows foot =>
      L "{" ++ join (L ",") (map item_text tags) ++ [nl] ++ concat (map (fun r => snd r ++ [nl]) rows) ++ foot ++ L "}"
  | Struct gap l foot => L "{" ++ gap ++ concat (map (fun e => entry_text e ++ [nl]) l) ++ foot ++ L "}"
  end
with entry_text (e : entry) : str :=
  match e with
  | Entry i k caret s1 s2 v t => i ++ k ++ (if caret then L "^" else []) ++ s1 ++ L "=" ++ s2 ++ value_text v ++ t
  end.
(** a whole text: one definition after the other, each on new lines *)
Definition document (l : list entry) (tail : str) : str := join [nl] (map entry_text l) ++ tail.

(** ** What may be written *)
(** the end of the text: nothing, or a new line and blank lines *)
Definition tail_ok (tail : str) : Prop := tail = [] \/ exists ws, tail = nl :: ws /\ white ws.
Definition key_ok (k : str) : Prop := k <> [] /\ Forall (fun c => is_word c = true \/ c = "."%char) k.
Definition unquoted (w : str) : Prop := forall q u, q = dq \/ q = sq -> w <> [q] ++ u ++ [q].
(** paddings of spaces (and new lines); no separator, bracket or new line in the word, no spaces at its ends *)
Definition item_ok (padding bad : str) (p : item) : Prop :=
  let '(Item a q w b) := p in
  Forall (fun c => In c padding) a /\ Forall (fun c => In c padding) b /\ without bad w /\
  match q with
  | Some c => c = dq \/ c = sq
  | None => hd "x"%char w <> " "%char /\ last w "x"%char <> " "%char /\ unquoted w
  end.
Definition row_ok (r : list token * str) : Prop :=
  layout is_space (fst r) (snd r) /\ fst r <> [] /\ Forall (token_ok is_space) (fst r) /\ one_line (snd r) /\
  without (L "={}") (snd r).
(** further lines of a text cannot be taken for definitions: each starts with a word that is followed by something other than a
    space, ^ or = *)
Definition continued (w : str) : Prop :=
  forall u s, w = u ++ nl :: s -> exists k c t, s = k ++ c :: t /\ key_ok k /\ is_word c = false /\ ~ In c (L ".^ =").
(** values that are not structures; [deep] inside a structure, where no braces may occur in texts *)
Definition flat_ok (deep : bool) (v : value) : Prop :=
  match v with
  | Word w =>
      (In nl w -> deep = false /\ continued w) /\ is_space (hd " "%char w) = false /\ is_space (last w " "%char) = false /\
      ~ In (hd " "%char w) (L "{*[(" ++ [dq]) /\ unquoted w /\ (deep = true -> without (L "{}") w)
  | InQuote q w => (q = dq \/ q = sq) /\ ~ In nl w /\ (deep = true -> without (L "{}") w)
  | Array star round l =>
      l <> [] /\ Forall (item_ok (nl :: L " ") ([nl] ++ L "," ++ (if round then L "()" else L "[]") ++ (if deep then L "{}" else []))) l /\
      (In nl (value_text v) -> ~ In "="%char (value_text v))
  | Table tags rows foot =>
      tags <> [] /\ NoDup (map item_word tags) /\
      Forall (fun p => item_ok (L " ") (L ",{}=") p /\ one_line (item_word p) /\ let '(Item _ q _ _) := p in q = None) tags /\
      is_space (hd " "%char (join (L ",") (map item_text tags))) = false /\
      (deep = true -> is_alpha (hd " "%char (join (L ",") (map item_text tags))) = true) /\
      Forall row_ok rows /\ blanks foot
  | Struct _ _ _ => False
  end.
Definition frame_ok (e : entry) : Prop :=
  match e with Entry i k caret s1 s2 v t => white i /\ key_ok k /\ blanks s1 /\ white s2 /\ ~ In nl s2 /\ blanks t end.
Definition value_of (e : entry) : value := match e with Entry _ _ _ _ _ v _ => v end.
(** key^ = ... defines ptr_key *)
Definition key_of (e : entry) : str := match e with Entry _ k caret _ _ _ _ => (if caret then L "ptr_" else []) ++ k end.

(** ** What it means: a key written once has its value, a key written several times the list of its values *)
Definition cell (i : nat) (r : list token * str) : str := nth i (map token_word (fst r)) [].
Definition flat_meaning (v : value) : tsval :=
  match v with
  | Word w => TStr w
  | InQuote q w => TStr w
  | Array _ _ l => TList (map (fun p => TStr (item_word p)) l)
  | Table tags rows _ =>
      TDict (map (fun it => (item_word (snd it), TList (map (fun r => TStr (cell (fst it) r)) rows))) (combine (seq 0 (length tags)) tags))
  | Struct _ _ _ => TNone
  end.
(** the values ts of the definitions l that have key k *)
Definition values_of (k : str) (l : list entry) (ts : list tsval) : list tsval :=
  map snd (filter (fun p => if list_eq_dec ascii_dec (key_of (fst p)) k then true else false) (combine l ts)).
Definition collected (vs : list tsval) : option tsval :=
  match vs with [] => None | [v] => Some v | _ => Some (TList vs) end.
Definition holds (d : list (str * tsval)) (l : list entry) (ts : list tsval) : Prop :=
  NoDup (map fst d) /\ forall k v, In (k, v) d <-> collected (values_of k l ts) = Some v.
(** the last definition of a key that occurs several times is not a list *)
Definition array (v : value) : Prop := exists a b l, v = Array a b l.
Definition repeats_ok (l : list entry) : Prop :=
  forall l1 e l2, l = l1 ++ e :: l2 -> array (value_of e) ->
    (exists e', In e' l1 /\ key_of e' = key_of e) -> exists e', In e' l2 /\ key_of e' = key_of e.
Definition means (e : entry) (t : tsval) : Prop :=
  match value_of e with
  | Struct _ l _ => exists d, t = TDict d /\ holds d l (map (fun e => flat_meaning (value_of e)) l)
  | v => t = flat_meaning v
  end.
Definition entry_ok (e : entry) : Prop :=
  frame_ok e /\
  match value_of e with
  | Struct gap l foot =>
      gap <> [] /\ white gap /\ white foot /\ l <> [] /\ repeats_ok l /\ Forall (fun e => frame_ok e /\ flat_ok true (value_of e)) l
  | v => flat_ok false v
  end.
