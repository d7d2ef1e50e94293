(** Vocabulary for the statements about the reading of functions. *)
From Coq Require Import String Ascii List ZArith Reals Bool.
From Verif Require Import Base StrModel StrSpec FmtSpec TsModel TsSpec IoSpec EpModel.
Import ListNotations.
Local Open Scope R_scope.

(** the definitions l have the key k once, as a list of the words ws *)
Definition list_entry (l : list entry) (k : str) (ws : list str) : Prop :=
  exists e star round its, sole l e /\ key_of e = k /\ value_of e = Array star round its /\ map item_word its = ws.
(** as a list of the numbers xs *)
Definition numbers_entry (l : list entry) (k : str) (xs : list R) : Prop := exists ws, list_entry l k ws /\ Forall2 decimal ws xs.
(** not at all *)
Definition no_entry (l : list entry) (k : str) : Prop := Forall (fun e => key_of e <> k) l.
(** as a text or not at all *)
Definition text_or_none (l : list entry) (k w : str) : Prop := no_entry l k \/ text_entry l k w.
(** [e] is a structure with the fields given and the name n *)
Definition named_structure (e : entry) (n : str) (fields : list entry) : Prop :=
  (exists gap foot, value_of e = Struct gap fields foot) /\ text_entry fields (L "name") n.
(** the first of the definitions l that is of the kind (the key of structures) and has the name n has the given fields *)
Definition defines (l : list entry) (kind n : str) (fields : list entry) : Prop :=
  exists before e after, l = before ++ e :: after /\ key_of e = kind /\ named_structure e n fields /\
    forall e', In e' before -> key_of e' = kind -> exists m fields', named_structure e' m fields' /\ m <> n.
(** none of them has the name n *)
Definition undefined (l : list entry) (kind n : str) : Prop :=
  forall e, In e l -> key_of e = kind -> exists m fields, named_structure e m fields /\ m <> n.
Definition several (l : list entry) (kind : str) : Prop :=
  exists l1 e1 l2 e2 l3, l = l1 ++ e1 :: l2 ++ e2 :: l3 /\ key_of e1 = kind /\ key_of e2 = kind.
Definition well_written (l : list entry) (tail : str) : Prop := l <> [] /\ Forall entry_ok l /\ repeats_ok l /\ tail_ok tail.

(** the dictionary d was read from a text with the definitions l *)
Definition read_from (d : list (str * tsval)) (l : list entry) : Prop := Forall entry_ok l /\ exists ts, Forall2 means l ts /\ holds d l ts.
(** the definitions l are given to a constructor: as a dictionary, as a file, or as a text of several lines *)
Inductive given (fs : files) (kind : str) : source -> list entry -> Prop :=
| given_dict d l : read_from d l -> several l kind -> given fs kind (SDict d) l
| given_file name lines l tail : ~ In nl name -> read_textfile fs name false true false = Ok lines -> join [nl] lines = document l tail ->
    well_written l tail -> several l kind -> given fs kind (SText name) l
| given_text l tail : In nl (document l tail) -> well_written l tail -> given fs kind (SText (document l tail)) l.
