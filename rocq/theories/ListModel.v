(** What the program prints to show the names that can be used: miscellaneous.py 95-102, cli.py 477-481.  Definitions only.
    The codes of the terminal that make a text bright, gm/string/bright.py 6-15 (colorama), are a function [bright]. *)
From Coq Require Import String Ascii List Arith Bool.
From Verif Require Import Base StrModel CliModel TsModel IoModel.
Import ListNotations.

(** miscellaneous.py 96-101, cli.py 478-481: print(s) *)
Definition print_line (s : str) : str := s ++ [nl].
(** miscellaneous.py 97, 99, 101: f'{e['name']}'.  Simplified: a name that is a list or a structure, which Python would write in its own notation, is an exception here. *)
Definition name_shown (e : tsval) : res str := do! v <- sub e (L "name"); match v with TStr s => Ok s | _ => Err OtherException end.
(** miscellaneous.py 97, 99, 101: the names of a kind; a single definition is a dictionary, over whose keys the loop runs *)
Definition kind_names (f : list (str * tsval)) (kind : str) : res (list str) := do! v <- dict_get f kind; do! l <- elements v; mapM name_shown l.
(** miscellaneous.py 96-101: the headings and the kinds *)
Definition listed_kinds : list (str * str) :=
  [(L "Chronology systems:", L "chronology_system"); (L "Equilibrium functions:", L "equilibrium"); (L "Epoch systems:", L "epochs")].
(** miscellaneous.py 95-102: what is printed before an exception, if there is one *)
Fixpoint print_kinds (bright : str -> str) (f : list (str * tsval)) (kinds : list (str * str)) : str * option exn :=
  match kinds with
  | [] => ([], None)
  | (title, kind) :: r =>
      let head := print_line (bright (nl :: title)) in
      match kind_names f kind with
      | Err e => (head, Some e)
      | Ok ns => let '(o, e) := print_kinds bright f r in (head ++ print_line (join [nl] ns) ++ o, e)
      end
  end.
(** miscellaneous.py 95-102 *)
Definition print_functions (bright : str -> str) (f : list (str * tsval)) : str * option exn := print_kinds bright f listed_kinds.
(** cli.py 477-481 *)
Definition print_symbols (bright : str -> str) : str :=
  print_line (bright (nl :: L "Plot symbols:")) ++ print_line (join (L ", ") (map (fun e => snd e ++ L " (" ++ fst e ++ L ")") (combine marker_codes marker_names))) ++
  print_line (bright (nl :: L "Colours:")) ++ print_line (join (L ", ") palette_names).
(** cli.py 470-475 *)
Definition print_highlighted (bright : str -> str) (ls : list str) : str :=
  concat (map (fun l => print_line (match l with c :: r => if aeqb c (ch "*") then bright r else l | [] => l end)) ls).
