(** Strings, the regular expressions used on them, and gm/file, gm/string.  Definitions only.
    A Python string is a list of characters; the characters modelled are the code points 0-255. *)
From Coq Require Import String Ascii List ZArith Bool.
From Verif Require Import Base.
Import ListNotations.

(** Python str, the type of every text (e.g. s of gm/string/quoted_split.py 8); code points 0-255 only *)
Definition str := list ascii.
(** text literals of the source, as in gm/file/read_textfile.py 32; notation of the model *)
Definition L (s : string) : str := list_ascii_of_string s.
(** one-character literals, as ';' in gm/file/read_textfile.py 35; notation of the model *)
Definition ch (s : string) : ascii := match s with String c _ => c | EmptyString => zero end.

(** == of characters, as in gm/file/filename.py 34 *)
Definition aeqb (a b : ascii) : bool := Ascii.eqb a b.
(** == of texts, as in gm/file/read_textfile.py 29 *)
Fixpoint seqb (a b : str) : bool :=
  match a, b with
  | [], [] => true
  | x :: a, y :: b => aeqb x y && seqb a b
  | _, _ => false
  end.
(** in on a text, or a character class of re, as in gm/file/filename.py 27 *)
Definition mem (c : ascii) (s : str) : bool := existsb (aeqb c) s.
(** a range of code points in a character class of re, as in gm/file/filename.py 27 *)
Definition code_in (lo hi : nat) (c : ascii) : bool :=
  Nat.leb lo (nat_of_ascii c) && Nat.leb (nat_of_ascii c) hi.

(** \d of Python's re for code points up to 255, as in Cratercount.py 177 *)
Definition is_digit (c : ascii) : bool := code_in 48 57 c.
(** part of \w of re, as in gm/file/filename.py 27 *)
Definition is_upper (c : ascii) : bool := code_in 65 90 c.
(** part of \w of re, as in gm/file/filename.py 27 *)
Definition is_lower (c : ascii) : bool := code_in 97 122 c.
(** \w of re, as in gm/file/filename.py 27 *)
Definition is_word (c : ascii) : bool :=
  is_digit c || is_upper c || is_lower c || code_in 95 95 c ||
  existsb (fun n => Nat.eqb n (nat_of_ascii c)) [170; 178; 179; 181; 185; 186; 188; 189; 190] ||
  code_in 192 214 c || code_in 216 246 c || code_in 248 255 c.
(** \s of re, as in gm/string/quoted_split.py 8; str.isspace, used by strip and split, is the same set *)
Definition is_space (c : ascii) : bool :=
  code_in 9 13 c || code_in 28 32 c || code_in 133 133 c || code_in 160 160 c.
(** the character \n, as in gm/file/write_textfile.py 15 *)
Definition nl : ascii := ascii_of_nat 10.
(** the double quote, as in gm/string/strip_quotes.py 8 *)
Definition dq : ascii := ascii_of_nat 34.
(** the single quote, as in gm/string/strip_quotes.py 8 *)
Definition sq : ascii := ascii_of_nat 39.
(** the backslash, as in gm/file/filename.py 40 *)
Definition bsl : ascii := ascii_of_nat 92.
(** == of a character and \n, as in gm/file/read_textfile.py 25 *)
Definition is_nl (c : ascii) : bool := aeqb c nl.
(** of re, as in gm/file/filename.py 27: '.' without DOTALL *)
Definition dot (c : ascii) : bool := negb (is_nl c).
(** of re, as in gm/file/filename.py 27: '$' without MULTILINE: at the end or before a final newline *)
Definition at_end (s : str) : bool := match s with [] => true | [c] => is_nl c | _ => false end.

(** Backtracking matching in continuation-passing style: each matcher passes the text it consumed and
    the remaining text to the continuation, in the order in which re tries the alternatives, and
    returns the first success. *)
Section Match.
  Context {X : Type}.
  (** *? of re after a character class [p], as in gm/file/filename.py 27 *)
  Fixpoint lazy_cls (p : ascii -> bool) (acc s : str) (k : str -> str -> option X) : option X :=
    match k (rev acc) s with
    | Some r => Some r
    | None => match s with
              | c :: t => if p c then lazy_cls p (c :: acc) t k else None
              | [] => None
              end
    end.
  (** * of re after a character class [p], as in gm/file/filename.py 40 *)
  Fixpoint greedy_cls (p : ascii -> bool) (acc s : str) (k : str -> str -> option X) : option X :=
    match s with
    | c :: t =>
        if p c then
          match greedy_cls p (c :: acc) t k with Some r => Some r | None => k (rev acc) s end
        else k (rev acc) s
    | [] => k (rev acc) s
    end.
  (** {1,n} of re after a character class [p], as in gm/file/filename.py 27 *)
  Fixpoint greedy_max (n : nat) (p : ascii -> bool) (acc s : str) (k : str -> str -> option X) : option X :=
    let here := match acc with [] => None | _ => k (rev acc) s end in
    match n, s with
    | S m, c :: t =>
        if p c then
          match greedy_max m p (c :: acc) t k with Some r => Some r | None => here end
        else here
    | _, _ => here
    end.
  (** re.search, as in gm/file/filename.py 27: re.search: the first position at which the expression matches *)
  Fixpoint re_search (m : str -> option X) (s : str) : option X :=
    match m s with
    | Some r => Some r
    | None => match s with _ :: t => re_search m t | [] => None end
    end.
End Match.

(** ** gm/file/filename.py *)
(** gm/file/filename.py 27: (?P<ext>(\.\w{1,max})?$) *)
Definition ext_match (max : nat) (s : str) : option str :=
  let none := if at_end s then Some [] else None in
  match s with
  | c :: t =>
      if aeqb c (ch ".") then
        match greedy_max max is_word [] t (fun w r => if at_end r then Some (c :: w) else None) with
        | Some e => Some e
        | None => none
        end
      else none
  | [] => none
  end.
(** gm/file/filename.py 27: [\.,= \w-] *)
Definition name_char (c : ascii) : bool := mem c (L ".,= -") || is_word c.
(** gm/file/filename.py 27-30: path, name and extension *)
Definition file_parts (max : nat) (f : str) : option (str * str * str) :=
  re_search (fun s =>
    lazy_cls dot [] s (fun p r =>
      lazy_cls name_char [] r (fun n r' =>
        match ext_match max r' with Some e => Some (p, n, e) | None => None end))) f.
(** gm/file/filename.py 40: the separators of (?P<path>.*(\\|/))(?P<parentdir>.+) *)
Definition is_sep (c : ascii) : bool := aeqb c bsl || aeqb c (ch "/").
(** gm/file/filename.py 40: the expression (?P<path>.*(\\|/))(?P<parentdir>.+) *)
Definition parent_match (s : str) : option (str * str) :=
  greedy_cls dot [] s (fun a r =>
    match r with
    | c :: t => if is_sep c then
                  greedy_cls dot [] t (fun d _ => match d with [] => None | _ => Some (a ++ [c], d) end)
                else None
    | [] => None
    end).
(** gm/file/filename.py 32-45: the code is read from its end; path is replaced by its parent at 'u' and 'b'.  A missing
    insert, or a path without parent, is a TypeError. *)
Fixpoint file_build (rcode : str) (path name ext : str) (i1 i2 : option str) (out : str) : res str :=
  match rcode with
  | [] => Ok out
  | c :: r =>
      let go p o := file_build r p name ext i1 i2 o in
      if aeqb c (ch "p") then go path (path ++ out)
      else if aeqb c (ch "n") then go path (name ++ out)
      else if aeqb c (ch "e") then go path (ext ++ out)
      else if aeqb c (ch "1") then match i1 with Some i => go path (i ++ out) | None => Err TypeError end
      else if aeqb c (ch "2") then match i2 with Some i => go path (i ++ out) | None => Err TypeError end
      else if aeqb c (ch "u") || aeqb c (ch "b") then
        match re_search parent_match path with
        | Some (pp, d) => go pp ((if aeqb c (ch "b") then d else pp) ++ out)
        | None => Err TypeError
        end
      else go path out
  end.
(** gm/file/filename.py 6-45 for one name *)
Definition filename (f code : str) (i1 i2 : option str) (max : nat) : res str :=
  match file_parts max f with
  | Some (p, n, e) => file_build (rev code) p n e i1 i2 []
  | None => Err TypeError
  end.
(** gm/file/filename.py 24-25: a list of names; max_ext_length is not passed on, so 4 is used *)
Definition filename_list (fs : list str) (code : str) (i1 i2 : option str) (max : nat) : res (list str) :=
  mapM (fun f => filename f code i1 i2 4) fs.

(** ** gm/string/strip_quotes.py 5-11 *)
Definition strip_quotes (s : str) : str :=
  match s with
  | c :: (_ :: _) as t => if aeqb c (last s c) && (aeqb c dq || aeqb c sq) then removelast t else s
  | _ => s
  end.

(** gm/string/quoted_split.py 17: str.replace for a two-character pattern a b and a one-character replacement r *)
Fixpoint replace2 (a b r : ascii) (s : str) : str :=
  match s with
  | x :: ((y :: t) as u) => if aeqb x a && aeqb y b then r :: replace2 a b r t else x :: replace2 a b r u
  | _ => s
  end.

(** ** gm/string/quoted_split.py 17-18 *)
(** gm/string/quoted_split.py 18: (?:\\.|[^q])* followed by q.  Alternatives at each character: a backslash with the next character,
    one character other than q, end of the loop.  Returns the text consumed, q included, and the rest. *)
Fixpoint quoted_body (q : ascii) (acc s : str) : option (str * str) :=
  let stop := match s with
              | c :: t => if aeqb c q then Some (rev (c :: acc), t) else None
              | [] => None
              end in
  let one := match s with
             | c :: t => if aeqb c q then stop
                         else match quoted_body q (c :: acc) t with Some r => Some r | None => stop end
             | [] => stop
             end in
  match s with
  | c :: (d :: t) => if aeqb c bsl && dot d then
                       match quoted_body q (d :: c :: acc) t with Some r => Some r | None => one end
                     else one
  | _ => one
  end.
(** gm/string/quoted_split.py 18: the expression at one position; the separators are a character class *)
Definition quoted_token (sep : ascii -> bool) (s : str) : option (str * str) :=
  match s with
  | [] => None
  | c :: t =>
      let bare := greedy_cls (fun c => negb (sep c)) [] s
                    (fun w r => match w with [] => None | _ => Some (w, r) end) in
      if aeqb c dq then match quoted_body dq [c] t with Some r => Some r | None => bare end
      else if aeqb c sq then match quoted_body sq [c] t with Some r => Some r | None => bare end
      else bare
  end.
(** gm/string/quoted_split.py 18: re.findall: at most one match per character of the text *)
Fixpoint findall (fuel : nat) (m : str -> option (str * str)) (s : str) : list str :=
  match fuel with
  | O => []
  | S f => match m s with
           | Some (w, r) => w :: findall f m r
           | None => match s with [] => [] | _ :: t => findall f m t end
           end
  end.
(** gm/string/quoted_split.py 8-18; the separators are given as a character class *)
Definition quoted_split (sep : ascii -> bool) (s : str) : list str :=
  map (fun p => replace2 bsl sq sq (replace2 bsl dq dq (strip_quotes p))) (findall (S (length s)) (quoted_token sep) s).

(** ** gm/file/write_textfile.py, read_textfile.py *)
(** used through open() in gm/file/read_textfile.py 18 and write_textfile.py 14. The file system: contents by name *)
Definition files := list (str * str).
(** open(name, 'r').read() as in gm/file/read_textfile.py 18-23 *)
Fixpoint file_get (fs : files) (n : str) : option str :=
  match fs with [] => None | (m, c) :: r => if seqb m n then Some c else file_get r n end.
(** open(name, 'w') and writing, as in gm/file/write_textfile.py 13-15 *)
Fixpoint file_set (fs : files) (n c : str) : files :=
  match fs with
  | [] => [(n, c)]
  | (m, d) :: r => if seqb m n then (m, c) :: r else (m, d) :: file_set r n c
  end.
(** as in gm/file/write_textfile.py 15: sep.join(l) *)
Fixpoint join (sep : str) (l : list str) : str :=
  match l with [] => [] | [x] => x | x :: r => x ++ sep ++ join sep r end.
(** write_textfile.py 4-15 for a list of lines, without BOM, complete *)
Definition write_textfile (fs : files) (name : str) (lines : list str) (append : bool) : files :=
  let t := join [nl] lines in
  file_set fs name (if append then (match file_get fs name with Some c => c | None => [] end) ++ t else t).

(** the character \r, replaced by open(.., 'r') in gm/file/read_textfile.py 18 universal newlines of open(.., 'r'): \r\n and \r become \n *)
Definition cr : ascii := ascii_of_nat 13.
(** open(.., 'r') in gm/file/read_textfile.py 18: universal newlines, \r\n and \r become \n *)
Fixpoint universal (s : str) : str :=
  match s with
  | [] => []
  | c :: t => if aeqb c cr then nl :: match t with d :: u => if is_nl d then universal u else universal t | [] => [] end
              else c :: universal t
  end.
(** gm/file/read_textfile.py 24: line boundaries of str.splitlines up to code point 255 *)
Definition is_break (c : ascii) : bool := code_in 10 13 c || code_in 28 30 c || code_in 133 133 c.
(** gm/file/read_textfile.py 24: str.splitlines on a text in which \r\n no longer occurs; [acc] is the current line, reversed *)
Fixpoint splitlines (acc s : str) : list str :=
  match s with
  | [] => match acc with [] => [] | _ => [rev acc] end
  | c :: t => if is_break c then rev acc :: splitlines [] t else splitlines (c :: acc) t
  end.
(** str.lstrip, as in gm/file/read_textfile.py 32 and cli.py 316; [p] tells the characters stripped *)
Fixpoint lstrip (p : ascii -> bool) (s : str) : str :=
  match s with c :: t => if p c then lstrip p t else s | [] => [] end.
(** str.rstrip, as in gm/file/read_textstructure.py 82 and Craterplotset.py 565 *)
Definition rstrip (p : ascii -> bool) (s : str) : str := rev (lstrip p (rev s)).
(** str.strip, as in gm/file/read_textstructure.py 18-19 *)
Definition strip (p : ascii -> bool) (s : str) : str := rstrip p (lstrip p s).
(** str.startswith, as in gm/file/read_textfile.py 32 *)
Definition starts_with (p s : str) : bool := seqb p (firstn (length p) s).

(** gm/file/read_textfile.py 35-36, the comment-stripping expression from the start of a line: quoted strings and
    other characters up to the first semicolon or unmatched quote.  A quoted string may not be left again by
    backtracking because the whole expression cannot fail. *)
Fixpoint until_quote (q : ascii) (acc s : str) : option (str * str) :=
  match s with
  | [] => None
  | c :: t => if aeqb c q then Some (rev (c :: acc), t) else until_quote q (c :: acc) t
  end.
(** gm/file/read_textfile.py 35-36: the longest match of the whole expression *)
Fixpoint strip_comment (fuel : nat) (s : str) : str :=
  match fuel, s with
  | S f, c :: t =>
      if aeqb c dq then match until_quote dq [c] t with Some (w, r) => w ++ strip_comment f r | None => [] end
      else if aeqb c sq then match until_quote sq [c] t with Some (w, r) => w ++ strip_comment f r | None => [] end
      else if aeqb c (ch ";") then []
      else c :: strip_comment f t
  | _, _ => []
  end.
(** gm/file/read_textfile.py 18-41 with n_lines=-1, as_string=False, on the content of the file *)
Definition read_text (content : str) (ignore_blank ignore_hash strip_c : bool) : list str :=
  let content := universal content in
  let s := splitlines [] content ++ (match rev content with c :: _ => if is_nl c then [[]] else [] | [] => [] end) in
  let s := if ignore_blank then filter (fun e => negb (seqb e [])) s else s in
  let s := if ignore_hash then filter (fun e => negb (starts_with (L "#") (lstrip is_space e))) s else s in
  if strip_c then map (fun e => strip_comment (S (length e)) e) s else s.
(** gm/file/read_textfile.py 6-41; a file that does not exist is an error of open() *)
Definition read_textfile (fs : files) (name : str) (ignore_blank ignore_hash strip_c : bool) : res (list str) :=
  match file_get fs name with
  | Some c => Ok (read_text c ignore_blank ignore_hash strip_c)
  | None => Err FileNotFound
  end.
