(** Text structures: gm/file/read_textstructure.py.  Definitions only. *)
From Coq Require Import String Ascii List Arith Bool.
From Verif Require Import Base StrModel CliModel.
Import ListNotations.

(** read_textstructure.py 11-104: What evaluate builds: text, lists, dictionaries (of a structure or of a table) and None *)
Inductive tsval := TNone | TStr (s : str) | TList (l : list tsval) | TDict (d : list (str * tsval)).

(** ** read_textstructure.py 11-39, simple_value: lists (17-23) *)
Definition list_value (brackets : str) (s : str) : tsval :=
  TList (map (fun e => TStr (strip_quotes (strip (fun c => mem c (nl :: L " ")) e)))
             (split_chr (ch ",") [] (strip (fun c => mem c (nl :: brackets ++ L " ")) s))).
(** read_textstructure.py 34-35: one row added to the columns; a column name occurring twice takes two cells *)
Fixpoint add_row (tags : list str) (cells : list str) (r : list (str * list str)) : list (str * list str) :=
  match tags with
  | [] => r
  | t :: ts =>
      let cell := match cells with c :: _ => c | [] => [] end in
      add_row ts (tl cells) (map (fun p => if seqb (fst p) t then (fst p, snd p ++ [cell]) else p) r)
  end.
(** read_textstructure.py 31-35 *)
Fixpoint add_rows (tags : list str) (rows : list str) (r : list (str * list str)) : res (list (str * list str)) :=
  match rows with
  | [] => Ok r
  | row :: rest =>
      match quoted_split is_space row with
      | [] => Err IndexError
      | c :: cs => if seqb c (L "}") then Ok r else add_rows tags rest (add_row tags (c :: cs) r)
      end
  end.
(** read_textstructure.py 25-35 *)
Definition table_value (s : str) : res tsval :=
  match splitlines [] s with
  | [] => Err IndexError
  | head :: rows =>
      let tags := map (strip (fun c => mem c (L "{ "))) (split_chr (ch ",") [] head) in
      do! r <- add_rows tags rows (fold_left (fun d t => dict_set d t []) tags []);
      Ok (TDict (map (fun p => (fst p, TList (map TStr (snd p)))) r))
  end.
(** read_textstructure.py 11-39 *)
Definition simple_value (s : str) : res tsval :=
  let s := if starts_with (L "*") s then tl s else s in
  if starts_with (L "[") s then Ok (list_value (L "[]") s)
  else if starts_with (L "(") s then Ok (list_value (L "()") s)
  else if starts_with (L "{") s then table_value s
  else Ok (TStr (strip_quotes (strip (fun c => mem c (nl :: L " ")) s))).

(** ** read_textstructure.py 42-58, merge: s1_tag in list(sr) (50) *)
Definition lookup {V} (d : list (str * V)) (k : str) : option V :=
  match find (fun p => seqb (fst p) k) d with Some p => Some (snd p) | None => None end.
(** read_textstructure.py 42-58 *)
Definition merge (k : str) (v : tsval) (rest : option (list (str * tsval))) : list (str * tsval) :=
  match rest with
  | None => [(k, v)]
  | Some d =>
      match lookup d k with
      | Some (TList l) => dict_set d k (TList (v :: l))
      | Some w => dict_set d k (TList [v; w])
      | None => dict_set d k v
      end
  end.

(** ** 61-104: the regular expression, matched by backtracking at a cursor: the text before it, reversed, and after it *)
Section Matchers.
  Context {X : Type}.
  Implicit Type k : str -> str -> option X.
  (** read_textstructure.py 72-76: [p]* and [p]*? *)
  Fixpoint zgreedy (p : ascii -> bool) (b s : str) k : option X :=
    match s with
    | c :: t => if p c then match zgreedy p (c :: b) t k with Some r => Some r | None => k b s end else k b s
    | [] => k b s
    end.
  (** read_textstructure.py 73-75: the lazy one *)
  Fixpoint zlazy (p : ascii -> bool) (b s : str) k : option X :=
    match k b s with
    | Some r => Some r
    | None => match s with c :: t => if p c then zlazy p (c :: b) t k else None | [] => None end
    end.
  (** read_textstructure.py 72-76: one given character; an optional one *)
  Definition zchar (c : ascii) (b s : str) k : option X :=
    match s with x :: t => if aeqb x c then k (x :: b) t else None | [] => None end.
  (** read_textstructure.py 72, 76: an optional character *)
  Definition zopt (c : ascii) (b s : str) k : option X :=
    match zchar c b s k with Some r => Some r | None => k b s end.
  (** read_textstructure.py 72-76: ^ and $ in multi-line mode *)
  Definition bol (b : str) : bool := match b with [] => true | c :: _ => is_nl c end.
  (** read_textstructure.py 74: $ *)
  Definition eol (s : str) : bool := match s with [] => true | c :: _ => is_nl c end.
  (** read_textstructure.py 73-75: the dot under (?s) *)
  Definition any (c : ascii) : bool := true.
  (** read_textstructure.py 73: [a-zA-Z] *)
  Definition is_alpha (c : ascii) : bool := is_upper c || is_lower c.
  (** read_textstructure.py 73: (\{[a-zA-Z].*?\}|[^{}]*?)*? : the second alternative is taken one character at a time, which finds the
      same first match (a longer run is a repetition of shorter ones, and empty rounds are cut off) *)
  Fixpoint zstruct (fuel : nat) (b s : str) k : option X :=
    match k b s with
    | Some r => Some r
    | None =>
        match fuel with
        | O => None
        | S f =>
            match s with
            | [] => None
            | c :: t =>
                if aeqb c (ch "{") then
                  match t with
                  | a :: t' => if is_alpha a then zlazy any (a :: c :: b) t' (fun b s => zchar (ch "}") b s (fun b s => zstruct f b s k))
                               else None
                  | [] => None
                  end
                else if aeqb c (ch "}") then None
                else zstruct f (c :: b) t k
            end
        end
    end.
End Matchers.
(** read_textstructure.py 72, 76: a character of a keyword *)
Definition key_char (c : ascii) : bool := is_word c || aeqb c (ch ".").
(** read_textstructure.py 81, 86-92: a keyword: its text, read off two cursors *)
Definition between (b b' : str) : str := rev (firstn (length b' - length b) b').
(** read_textstructure.py 76: the part from the second ^ on; the result is the text from the keyword on *)
Definition next_key (b s : str) : option str :=
  if bol b then
    zgreedy is_space b s (fun b s =>
      zgreedy key_char b s (fun b1 s1 => zopt (ch "^") b1 s1 (fun b2 s2 =>
        zgreedy (fun c => aeqb c (ch " ")) b2 s2 (fun b3 s3 => zchar (ch "=") b3 s3 (fun _ _ => Some s)))))
  else None.
(** read_textstructure.py 73-75: the group that matched *)
Inductive found := FStruct (s : str) | FText (s : str) | FValue (s : str).
(** read_textstructure.py 76: a value must be followed by a keyword *)
Definition with_next (f : found) (b s : str) : option (found * str) :=
  match next_key b s with Some r => Some (f, r) | None => None end.
(** read_textstructure.py 73-75: the three kinds of values *)
Definition value_re (b s : str) : option (found * str) :=
  match
    zchar (ch "{") b s (fun b s =>
      match s with
      | c :: t => if is_space c then
          zgreedy is_space (c :: b) t (fun b1 s1 =>
            zstruct (length s1) b1 s1 (fun b2 s2 =>
              if bol b2 then
                zgreedy is_space b2 s2 (fun b3 s3 => zchar (ch "}") b3 s3 (fun b4 s4 =>
                  zlazy any b4 s4 (with_next (FStruct (between b1 b2)))))
              else None))
          else None
      | [] => None
      end)
  with
  | Some r => Some r
  | None =>
      match
        zchar dq b s (fun b s => zgreedy is_space b s (fun b1 s1 =>
          if eol s1 then
            zgreedy (fun c => negb (aeqb c (ch "{"))) b1 s1 (fun b2 s2 =>
              if bol b2 then
                zgreedy is_space b2 s2 (fun b3 s3 => zchar dq b3 s3 (fun b4 s4 =>
                  zlazy any b4 s4 (with_next (FText (between b1 b2)))))
              else None)
          else None))
      with
      | Some r => Some r
      | None => zlazy any b s (fun b2 s2 => with_next (FValue (between b b2)) b2 s2)
      end
  end.
(** read_textstructure.py 72-77: the whole expression at one position *)
Definition definition_re (b s : str) : option (str * found * str) :=
  if bol b then
    zgreedy is_space b s (fun b s =>
      zgreedy key_char b s (fun b1 s1 => zopt (ch "^") b1 s1 (fun b2 s2 =>
        zgreedy is_space b2 s2 (fun b3 s3 => zchar (ch "=") b3 s3 (fun b4 s4 =>
          zgreedy is_space b4 s4 (fun b5 s5 =>
            match value_re b5 s5 with Some (f, r) => Some (between b b2, f, r) | None => None end))))))
  else None.
(** read_textstructure.py 72: re.search *)
Fixpoint search_def (b s : str) : option (str * found * str) :=
  match definition_re b s with
  | Some r => Some r
  | None => match s with c :: t => search_def (c :: b) t | [] => None end
  end.
(** read_textstructure.py 77 *)
Definition sentinel : str := nl :: L "end=".
(** read_textstructure.py 82: names of pointers *)
Definition key_name (k : str) : str :=
  match rev k with c :: _ => if aeqb c (ch "^") then L "ptr_" ++ rstrip (fun c => aeqb c (ch "^")) k else k | [] => k end.
(** read_textstructure.py 61-104; every call works on a shorter text *)
Fixpoint evaluate (fuel : nat) (s : str) : res (option (list (str * tsval))) :=
  match fuel with
  | O => Ok None
  | S f =>
      match search_def [] (s ++ sentinel) with
      | None => Ok None
      | Some (k, v, r) =>
          do! x <- match v with
                   | FStruct t => do! d <- evaluate f t; Ok (match d with Some d => TDict d | None => TNone end)
                   | FText t => Ok (TStr t)
                   | FValue t => simple_value t
                   end;
          do! rest <- evaluate f (firstn (length r - length sentinel) r);
          Ok (Some (merge (key_name k) x rest))
      end
  end.
(** ** read_textstructure.py 118-120 *)
Definition read_structure (s : str) : res (option (list (str * tsval))) := evaluate (S (length s)) s.
(** read_textstructure.py 106-120 *)
Definition read_textstructure (fs : files) (name : str) : res (option (list (str * tsval))) :=
  do! ls <- read_textfile fs name false true true; read_structure (join [nl] ls).
