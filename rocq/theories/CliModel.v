(** The command line: cli.py and miscellaneous.py ra_decode_selection.  Definitions only.
    argparse itself is not modelled: the model starts from the values it delivers. *)
From Coq Require Import String Ascii List ZArith Bool.
From Verif Require Import Base NumModel StrModel FmtSpec.
Import ListNotations.

(** ** Small Python string operations *)
(** cli.py 25, 47, 209, 271: s.split(c) *)
Fixpoint split_chr (c : ascii) (acc s : str) : list str :=
  match s with
  | [] => [rev acc]
  | x :: t => if aeqb x c then rev acc :: split_chr c [] t else split_chr c (x :: acc) t
  end.
(** cli.py 398: s.replace(pat, rep) for a non-empty pat; [skip] counts the characters of an occurrence still to pass *)
Fixpoint replace_str (pat rep : str) (skip : nat) (s : str) : str :=
  match s with
  | [] => []
  | c :: t =>
      match skip with
      | S k => replace_str pat rep k t
      | O => if starts_with pat s then rep ++ replace_str pat rep (length pat - 1) t
             else c :: replace_str pat rep 0 t
      end
  end.
(** cli.py 28, 194: dictionaries: d[k] = v keeps the place of an existing key *)
Fixpoint dict_set {V} (d : list (str * V)) (k : str) (v : V) : list (str * V) :=
  match d with
  | [] => [(k, v)]
  | (j, w) :: r => if seqb j k then (j, v) :: r else (j, w) :: dict_set r k v
  end.
(** cli.py 149: case-insensitive comparison of the re module, for code points up to 255 *)
Definition lower (c : ascii) : ascii :=
  if is_upper c || code_in 192 214 c || code_in 216 222 c then ascii_of_nat (nat_of_ascii c + 32) else c.
(** cli.py 149: equality under (?i) *)
Definition ci_eqb (a b : ascii) : bool := aeqb (lower a) (lower b).

(** ** cli.py 136-159: decode_abbreviation *)
(** cli.py 149: characters with a meaning in a regular expression.  A dot stands for any character.  Parentheses merely
    group (a '?' cannot follow one); they must balance.  Abbreviations with any other special character are outside the model and give
    OtherException here. *)
Definition special (c : ascii) : bool := mem c (L "^$*+?{}[]|" ++ [bsl]).
(** cli.py 149: parentheses *)
Definition paren (c : ascii) : bool := mem c (L "()").
(** cli.py 149: every parenthesis has its partner *)
Fixpoint balanced (depth : nat) (v : str) : bool :=
  match v with
  | [] => Nat.eqb depth 0
  | c :: t =>
      if aeqb c (ch "(") then balanced (S depth) t
      else if aeqb c (ch ")") then match depth with O => false | S d => balanced d t end
      else balanced depth t
  end.
(** cli.py 149: one element of the expression against one character *)
Definition elem (c x : ascii) : bool := if aeqb c (ch ".") then dot x else ci_eqb x c.
(** cli.py 149: the expression c1.*c2.*...cn matched at one position *)
Fixpoint abbr_re (v : str) (s : str) : option unit :=
  match v with
  | [] => Some tt
  | [c] => match s with x :: _ => if elem c x then Some tt else None | [] => None end
  | c :: v' => match s with
               | x :: t => if elem c x then greedy_cls dot [] t (fun _ r => abbr_re v' r) else None
               | [] => None
               end
  end.
(** cli.py 149-150: re.search *)
Definition abbr_match (v e : str) : bool :=
  match re_search (abbr_re (filter (fun c => negb (paren c)) v)) e with Some _ => true | None => false end.
(** cli.py 150, 289: enumerate *)
Definition enumerate {A} (l : list A) : list (nat * A) := combine (seq 0 (length l)) l.
(** cli.py 151: sort by length, stable *)
Definition by_length (s : list (nat * str)) : list (nat * str) :=
  sort (fun a b => Nat.leb (length (snd a)) (length (snd b))) s.
(** cli.py 136-159; None stands for the returned index -1 *)
Definition decode_abbreviation (s : list str) (v : str) (allow_ambiguous allow_invalid : bool) : res (option nat) :=
  if existsb special v || negb (balanced 0 v) then Err OtherException
  else
    let r := by_length (filter (fun p => abbr_match v (snd p)) (enumerate s)) in
    match r with
    | [] => if allow_invalid then Ok None else Err SysExit
    | p :: q => if negb (match q with [] => true | _ => false end) && negb allow_ambiguous then Err SysExit
                else Ok (Some (fst p))
    end.
(** cli.py 165, 197, 257, 276, 278: l[decode_abbreviation(l, v, ..)] without allow_invalid *)
Definition decode_name (s out : list str) (v : str) (amb : bool) : res str :=
  do! i <- decode_abbreviation s v amb false;
  match i with
  | Some i => match nth_error out i with Some x => Ok x | None => Err IndexError end
  | None => Err IndexError
  end.

(** ** cli.py 19-31: AppendPlotDict *)
(** cli.py 23: lookahead \w+= *)
Fixpoint key_ahead (seen : bool) (s : str) : bool :=
  match s with
  | c :: t => if is_word c then key_ahead true t else seen && aeqb c (ch "=")
  | [] => false
  end.
(** cli.py 23: re.split *)
Fixpoint split_pairs (acc s : str) : list str :=
  match s with
  | [] => [rev acc]
  | c :: t => if aeqb c (ch ",") && key_ahead false t then rev acc :: split_pairs [] t else split_pairs (c :: acc) t
  end.
(** cli.py 21-28 *)
Definition plot_dict (values : list str) : res (list (str * str)) :=
  fold_left (fun d kv => do! d <- d;
                         match split_chr (ch "=") [] kv with
                         | [k; v] => Ok (dict_set d k v)
                         | _ => Err SysExit
                         end)
            (split_pairs [] (join (L " ") values)) (Ok []).

(** ** constants.py: lists of names *)
(** constants.py 11 *)
Definition presentations : list str := map L
  ["cumulative"; "differential"; "R-plot"; "Hartmann"; "chronology"; "rate"; "sequence"; "uncertainty"; "map"; "sdaa"; "m2cnd"]%string.
(** constants.py 12 *)
Definition oplot_types : list str := map L ["data"; "differential-fit"; "cumulative-fit"; "poisson"; "buffered-poisson"]%string.
(** constants.py 13 *)
Definition oplot_types_short : list str := map L ["data"; "d-fit"; "c-fit"; "poisson"; "b-poisson"]%string.
(** constants.py 14-15 *)
Definition craterplot_keys : list str := map L
  ["source"; "name"; "range"; "snap"; "type"; "error_bars"; "hide"; "colour"; "psym"; "binning"; "age_left"; "show_age";
   "resurf"; "resurf_showall"; "isochron"; "offset_age"]%string.
(** constants.py 17 *)
Definition carry_over : list str := map L ["source"; "psym"; "snap"; "isochron"; "error_bars"; "colour"; "binning"]%string.
(** constants.py 86-119 *)
Definition palette_names : list str := map L
  ["Black"; "Red"; "Green"; "Blue"; "Yellow"; "Violet"; "Grey"; "blue1"; "blue2"; "blue3"; "blue4"; "brown1"; "brown2";
   "brown3"; "brown4"; "green1"; "green2"; "green3"; "orange"; "pink1"; "pink2"; "pink3"; "purple1"; "purple2"; "red1";
   "red2"; "red3"; "teal1"; "teal2"; "yellow1"; "yellow2"; "yellow-green"]%string.
(** constants.py 126-141 *)
Definition marker_codes : list str := map L
  ["s"; "o"; "*4"; "^"; "*"; "x"; "+"; "."; "v"; "fs"; "fo"; "f*4"; "f^"; "f*"; "fv"]%string.
(** constants.py 126-141 *)
Definition marker_names : list str := map L
  ["square"; "circle"; "star4"; "triangle"; "star5"; "diagonal cross"; "cross"; "point"; "inverted triangle";
   "filled square"; "filled circle"; "filled star4"; "filled triangle"; "filled star5"; "filled inverted triangle"]%string.

(** config/functions.txt 10-567: the names of the systems delivered with the program, in order *)
Definition shipped_systems : list str := map L
  ["Moon, Neukum (1983)"; "Moon, Neukum et al. (2001)"; "Moon, Hartmann 2010 iteration"; "Moon, Yue et al. (2022)";
   "Mars, Neukum-Ivanov (2001)"; "Mars, Ivanov (2001)"; "Mars, Hartmann 2004 iteration"; "Mars, Hartmann & Daubar (2016)";
   "Mercury, Strom & Neukum (1988)"; "Mercury, Neukum et al. (2001)"; "Mercury, Le Feuvre and Wieczorek 2011 non-porous";
   "Mercury, Le Feuvre and Wieczorek 2011 porous"; "Vesta, Rev4, Schmedemann et al (2014)";
   "Vesta, Rev3, Schmedemann et al (2014)"; "Vesta, Marchi & O'Brien (2014)"; "Ceres, Hiesinger et al. (2016)";
   "Ida, Schmedemann et al (2014)"; "Gaspra, Schmedemann et al (2014)"; "Lutetia, Schmedemann et al (2014)";
   "Phobos, Case A - SOM, Schmedemann et al (2014)"; "Phobos, Case B - MBA, Schmedemann et al (2014)"]%string.
(** config/functions.txt 100, 108 *)
Definition shipped_equilibria : list str := map L ["Lunar equilibrium (Trask, 1966)"; "Hartmann (1984)"]%string.
(** config/functions.txt 125, 133, 141 *)
Definition shipped_epochs : list str := map L
  ["Moon, Wilhelms (1987)"; "Moon, Guo et al (2024)"; "Mars, Michael (2013)"]%string.
(** constants.py 24 *)
Definition planets : list str := map L ["Moon"; "Mars"; "Mercury"]%string.

(** ** cli.py 240-301, construct_plot_dicts: the values of a plot dictionary *)
Inductive pval := PNone | PStr (s : str) | PInt (z : Z) | PList (l : list str).
(** cli.py 245: p *)
Definition settings := str -> pval.
(** cli.py 269: p[k] = v *)
Definition put (p : settings) (k : str) (v : pval) : settings := fun j => if seqb j k then v else p j.
(** constants.py 62-79 *)
Definition plot_defaults : settings := fun k =>
  if seqb k (L "source") then PNone
  else if seqb k (L "name") then PStr []
  else if seqb k (L "range") then PList [L "0"; L "inf"]
  else if seqb k (L "snap") then PInt 1
  else if seqb k (L "type") then PStr (L "data")
  else if seqb k (L "error_bars") then PInt 1
  else if seqb k (L "hide") then PInt 0
  else if seqb k (L "colour") then PInt 0
  else if seqb k (L "psym") then PInt 1
  else if seqb k (L "binning") then PStr (L "pseudo-log")
  else if seqb k (L "age_left") then PInt 0
  else if seqb k (L "show_age") then PInt 1
  else if seqb k (L "resurf") then PInt 0
  else if seqb k (L "resurf_showall") then PInt 0
  else if seqb k (L "isochron") then PInt 0
  else if seqb k (L "offset_age") then PList [L "0"; L "0"]
  else PNone.
(** cli.py 281: [0-9A-Fa-f] *)
Definition is_hex (c : ascii) : bool := is_digit c || code_in 65 70 c || code_in 97 102 c.
(** cli.py 281: ^#([0-9A-Fa-f]{6})$ *)
Definition hex_colour (v : str) : bool :=
  match v with
  | c :: t => aeqb c (ch "#") && Nat.leb 6 (length t) && forallb is_hex (firstn 6 t) && at_end (skipn 6 t)
  | [] => false
  end.
(** cli.py 289 *)
Definition index_of (v : str) (l : list str) : list nat := map fst (filter (fun p => seqb (snd p) v) (enumerate l)).
(** Cratercount.py 15 *)
Definition binnings : list str := map L
  ["pseudo-log"; "20/decade"; "10/decade"; "x2"; "root-2"; "4th root-2"; "none"]%string.
(** cli.py 397-398; [path] is the installation directory *)
Definition cs_source (path v : str) : str := replace_str (L "%sample%/") (path ++ L "sample/") 0 v.
(** cli.py 258-294: the value stored for key k *)
Definition plot_value (path : str) (k v : str) : res pval :=
  if existsb (seqb k) (map L ["name"; "snap"; "error_bars"; "hide"; "age_left"; "show_age"; "resurf"; "resurf_showall"; "isochron"]%string)
  then Ok (PStr v)
  else if seqb k (L "range") || seqb k (L "offset_age") then
    Ok (PList (split_chr (ch ",") [] (strip (fun c => mem c (L "[]")) v)))
  else if seqb k (L "source") then Ok (PStr (strip (fun c => aeqb c dq) (cs_source path v)))
  else if seqb k (L "type") then do! x <- decode_name oplot_types oplot_types_short v true; Ok (PStr x)
  else if seqb k (L "binning") then do! x <- decode_name binnings binnings v true; Ok (PStr x)
  else if seqb k (L "colour") then
    match v with
    | [] => Err IndexError
    | c :: _ => if aeqb c (ch "#") then if hex_colour v then Ok (PStr v) else Err SysExit
                else do! i <- decode_abbreviation palette_names v true false;
                     Ok (match i with Some i => PInt (Z.of_nat i) | None => PInt (-1) end)
    end
  else if seqb k (L "psym") then
    match index_of v marker_codes with
    | [i] => Ok (PInt (Z.of_nat i))
    | _ => do! i <- decode_abbreviation marker_names v true false;
           Ok (match i with Some i => PInt (Z.of_nat i) | None => PInt (-1) end)
    end
  else Ok PNone.                       (* not reached: every key is in one of the lists *)
(** cli.py 256-294: the loop over the items of one -p dictionary *)
Fixpoint plot_items (path : str) (p : settings) (spec : bool) (d : list (str * str)) : res (settings * bool) :=
  match d with
  | [] => Ok (p, spec)
  | (k0, v) :: r =>
      do! k <- decode_name craterplot_keys craterplot_keys k0 true;
      do! x <- plot_value path k v;
      plot_items path (put p k x) (spec || seqb k (L "source")) r
  end.
(** cli.py 297: os.path.isabs on a POSIX system *)
Definition isabs (p : str) : bool := starts_with (L "/") p.
(** cli.py 245-252: the starting values; [prev] is the previous overplot.  The test at 249 is on the fresh copy of the
    defaults, whose source is None. *)
Definition plot_start (presentation : str) (prev : option settings) : settings :=
  let p := put plot_defaults (L "type") (PStr (if seqb presentation (L "sequence") then L "poisson" else L "data")) in
  match prev with
  | None => p
  | Some q =>
      let p := match p (L "source") with PNone => put p (L "type") (q (L "type")) | _ => p end in
      fold_left (fun p k => put p k (q k)) carry_over p
  end.
(** cli.py 244-300; [input] is args.input_filename when -i was given, [load] the construction of the Cratercount *)
Definition plot_one (path presentation : str) (input : option str) (load : str -> res unit)
    (prev : option settings) (spec : bool) (d : list (str * str)) : res (settings * bool) :=
  do! ps <- plot_items path (plot_start presentation prev) spec d;
  let '(p, spec) := ps in
  if negb spec then Err SysExit
  else match p (L "source") with
       | PStr s =>
           do! s <- match input with
                    | Some i => if isabs s then Ok s else do! dir <- filename i (L "p") None None 4; Ok (dir ++ s)
                    | None => Ok s
                    end;
           do! _ <- load s;
           Ok (put p (L "source") (PStr s), spec)
       | _ => Err TypeError
       end.
(** cli.py 244-301: the loop *)
Fixpoint plot_dicts (path presentation : str) (input : option str) (load : str -> res unit)
    (prev : option settings) (spec : bool) (ds : list (list (str * str))) : res (list settings) :=
  match ds with
  | [] => Ok []
  | d :: r =>
      do! ps <- plot_one path presentation input load prev spec d;
      do! rest <- plot_dicts path presentation input load (Some (fst ps)) (snd ps) r;
      Ok (fst ps :: rest)
  end.
(** cli.py 240-301 *)
Definition construct_plot_dicts path presentation input load ds := plot_dicts path presentation input load None false ds.

(** ** Command files *)
(** cli.py 535: str.isdigit up to code point 255 *)
Definition is_pydigit (c : ascii) : bool :=
  is_digit c || existsb (fun n => Nat.eqb n (nat_of_ascii c)) [178; 179; 185].
(** cli.py 535: shlex.quote *)
Definition shell_safe (c : ascii) : bool :=
  is_digit c || is_upper c || is_lower c || mem c (L "_@%+=:,./-").
(** cli.py 535: shlex.quote *)
Definition shell_quote (s : str) : str :=
  match s with
  | [] => [sq; sq]
  | _ => if forallb shell_safe s then s
         else [sq] ++ flat_map (fun c => if aeqb c sq then [sq; dq; sq; dq; sq] else [c]) s ++ [sq]
  end.
(** cli.py 535: the command text kept with the output *)
Definition cs_piece (e : str) : res str :=
  match e with
  | [] => Err IndexError
  | c :: t => if aeqb c (ch "-") && negb (is_pydigit (hd (ch " ") t)) then Ok (nl :: e)
              else Ok (ch " " :: shell_quote e)
  end.
(** cli.py 535 *)
Definition cs_content (args : list str) : res str :=
  do! ps <- mapM cs_piece args; Ok (tl (concat ps)).
(** cli.py 547-548, with write_textfile.py 14 for a string *)
Definition write_cs (fs : files) (out : str) (args : list str) : res files :=
  do! c <- cs_content args; Ok (file_set fs (out ++ L ".cs") c).

(** cli.py 48, 373: shlex.split(s): posix rules, no comments, split at white space only *)
Inductive shstate := ShSpace | ShWord | ShQuote (q : ascii) | ShEscape (back : option ascii).
(** cli.py 48, 373: white space of shlex *)
Definition sh_white (c : ascii) : bool := mem c (L " " ++ [ascii_of_nat 9; cr; nl]).
(** cli.py 48, 373: the quotes of shlex *)
Definition is_quote_char (c : ascii) : bool := aeqb c dq || aeqb c sq.
(** cli.py 48, 373: the token read so far *)
Definition sh_emit (tok : str) (quoted : bool) (r : list str) : list str :=
  match tok with [] => if quoted then [] :: r else r | _ => rev tok :: r end.
(** cli.py 48, 373: shlex.split, character by character *)
Fixpoint sh_split (st : shstate) (tok : str) (quoted : bool) (s : str) : res (list str) :=
  match s with
  | [] =>
      match st with
      | ShSpace | ShWord => Ok (sh_emit tok quoted [])
      | ShQuote _ | ShEscape _ => Err ValueError
      end
  | c :: t =>
      match st with
      | ShSpace =>
          if sh_white c then sh_split ShSpace [] false t
          else if aeqb c bsl then sh_split (ShEscape None) [] false t
          else if is_quote_char c then sh_split (ShQuote c) [] false t
          else sh_split ShWord [c] false t
      | ShWord =>
          if sh_white c then do! r <- sh_split ShSpace [] false t; Ok (sh_emit tok quoted r)
          else if is_quote_char c then sh_split (ShQuote c) tok quoted t
          else if aeqb c bsl then sh_split (ShEscape None) tok quoted t
          else sh_split ShWord (c :: tok) quoted t
      | ShQuote q =>
          if aeqb c q then sh_split ShWord tok true t
          else if aeqb c bsl && aeqb q dq then sh_split (ShEscape (Some q)) tok true t
          else sh_split (ShQuote q) (c :: tok) true t
      | ShEscape back =>
          match back with
          | Some q => sh_split (ShQuote q) (c :: if aeqb c bsl || aeqb c q then tok else bsl :: tok) quoted t
          | None => sh_split ShWord (c :: tok) quoted t
          end
      end
  end.
(** cli.py 48, 373 *)
Definition shlex_split (s : str) : res (list str) := sh_split ShSpace [] false s.
(** cli.py 46-48: the file content, comment and blank lines removed, split into arguments *)
Definition command_args (content : str) : res (list str) :=
  let keep e := match strip is_space e with [] => false | c :: _ => negb (aeqb c (ch "#")) end in
  shlex_split (join [nl] (filter keep (split_chr nl [] (universal content)))).

(** ** cli.py 37-56, LoadFromFile: how a name is found from the working directory (42-44).  Files and directories are known by absolute name; names are not normalised. *)
Definition path_join (d p : str) : str :=
  if isabs p then p
  else match rev d with
       | c :: _ => if aeqb c (ch "/") then d ++ p else d ++ L "/" ++ p
       | [] => p
       end.
(** cli.py 38-56; the arguments in the file go to the parser *)
Definition input_file (cwd : str) (isdir : str -> bool) (fs : files) (values : str) : res (str * str * list str) :=
  do! dir <- filename values (L "p") None None 4;
  let cwd' := if negb (seqb dir []) && isdir (path_join cwd dir) then path_join cwd dir else cwd in
  match file_get fs (path_join cwd' values) with
  | Some c => do! a <- command_args c; Ok (cwd', path_join cwd' values, a)
  | None => Err FileNotFound
  end.

(** ** miscellaneous.py 227-234, ra_decode_selection: the longest run of a class of characters *)
Fixpoint span (p : ascii -> bool) (s : str) : str * str :=
  match s with
  | c :: t => if p c then let '(a, b) := span p t in (c :: a, b) else ([], s)
  | [] => ([], [])
  end.
(** miscellaneous.py 233: \s*([+-]?\d+)\s*(?=,|$) after the anchor.  Neighbouring character classes are disjoint, so there is nothing
    to gain from backtracking. *)
Definition sel_number (s : str) : option (Z * str) :=
  let '(_, s) := span is_space s in
  let '(neg, s) := match s with
                   | c :: t => if aeqb c (ch "-") then (true, t) else if aeqb c (ch "+") then (false, t) else (false, s)
                   | [] => (false, [])
                   end in
  let '(ds, s) := span is_digit s in
  match ds with
  | [] => None
  | _ =>
      let '(_, s) := span is_space s in
      if (match s with [] => true | c :: _ => aeqb c (ch ",") end) then
        Some ((if neg then - digits_value ds else digits_value ds)%Z, s)
      else None
  end.
(** miscellaneous.py 233: (?:^|,) : the empty match at the start is tried first *)
Definition sel_match (start : bool) (s : str) : option (Z * str) :=
  let comma := match s with c :: t => if aeqb c (ch ",") then sel_number t else None | [] => None end in
  if start then match sel_number s with Some r => Some r | None => comma end else comma.
(** miscellaneous.py 233: findall *)
Fixpoint sel_find (fuel : nat) (start : bool) (s : str) : list Z :=
  match fuel with
  | O => []
  | S f => match sel_match start s with
           | Some (z, r) => z :: sel_find f false r
           | None => match s with [] => [] | _ :: t => sel_find f false t end
           end
  end.
(** miscellaneous.py 227-234 *)
Definition ra_decode_selection (s : option str) : option (list Z) :=
  match s with
  | None | Some [] => None
  | Some s => Some (sort Z.leb (sel_find (S (length s)) true s))
  end.

(** ** cli.py 162-237: construct_cps_dict *)
(** cli.py 172-209: Option values: text (numbers stay the text given), 0/1 flags, pairs, sets *)
Inductive sval := VNone | VText (s : str) | VFlag (z : Z) | VPair (a b : str) | VSet (l : list str).
(** cli.py 162: c *)
Definition config := str -> sval.
(** cli.py 194: c[k] = v *)
Definition cput (c : config) (k : str) (v : sval) : config := fun j => if seqb j k then v else c j.
(** constants.py 31-61 *)
Definition set_defaults : config := fun k =>
  if seqb k (L "chronology_system") then VText (L "Moon, Neukum (1983)")
  else if existsb (seqb k) (map L ["invert"; "tight"; "transparent"; "bins"]%string) then VFlag 0
  else if existsb (seqb k) (map L ["isochrons"; "select"; "title"]%string) then VText []
  else if seqb k (L "legend") then VText (L "fnacr")
  else if existsb (seqb k) (map L ["mu"; "ra_show"]%string) then VFlag 1
  else if seqb k (L "presentation") then VText (L "differential")
  else if seqb k (L "print_dimensions") then VText (L "7.5x7.5")
  else if seqb k (L "pt_size") then VText (L "9.0")
  else if seqb k (L "font") then VText (L "Open Sans")
  else if seqb k (L "ref_diameter") then VText (L "1")
  else if seqb k (L "sig_figs") then VText (L "3")
  else if seqb k (L "style") then VText (L "natural")
  else if seqb k (L "format") then VSet [L "png"; L "csv"]
  else if seqb k (L "min_diameter") then VText (L "0.15")
  else if seqb k (L "global_area") then VText (L "1e12")
  else if seqb k (L "n_samples") then VText (L "200")
  else if seqb k (L "trials") then VText (L "1000")
  else if seqb k (L "measure") then VSet [L "m2cnd"; L "sdaa"]
  else if seqb k (L "ra_offset") then VText (L "0.")
  else VNone.          (* epochs, equilibrium, text_halo, out; xrange and yrange are absent *)
(** constants.py 19-22; the numbers as written there *)
Definition default_xrange (pres : str) : sval :=
  if existsb (seqb pres) (map L ["cumulative"; "differential"]%string) then VPair (L "-3") (L "2")
  else if seqb pres (L "R-plot") then VPair (L "-2") (L "3")
  else if seqb pres (L "Hartmann") then VPair (L "-3.15") (L "2.56")
  else if existsb (seqb pres) (map L ["chronology"; "rate"]%string) then VPair (L "4.5") (L "0")
  else if seqb pres (L "sequence") then VPair (L "4.2") (L "1e-2")
  else if seqb pres (L "uncertainty") then VPair (L "4.2") (L "1e-5")
  else VPair (L "0") (L "1").
(** constants.py 21-22 *)
Definition default_yrange (pres : str) : sval :=
  if existsb (seqb pres) (map L ["cumulative"; "R-plot"]%string) then VPair (L "-4") (L "1")
  else if seqb pres (L "differential") then VPair (L "-5") (L "5")
  else if seqb pres (L "Hartmann") then VPair (L "-8") (L "5")
  else if seqb pres (L "chronology") then VPair (L "-6") (L "2")
  else if seqb pres (L "rate") then VPair (L "-6") (L "3")
  else if seqb pres (L "sequence") then VPair (L "0") (L "0")
  else if seqb pres (L "uncertainty") then VPair (L "-2") (L "8")
  else VPair (L "0") (L "1").
(** cli.py 58-134: the option names in the order of the parser, which is that of vars(args) *)
Definition parser_dests : list str := map L
  ["input"; "include"; "lcs"; "lpc"; "about"; "version"; "demo"; "bins"; "convert"; "out"; "functions_user";
   "create_desktop_icon"; "merge"; "format"; "chronology_system"; "equilibrium"; "epochs"; "title"; "presentation";
   "xrange"; "yrange"; "isochrons"; "legend"; "style"; "mu"; "invert"; "text_halo"; "transparent"; "tight";
   "print_dimensions"; "pt_size"; "ref_diameter"; "sig_figs"; "font"; "sequence_table"; "min_diameter"; "n_samples";
   "plot"; "randomness_analysis"; "trials"; "measure"; "ra_offset"; "select"; "ra_show"]%string.
(** cli.py 174-193 *)
Definition plain_options : list str := map L
  ["title"; "isochrons"; "legend"; "print_dimensions"; "pt_size"; "font"; "ref_diameter"; "sig_figs"; "randomness"; "mu";
   "invert"; "transparent"; "text_halo"; "style"; "xrange"; "yrange"; "min_diameter"; "n_samples"; "bins"; "ra_offset"; "ra_show"]%string.
(** cli.py 206, 208: substring test of Python's in *)
Fixpoint substring_of (k s : str) : bool :=
  starts_with k s || match s with [] => false | _ :: t => substring_of k t end.
(** cli.py 205 *)
Definition set_add (x : str) (l : list str) : list str := if existsb (seqb x) l then l else l ++ [x].
Section Config.
  (** the names of the functions file by key, isdir and normpath of the system, and the ranges of the
      production function of a chronology system (None if it has none) *)
  Variables (names : str -> list str) (isdir : str -> bool) (normpath : str -> str)
            (pf_range : sval -> option (sval * sval)).
  (** cli.py 173-209: one command line value *)
  Definition config_item (c : config) (kv : str * sval) : res config :=
    let '(k, v) := kv in
    match v with
    | VNone => Ok c
    | _ =>
        if existsb (seqb k) plain_options then Ok (cput c k v)
        else if existsb (seqb k) (map L ["chronology_system"; "equilibrium"; "epochs"]%string) then
          match v with
          | VText t => do! x <- decode_name (names k) (names k) t true; Ok (cput c k (VText x))
          | _ => Err TypeError
          end
        else if seqb k (L "out") then
          match v with
          | VText t =>
              if isdir t then Ok (cput c k (VText (normpath (t ++ L "/"))))
              else
                do! pn <- filename t (L "pn") None None 4;
                do! e <- filename t (L "e") None None 4;
                let ext := lstrip (fun x => aeqb x (ch ".")) e in
                let c := cput c k (VText pn) in
                match ext, c (L "format") with
                | [], _ => Ok c
                | _, VSet l => Ok (cput c (L "format") (VSet (set_add ext l)))
                | _, _ => Err AttributeError
                end
          | _ => Err TypeError
          end
        else if substring_of k (L "format") then
          match v with VSet l => Ok (cput c k (VSet l)) | _ => Err TypeError end
        else if substring_of k (L "measures") then
          match v with VText t => Ok (cput c k (VSet (split_chr (ch ",") [] t))) | _ => Err AttributeError end
        else Ok c
    end.
  (** cli.py 172: the loop *)
  Fixpoint config_items (c : config) (args : list (str * sval)) : res config :=
    match args with [] => Ok c | kv :: r => do! c <- config_item c kv; config_items c r end.
  (** cli.py 234-235; an absent or empty text_halo (None, 0) is replaced *)
  Definition text_halo_default (pres : str) : sval :=
    VFlag (if existsb (seqb pres) (map L ["uncertainty"; "sequence"; "chronology"; "rate"]%string) then 0 else 1).
  (** cli.py 234: not v *)
  Definition falsy (v : sval) : bool :=
    match v with VNone => true | VFlag z => Z.eqb z 0 | VText t => seqb t [] | VSet [] => true | _ => false end.
  (** cli.py 162-237, in the order of vars(args), which is that of the parser.  The objects built from the functions
      file (cf, pf, ef, ep) and global_area are left out. *)
  Definition construct_cps_dict (args : list (str * sval)) : res config :=
    do! pres <- match find (fun kv => seqb (fst kv) (L "presentation")) args with
                | Some (_, VText t) => decode_name presentations presentations t false
                | _ => Ok (L "differential")
                end;
    let c := cput set_defaults (L "presentation") (VText pres) in
    let c := if existsb (seqb pres) (map L ["chronology"; "rate"; "sequence"; "uncertainty"]%string)
             then cput (cput c (L "xrange") (default_xrange pres)) (L "yrange") (default_yrange pres) else c in
    let c := if seqb pres (L "sequence") then cput c (L "legend") (VText (L "A")) else c in
    do! c <- config_items c args;
    do! _ <- (if existsb (fun n => match c (L "chronology_system") with VText t => seqb n t | _ => false end)
                         (names (L "chronology_system")) then Ok tt else Err SysExit);
    let c := if seqb pres (L "Hartmann") then
               match pf_range (c (L "chronology_system")) with
               | Some (x, y) => cput (cput c (L "xrange") x) (L "yrange") y
               | None => cput (cput c (L "xrange") (default_xrange pres)) (L "yrange") (default_yrange pres)
               end
             else c in
    Ok (if falsy (c (L "text_halo")) then cput c (L "text_halo") (text_halo_default pres) else c).
End Config.

(** ** cli.py 418-435, set_default_filename: the order of text (427) *)
Fixpoint str_leb (a b : str) : bool :=
  match a, b with
  | [], _ => true
  | _, [] => false
  | x :: a, y :: b => Nat.ltb (nat_of_ascii x) (nat_of_ascii y) || aeqb x y && str_leb a b
  end.
(** cli.py 427: set *)
Fixpoint dedup (l : list str) : list str :=
  match l with [] => [] | x :: r => x :: filter (fun y => negb (seqb x y)) (dedup r) end.
(** cli.py 428: removal of _?CRATER_? *)
Fixpoint remove_crater (skip : nat) (s : str) : str :=
  match s with
  | [] => []
  | c :: t =>
      match skip with
      | S k => remove_crater k t
      | O =>
          let tail n := if starts_with (L "_") (skipn n s) then n else (n - 1) in
          if starts_with (L "_CRATER") s then remove_crater (tail 7) t
          else if starts_with (L "CRATER") s then remove_crater (tail 6) t
          else c :: remove_crater 0 t
      end
  end.
(** cli.py 419-430; [input] is args.input_filename when -i was given, [chron] the name of the chronology system, [dmin]
    the minimum diameter, [sources] the source of every overplot *)
Definition default_filename (input : option str) (pres chron dmin : str) (sources : list str) : res str :=
  match input with
  | Some i => filename i (L "pn") None None 4
  | None =>
      let timeplot := existsb (seqb pres) (map L ["chronology"; "rate"; "uncertainty"]%string) in
      do! base <- (if timeplot then
                     let n := filter (fun c => is_digit c || is_upper c || is_lower c || aeqb c (ch "_")) chron in
                     Ok (n ++ if seqb pres (L "uncertainty") then L "_" ++ dmin else [])
                   else
                     do! ns <- mapM (fun s => filename s (L "n") None None 4) sources;
                     Ok (remove_crater 0 (match ns with [] => L "out" | _ => join (L "_") (sort str_leb (dedup ns)) end)));
      Ok (base ++ if timeplot || existsb (seqb pres) (map L ["map"; "m2cnd"; "sdaa"]%string) then L "_" ++ pres else [])
  end.
(** cli.py 431-435; v is not defined in this function *)
Definition set_default_filename (isdir : str -> bool) (out : option str) (dflt : str) : res str :=
  match out with
  | None => Ok dflt
  | Some o => if isdir o then Err NameError else Ok o
  end.

(** ** cli.py 437-468: write_output_files *)
(** cli.py 444-468: what is on the figure when it is saved *)
Inductive drawing := Diagram | AgeArea (which : str) | Montecarlo (measure : str) (sel : option (list Z)) | NSigma (measure : str) | Table.
(** cli.py 437, 442-468: the state of the loop and the files written *)
Record out_state := { o_name : str; o_drawn : bool; o_result : bool; o_files : list (str * drawing) }.
Section Output.
  (** presentation; -ra given and the base name of its data file; measures in the order of the set; -select *)
  Variables (pres : str) (ra : option str) (measures : list str) (select : option str).
  (** cli.py 438-440: savefig *)
  Definition save (st : out_state) (tag f : str) (d : drawing) : out_state :=
    {| o_name := o_name st; o_drawn := o_drawn st; o_result := o_result st;
       o_files := o_files st ++ [(o_name st ++ tag ++ L "." ++ f, d)] |}.
  (** cli.py 443 *)
  Definition is_image (f : str) : bool := existsb (seqb f) (map L ["png"; "pdf"; "svg"; "tif"]%string).
  (** cli.py 443-468 *)
  Definition output_format (st : out_state) (f : str) : out_state :=
    let st :=
      if is_image f then
        match ra with
        | Some base =>
            let st := {| o_name := base; o_drawn := o_drawn st; o_result := o_result st; o_files := o_files st |} in
            let sel := ra_decode_selection select in
            fold_left (fun st m =>
              match sel with
              | Some [0%Z] => save st (L "-" ++ m ++ L "-n_sigma") f (NSigma m)
              | _ => save st (L "-" ++ m) f (Montecarlo m sel)
              end) measures st
        | None =>
            if seqb pres (L "uncertainty") && negb (o_result st) then
              let st := {| o_name := o_name st; o_drawn := o_drawn st; o_result := true; o_files := o_files st |} in
              fold_left (fun st w => save st (L "_" ++ w) f (AgeArea w)) (map L ["k"; "err"; "age"]%string) st
            else
              save {| o_name := o_name st; o_drawn := true; o_result := o_result st; o_files := o_files st |} [] f Diagram
        end
      else st in
    if seqb f (L "csv") && negb (seqb pres (L "uncertainty")) then save st [] f Table else st.
  (** cli.py 437-468 *)
  Definition write_output_files (out : str) (formats : list str) : out_state :=
    fold_left output_format formats {| o_name := out; o_drawn := false; o_result := false; o_files := [] |}.
End Output.
