(** Crater count files: Cratercount.py readers and writer, miscellaneous.py merge_cratercounts.  Definitions only. *)
From Coq Require Import String Ascii List ZArith Reals Bool.
From Verif Require Import Base NumModel BinModel CountModel StrModel CliModel FmtModel TsModel.
Import ListNotations.
Local Open Scope R_scope.

(** ** For Cratercount.py 103-109, 127, 132-135: Python's float() of a text and str.split().  Infinities, nan and underscores between digits are left out
    (here: ValueError), and the result is the exact decimal value. *)
Fixpoint span (p : ascii -> bool) (s : str) : str * str :=
  match s with
  | c :: t => if p c then let '(a, b) := span p t in (c :: a, b) else ([], s)
  | [] => ([], [])
  end.
(** the sign of float(), Cratercount.py 106-109 *)
Definition py_sign (s : str) : bool * str :=
  match s with
  | c :: t => if aeqb c (ch "-") then (true, t) else if aeqb c (ch "+") then (false, t) else (false, s)
  | [] => (false, [])
  end.
(** the digits of float(), Cratercount.py 106-109 *)
Definition nat_text (s : str) : Z := fold_left (fun a c => (10 * a + (Z.of_nat (nat_of_ascii c) - 48))%Z) s 0%Z.
(** part of float(), Cratercount.py 106-109: the exponent, which must extend to the end *)
Definition py_exponent (s : str) : res Z :=
  match s with
  | [] => Ok 0%Z
  | c :: t =>
      if mem c (L "eE") then
        let '(neg, t) := py_sign t in
        match span is_digit t with
        | ([], _) => Err ValueError
        | (k, []) => Ok (if neg then (- nat_text k)%Z else nat_text k)
        | _ => Err ValueError
        end
      else Err ValueError
  end.
(** float(), Cratercount.py 106-109, 127, 132-135 *)
Definition py_float (s : str) : res R :=
  let '(neg, s) := py_sign (strip is_space s) in
  let '(ip, s) := span is_digit s in
  let '(fp, s) := match s with
                  | c :: t => if aeqb c (ch ".") then span is_digit t else ([], s)
                  | [] => ([], [])
                  end in
  match ip ++ fp with
  | [] => Err ValueError
  | ds => do! e <- py_exponent s;
          Ok ((if neg then -1 else 1) * IZR (nat_text ds) / 10 ^ length fp * powerRZ 10 e)
  end.
(** Cratercount.py 103-104: str.split(): the words between white space *)
Fixpoint split_from (acc s : str) : list str :=
  match s with
  | [] => match acc with [] => [] | _ => [rev acc] end
  | c :: t => if is_space c then (match acc with [] => [] | _ => [rev acc] end) ++ split_from [] t else split_from (c :: acc) t
  end.
(** Cratercount.py 103-104: str.split() *)
Definition py_split (s : str) : list str := split_from [] s.

(** ** Cratercount.py 126, 134: access to the dictionaries that gm.read_textstructure returns *)
Definition dict_get (d : list (str * tsval)) (k : str) : res tsval :=
  match lookup d k with Some v => Ok v | None => Err KeyError end.
(** Cratercount.py 127, 132, 135: c[k] of a value c *)
Definition sub (v : tsval) (k : str) : res tsval := match v with TDict d => dict_get d k | _ => Err TypeError end.
(** Cratercount.py 129, 135: k in c *)
Definition has (v : tsval) (k : str) : bool := match v with TDict d => (if lookup d k then true else false) | _ => false end.
(** float(v), Cratercount.py 134 *)
Definition float_of (v : tsval) : res R := match v with TStr s => py_float s | _ => Err TypeError end.
(** Cratercount.py 127, 132: the elements that a for loop over v visits *)
Definition elements (v : tsval) : res (list tsval) :=
  match v with
  | TList l => Ok l
  | TStr s => Ok (map (fun c => TStr [c]) s)
  | TDict d => Ok (map (fun p => TStr (fst p)) d)
  | TNone => Err TypeError
  end.
(** Cratercount.py 127, 135: [float(e) for e in c[k]] *)
Definition float_column (c : tsval) (k : str) : res (list R) :=
  do! v <- sub c k; do! l <- elements v; mapM float_of l.
(** Cratercount.py 124: gm.read_textstructure, with an error at the first access if there is no dictionary *)
Definition structure (fs : files) (name : str) : res (list (str * tsval)) :=
  do! o <- read_textstructure fs name; match o with Some d => Ok d | None => Err TypeError end.

(** Cratercount.py 18-27: the fields that the readers set; diam and fraction are paired *)
Record count := mkCount { ct : cratercount; ct_perimeter : option R; ct_buffered : bool }.
(** Cratercount.py 145-148, 182-184: a count that is not binned yet *)
Definition crater_list (craters : list (R * R)) (area : R) : cratercount := mkCC craters area None false empty_binned None.

(** ** Cratercount.py 123-148: ReadDiamFile.  The error messages of 137-140 are only stored in the object. *)
Definition read_diam (fs : files) (name : str) : res count :=
  do! s <- structure fs name;
  do! c <- dict_get s (L "crater");
  do! diam <- float_column c (L "diameter");
  do! (area, frac) <- (if has c (L "reference_area") then
                         do! v <- sub c (L "reference_area"); do! l <- elements v;
                         do! f <- mapM (fun e => do! x <- float_of e; if Reqb x 0 then Err ZeroDivision else Ok (1 / x)) l;
                         Ok (1, f)
                       else
                         do! v <- dict_get s (L "area"); do! a <- float_of v;
                         do! f <- (if has c (L "fraction") then float_column c (L "fraction") else Ok (map (fun _ => 1) diam));
                         Ok (a, f));
  match frac with
  | [] => Err ValueError       (* 137: min of an empty list *)
  | _ =>
      match sort (fun p q => pair_leb q p) (combine diam frac) with
      | [] => Err ValueError   (* 143: nothing to unpack *)
      | l => Ok (mkCount (crater_list l area) None (has c (L "reference_area")))
      end
  end.

(** ** Cratercount.py 169-184: ReadSCCfile *)
(** Cratercount.py 177, 181: the first match of \s*[\d\.]* *)
Definition leading_number (v : tsval) : res R :=
  match v with
  | TStr s => let '(ws, r) := span is_space s in py_float (ws ++ fst (span (fun c => is_digit c || aeqb c (ch ".")) r))
  | _ => Err TypeError
  end.
(** Cratercount.py 182-183: the elements at the given positions *)
Definition take_at {A} (l : list A) (q : list nat) : res (list A) :=
  mapM (fun i => match nth_error l i with Some x => Ok x | None => Err IndexError end) q.
(** Cratercount.py 175: positions in ascending order of the values, equal values in their order *)
Definition sorted_positions (l : list R) : list nat :=
  map fst (sort (fun p q => Rleb (snd p) (snd q)) (combine (seq 0 (length l)) l)).
(** Cratercount.py 170-184 *)
Definition read_scc (fs : files) (name : str) : res count :=
  do! s <- structure fs name;
  do! c <- dict_get s (L "crater");
  do! diam <- float_column c (L "diam");
  do! frac <- (if has c (L "fraction") then float_column c (L "fraction") else Ok (map (fun _ => 1) diam));
  let q := sorted_positions diam in
  do! v <- dict_get s (L "Total_area"); do! area <- leading_number v;
  do! p <- (match lookup s (L "Perimeter") with
            | Some (TStr t) => match py_split t with w :: _ => do! x <- py_float w; Ok (Some x) | [] => Err IndexError end
            | Some _ => Err AttributeError
            | None => Ok None
            end);
  do! p <- (match lookup s (L "Total_perimeter") with
            | Some v => do! x <- leading_number v; Ok (Some x)
            | None => Ok p
            end);
  do! d <- take_at diam q; do! f <- take_at frac q;
  Ok (mkCount (crater_list (combine d f) area) p false).

(** ** Cratercount.py 106-109; ReadStatFile is 96-121.  Division by zero gives infinities or nan in the program; here NotANumber *)
Definition column (t : list (list str)) (i : nat) : res (list R) :=
  mapM (fun e => match nth_error e i with Some w => py_float w | None => Err IndexError end) t.
(** Cratercount.py 71, 111: a quotient *)
Definition divide (x y : R) : res R := if Reqb y 0 then Err NotANumber else Ok (x / y).
(** Cratercount.py 69-75: MakeBinGeometricMean; the last bin as wide, in proportion, as the one before *)
Definition upper_edges (d : list R) : res (list R) :=
  match rev d with
  | b :: a :: _ => do! q <- divide b a; Ok (tl d ++ [b * q])
  | _ => Err IndexError
  end.
(** Cratercount.py 96-121 *)
Definition read_stat (fs : files) (name : str) : res count :=
  do! s <- read_textfile fs name true true false;
  match s with
  | [] => Err IndexError
  | s0 :: _ =>
      let nc := length (py_split s0) in
      let t := map py_split s in
      do! diam <- column t 0; do! n <- column t 1; do! ncum <- column t 4; do! dens <- column t 5;
      do! area <- divide (hd 0 ncum) (hd 0 dens);
      do! ev <- (if Nat.eqb nc 7 then Ok n else column t 10);
      do! hi <- upper_edges diam;
      Ok (mkCount (mkCC [] area (Some "pseudo-log"%string) true
                     (mkBinned diam hi (map (fun p => snd p - fst p) (combine diam hi)) (map (fun p => sqrt (fst p * snd p)) (combine diam hi))
                        n ev ncum ncum) None) None false)
  end.

(** ** Cratercount.py 44-47: every exception ends the program Cratercount.py 17-49: the constructor with one file name.  Randomness files (30) are left out; shape files are read by a
    third-party library, here the argument [shp]. *)
Definition wrap {A} (r : res A) : res A := match r with Ok x => Ok x | Err _ => Err SysExit end.
(** Cratercount.py 17-48 *)
Definition open_count (shp : str -> res count) (fs : files) (name : str) : res count :=
  do! e <- filename name (L "e") None None 6;
  wrap (if seqb e (L ".stat") then read_stat fs name
        else if seqb e (L ".diam") then read_diam fs name
        else if seqb e (L ".scc") then read_scc fs name
        else if seqb e (L ".shp") then shp name
        else Err SysExit).

(** ** Cratercount.py 216-225: format code >;  WriteStatFile *)
Definition pad_left (k : nat) (s : str) : str := repeat (ch " ") (k - length s) ++ s.
(** Cratercount.py 215: format code < *)
Definition pad_right (k : nat) (s : str) : str := s ++ repeat (ch " ") (k - length s).
(** Cratercount.py 217-224: format(x, '.3E') with d = 4 digits *)
Definition fmt_E (d : nat) (x : R) : str := let '(m, e) := fmt_e d x in m ++ L "E" ++ tl (exp_str e).
(** Cratercount.py 203-208 *)
Definition stat_header (source binning : str) (area : R) : list str :=
  [L "# Craterstats3 exported stat file"; L "#--------------------------------"; L "#"; L "# Source: " ++ source;
   L "# Binning: " ++ binning; L "#"; L "# Total area = " ++ fmt_g 6 area; L "#";
   L "#  D_min       F(D)       N_inc       Error        C(D)       N_cum       Error      D_mean      N_diff       Error     N_event";
   L "#"; L "#" ++ repeat (ch "-") 126].
(** Cratercount.py 215-225: one bin *)
Definition stat_row (a dmin n ncum dmean width ev : R) : str :=
  pad_right 7 (fmt_g 5 dmin) ++ pad_left 11 (fmt_g 5 n) ++ pad_left 13 (fmt_E 4 (n / a)) ++ pad_left 12 (fmt_E 4 (n / a / sqrt n)) ++
  pad_left 11 (fmt_g 5 ncum) ++ pad_left 13 (fmt_E 4 (ncum / a)) ++ pad_left 12 (fmt_E 4 (ncum / a / sqrt ncum)) ++
  pad_left 12 (fmt_g 4 dmean) ++ pad_left 12 (fmt_E 4 (n / width / a)) ++ pad_left 12 (fmt_E 4 (n / width / a / sqrt ev)) ++
  pad_left 12 (fmt_g 5 ev).
(** Cratercount.py 213-226: only bins that are not empty are written *)
Fixpoint stat_rows (a : R) (dmin n ncum dmean width ev : list R) : list str :=
  match dmin, n, ncum, dmean, width, ev with
  | d :: dmin, x :: n, c :: ncum, m :: dmean, w :: width, e :: ev =>
      (if Rltb 0 x then [stat_row a d x c m w e] else []) ++ stat_rows a dmin n ncum dmean width ev
  | _, _, _, _, _, _ => []
  end.
(** Cratercount.py 203-228 *)
Definition stat_lines (source binning : str) (a : R) (b : binned) : list str :=
  stat_header source binning a ++ stat_rows a (b_dmin b) (b_n b) (b_ncum b) (b_dmean b) (b_width b) (b_nevent b) ++
  [L "#" ++ repeat (ch "-") 126].
(** Cratercount.py 197-229 *)
Definition write_stat (fs : files) (s : cratercount) (source : str) (name : str) (binning : string) : res files :=
  match ensure_binning s binning with
  | (Err e, _) => Err e
  | (Ok _, s) =>
      match cc_binning s with
      | None => Err TypeError
      | Some b => Ok (write_textfile fs name (stat_lines source (list_ascii_of_string b) (cc_area s) (cc_binned s)) false)
      end
  end.

(** ** miscellaneous.py 152;  merge_cratercounts with equal_weight=False.  [show] is the text of a float in an f-string. *)
Definition merge_row (p : R * R) : str := pad_right 12 (fmt_g 6 (fst p)) ++ L "  " ++ fmt_g 6 (snd p).
(** miscellaneous.py 146-154 *)
Definition merge_lines (show : R -> str) (names : list str) (a p : R) (craters : list (R * R)) : list str :=
  [L "# Merged crater diameter file"; L "#----------------------------"; L "#"] ++ map (fun n => L "# " ++ n) names ++
  [L "#"; L "area = " ++ show a; L "perimeter = " ++ show p; L "#"; L "crater = {diameter, fraction"] ++
  map merge_row craters ++ [L "}"].
(** miscellaneous.py 122-144 *)
Fixpoint merge_loop (shp : str -> res count) (fs : files) (names : list str) (craters : list (R * R)) (a p : R)
  : res (list (R * R) * R * R) :=
  match names with
  | [] => Ok (craters, a, p)
  | f :: rest =>
      do! c <- open_count shp fs f;
      if cc_prebinned (ct c) then Err SysExit
      else match ct_perimeter c with
           | None => Err TypeError
           | Some q => merge_loop shp fs rest (craters ++ cc_craters (ct c)) (a + cc_area (ct c)) (p + q)
           end
  end.
(** miscellaneous.py 106-157: the new files and the name of the one written *)
Definition merge_cratercounts (show : R -> str) (shp : str -> res count) (fs : files) (arg : str) (out : option str) : res (files * str) :=
  let names := quoted_split is_space arg in
  if Nat.ltb (length names) 2 then Err SysExit
  else
    do! out <- (match out with
                | Some (c :: o) => Ok (c :: o)
                | _ => do! ns <- filename_list names (L "n") None None 4; Ok (join (L "_") (sort str_leb ns))
                end);
    do! out <- filename out (L "pn1") (Some (L ".diam")) None 4;
    do! r <- merge_loop shp fs names [] 0 0;
    let '(cr, a, p) := r in
    do! ns <- mapM (fun f => filename f (L "ne") None None 4) names;
    Ok (write_textfile fs out (merge_lines show ns a p cr) false, out).
