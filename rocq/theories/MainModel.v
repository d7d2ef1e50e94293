(** Conversions and the course of a run: cli.py convert_format, demo and main.  Definitions only. *)
From Coq Require Import String Ascii List ZArith Bool.
From Verif Require Import Base StrModel CliModel FmtModel.
Import ListNotations.

(** ** Names of counts: Spatialcount.py 29, 39 and Cratercount.py 29, 191.  In names from shapefiles _?CRATER_? is removed. *)
Definition count_name (src : str) : res str :=
  do! n <- filename src (L "n") None None 4;
  do! e <- filename src (L "e") None None 4;
  Ok (if seqb e (L ".shp") then remove_crater 0 n else n).
(** ** Spatialcount.py 34-36: the file of the outlines beside a file of craters: every CRATER in the name becomes AREA *)
Fixpoint crater_to_area (skip : nat) (s : str) : str :=
  match s with
  | [] => []
  | c :: t =>
      match skip with
      | S k => crater_to_area k t
      | O => if starts_with (L "CRATER") s then L "AREA" ++ crater_to_area 5 t else c :: crater_to_area 0 t
      end
  end.
(** Spatialcount.py 34-36 *)
Definition area_file (src : str) : res str :=
  do! n <- filename src (L "n") None None 4;
  filename src (L "p1e") (Some (crater_to_area 0 n)) None 4.
(** str.lstrip("."), cli.py 316-317 *)
Definition lstrip_dots (s : str) : str := lstrip (fun c => aeqb c (ch ".")) s.

(** what cli.py 323-342 write *)
Inductive written := Statistics | Scc | CraterShapes | AreaShapes | Commands | Map.
(** ** cli.py 304-312: outfile *)
Definition outfile (isdir : str -> bool) (name out ext : str) : res str :=
  if seqb out (L "out") then Ok (name ++ ext)
  else if isdir out then Ok (out ++ name ++ ext)
  else do! pn <- filename out (L "pn") None None 4; Ok (pn ++ ext).
(** ** cli.py 314-347: convert_format: the files written, in order, and whether the message "Conversion written to" is printed.  Reading the source
    (315, 321, 326, 331) and drawing the map are taken to succeed; the projection files and styles beside a shapefile are left out.
    [out] is the name set by -o or its default, [input] whether -i was given. *)
Definition convert_format (isdir : str -> bool) (input : bool) (fmt src out : str) : res (list (str * written) * bool) :=
  let fmt1 := lstrip_dots fmt in
  do! e0 <- filename src (L "e") None None 4;
  let fmt0 := lstrip_dots e0 in
  do! n <- filename src (L "n") None None 4;
  do! o <- outfile isdir n out (L "." ++ fmt1);
  if seqb fmt1 (L "stat") && existsb (seqb fmt0) (map L ["diam"; "scc"; "shp"]%string) then
    do! cn <- count_name src;
    do! o <- filename o (L "p1e") (Some cn) None 4;
    Ok ([(o, Statistics)], true)
  else if seqb fmt1 (L "scc") then
    if seqb fmt0 (L "shp") then
      do! cn <- count_name src;
      do! o <- filename o (L "p1e") (Some cn) None 4;
      Ok ([(o, Scc)], true)
    else Ok ([], true)
  else if seqb fmt1 (L "shp") then
    if seqb fmt0 (L "scc") then
      (* Spatialcount.py 257, 274 *)
      do! c <- filename o (L "pn1e") (Some (L "_CRATER")) None 4;
      do! a <- filename o (L "pn1e") (Some (L "_AREA")) None 4;
      Ok ([(c, CraterShapes); (a, AreaShapes)], true)
    else Ok ([], true)
  else if existsb (seqb fmt1) (map L ["png"; "svg"; "pdf"]%string) then
    if existsb (seqb fmt0) (map L ["shp"; "scc"]%string) then
      let o := remove_crater 0 o in
      if input then Ok ([(o, Map)], true)
      else
        do! o <- filename o (L "pn1e") (Some (L "_map")) None 4;
        do! c <- filename o (L "pn1") (Some (L ".cs")) None 4;
        Ok ([(c, Commands); (o, Map)], true)
    else Ok ([], true)
  else Ok ([], false).

(** ** cli.py 373: demo (363-376): the arguments of demonstration [i] with the command [c]; a number is padded to two digits *)
Definition two_digits (i : nat) : str :=
  if Nat.ltb i 10 then L "0" ++ int_str (Z.of_nat i) else int_str (Z.of_nat i).
(** cli.py 366, 373 *)
Definition demo_out (i : nat) : str := L "demo/" ++ two_digits i ++ L "-demo".
(** cli.py 373 *)
Definition demo_text (i : nat) (c : str) : str := L "-o " ++ demo_out i ++ L " " ++ c.

(** ** cli.py 483-548: what main does *)
Inductive deed :=
| CreateIcon | SetFunctions (file : str) | ListSystems | ListColours | PrintAbout | PrintVersion | Merge | Demo
| Conversion (file : str) (w : written) | Output (file : str) (d : drawing) | CommandFile (file content : str).
(** cli.py 487-537, 547: the options that decide what is done; an empty text counts as not given *)
Record options := mkOptions {
  op_icon : bool; op_functions_user : str; op_lcs : bool; op_lpc : bool; op_about : bool; op_version : bool;
  op_merge : bool; op_demo : bool; op_convert : option (str * str); op_input : bool }.
(** what cli.py 520-533 make of the other options: presentation, data file and measures of a randomness analysis, -select, name and formats of the
    output; and whether 541-543 (automatic ranges) fail *)
Record plotset := mkPlotset { ps_pres : str; ps_ra : option str; ps_measures : list str; ps_select : option str; ps_out : str; ps_formats : list str; ps_scale : option exn }.
(** cli.py 442-468: files are written one after the other until one fails; [save] is the error, if any, of making that file *)
Fixpoint write_until (save : str * drawing -> option exn) (l : list (str * drawing)) : list deed * option exn :=
  match l with
  | [] => ([], None)
  | f :: r => match save f with
              | Some x => ([], Some x)
              | None => let (ds, x) := write_until save r in (Output (fst f) (snd f) :: ds, x)
              end
  end.
(** cli.py 483-548: the things done, in order, and the error that ended the run, if any.  [fns] is the result of reading the functions (491), [merge] and
    [demo] the errors of these commands, [args0] the command line. *)
Definition main (isdir : str -> bool) (fns : option exn) (setf : str -> option exn) (merge demo : option exn) (settings : res plotset)
    (save : str * drawing -> option exn) (o : options) (args0 : list str) : list deed * option exn :=
  let attempt d x := match x with None => ([d], None) | Some e => ([], Some e) end in
  if op_icon o then ([CreateIcon], None)
  else match fns with
  | Some x => ([], Some x)
  | None =>
  if negb (seqb (op_functions_user o) []) then attempt (SetFunctions (op_functions_user o)) (setf (op_functions_user o))
  else if op_lcs o then ([ListSystems], None)
  else if op_lpc o then ([ListColours], None)
  else if op_about o then ([PrintAbout], None)
  else if op_version o then ([PrintVersion], None)
  else if op_merge o then attempt Merge merge
  else if op_demo o then attempt Demo demo
  else
    match settings with
    | Err x => ([], Some x)
    | Ok ps =>
      match cs_content args0 with
      | Err x => ([], Some x)
      | Ok c =>
        match op_convert o with
        | Some (fmt, src) =>
            match convert_format isdir (op_input o) fmt src (ps_out ps) with
            | Ok (fs, _) => (map (fun f => match snd f with Commands => CommandFile (fst f) c | w => Conversion (fst f) w end) fs, None)
            | Err x => ([], Some x)
            end
        | None =>
            match ps_scale ps with
            | Some x => ([], Some x)
            | None =>
              let st := write_output_files (ps_pres ps) (ps_ra ps) (ps_measures ps) (ps_select ps) (ps_out ps) (ps_formats ps) in
              match write_until save (o_files st) with
              | (ds, Some x) => (ds, Some x)
              | (ds, None) => (ds ++ (if op_input o then [] else [CommandFile (o_name st ++ L ".cs") c]), None)
              end
            end
        end
      end
    end
  end.
