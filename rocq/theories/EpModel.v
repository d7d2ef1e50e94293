(** Epoch systems: Epochs.py; the list of isochrons: Craterplotset.py plot_isochrons.  Definitions only. *)
From Coq Require Import String Ascii List ZArith Reals Bool.
From Verif Require Import Base NumModel BinModel ChronModel ProdModel StrModel CliModel FmtModel TsModel IoModel SccModel.
Import ListNotations.
Local Open Scope R_scope.

(** ** Epochs.py 17-26: the definitions: a dictionary, a text of several lines, or the name of a file *)
Inductive source := SDict (d : list (str * tsval)) | SText (s : str).
(** Epochs.py 23: the entry added to a text *)
Definition null_entry : str := nl :: L "epochs={" ++ nl :: L " name=" ++ dq :: L "null" ++ dq :: nl :: L "}".
(** Epochs.py 19-26: the definitions read *)
Definition load (fs : files) (src : source) : res (list (str * tsval)) :=
  match src with
  | SDict d => Ok d
  | SText s =>
      do! txt <- (if mem nl s then Ok (s ++ null_entry)
                  else do! ls <- read_textfile fs s false true false; Ok (join [nl] ls));
      do! o <- read_structure txt;
      match o with Some d => Ok d | None => Err TypeError end
  end.
(** Epochs.py 28-30; entries after the one found are not looked at *)
Fixpoint find_definition (l : list tsval) (identifier : str) : res tsval :=
  match l with
  | [] => Err ValueError
  | e :: r => do! n <- sub e (L "name"); if is_text identifier n then Ok e else find_definition r identifier
  end.
(** Epochs.py 32-40: the object; name, reference, pf and cf are left out *)
Record epochs := mkEpochs { ep_epoch : tsval; ep_formatting : tsval; ep_time : list R }.
(** Epochs.py 35-37: a list of numbers that may be missing *)
Definition optional {A} (d : tsval) (k : str) (f : tsval -> res A) : res (option (list A)) :=
  if has d k then do! v <- sub d k; do! l <- elements v; do! r <- mapM f l; Ok (Some r) else Ok None.
(** Epochs.py 42-44: ages of the boundaries from densities *)
Definition boundary_age (cfit : (R -> R -> R) -> list R -> list R -> list R -> R) (pf : productionfn) (cf : chron) (dn : Z * R) : res R :=
  do! a0 <- fit cfit pf "cumulative" [IZR (fst dn)] [snd dn / 10 ^ 6] [0];
  match a0 with a :: _ => Ok (cf_t_a0 cf a) | [] => Err IndexError end.
(** Epochs.py 17-44 *)
Definition make_epochs (cfit : (R -> R -> R) -> list R -> list R -> list R -> R) (fs : files) (src : source) (identifier : str)
    (pf : productionfn) (cf : chron) : res epochs :=
  do! d <- load fs src;
  do! v <- dict_get d (L "epochs");
  do! l <- elements v;
  do! d <- find_definition l identifier;
  do! ep <- sub d (L "epoch");
  do! fm <- sub d (L "formatting");
  do! ref <- optional d (L "ref_diameter") int_of;
  do! den <- optional d (L "density") float_of;
  do! tm <- optional d (L "time") float_of;
  do! _ <- sub d (L "reference");
  do! tm <- (match tm with
             | Some t => Ok t
             | None =>
                 match ref, den with
                 | Some ref, Some den => do! t <- mapM (boundary_age cfit pf cf) (combine ref den); Ok (0 :: t)
                 | _, _ => Err TypeError
                 end
             end);
  Ok (mkEpochs ep fm tm).

(** ** Epochs.py 55: the colour, the first character *)
Definition colour_of (e : str) : res Z :=
  match e with
  | c :: _ => if is_digit c then Ok (nat_text [c]) else Err ValueError
  | [] => Err ValueError
  end.
(** Epochs.py 58: what decode_formatting returns *)
Record formats := mkFormats { f_slant : Z; f_colour : list Z; f_offset : list bool; f_boundary : list bool }.
(** Epochs.py 49-58 *)
Definition decode_formatting (formatting : list str) : res formats :=
  match formatting with
  | [] => Err IndexError
  | f0 :: r =>
      do! slant <- int_of (TStr f0);
      do! colour <- mapM colour_of r;
      Ok (mkFormats slant colour (map (mem (ch "r")) r) (map (mem (ch "b")) r))
  end.

(** ** Epochs.py 71-74, 113-114: the shaded regions: their ages and the index into the list of greys *)
Fixpoint regions (colour : list Z) (time : list R) {struct time} : res (list (R * R * Z)) :=
  match time with
  | t0 :: ((t1 :: _) as r) =>
      match colour with
      | c :: cs => do! rest <- regions cs r; Ok ((t0, t1, (3 - c)%Z) :: rest)
      | [] => Err IndexError
      end
  | _ => Ok []
  end.
(** Epochs.py 71-74, 113-114: the shaded regions *)
Definition epoch_regions (f : formats) (time : list R) : res (list (R * R * Z)) := regions (tl (f_colour f)) (tl time).
(** Epochs.py 76-79, 116-118: the dividing lines: their ages, and whether they are strong *)
Fixpoint lines (boundary : list bool) (time : list R) {struct time} : res (list (R * bool)) :=
  match time, boundary with
  | t :: r, b :: bs => do! rest <- lines bs r; Ok ((t, b) :: rest)
  | _ :: _, [] => Err IndexError
  | [], _ => Ok []
  end.
(** Epochs.py 76-79, 116-118: the dividing lines *)
Definition epoch_lines (f : formats) (time : list R) : res (list (R * bool)) := lines (f_boundary f) (tl time).

(** Epochs.py 123: re.split at the characters [p] *)
Fixpoint split_where (p : ascii -> bool) (acc s : str) : list str :=
  match s with
  | [] => [rev acc]
  | c :: t => if p c then rev acc :: split_where p [] t else split_where p (c :: acc) t
  end.
(** Epochs.py 123: a[0] *)
Definition first_char (s : str) : res ascii := match s with c :: _ => Ok c | [] => Err IndexError end.
(** Epochs.py 123-124: the letters for an epoch *)
Definition letters (e : str) : res str :=
  do! l <- mapM first_char (split_where (fun c => mem c (L " -")) [] e);
  match l with
  | [a; b] => Ok [lower a; b]
  | a :: _ => Ok [a]
  | [] => Err IndexError
  end.
(** Epochs.py 122-129 (and 82-84): positions and names from a list of limits *)
Fixpoint names_between {X} (label : str -> res X) (middle : R -> R -> R) (t0 : list R) (epoch : list str) {struct epoch} : res (list (R * X)) :=
  match epoch with
  | [] => Ok []
  | e :: r =>
      do! x <- label e;
      match t0 with
      | a :: ((b :: _) as t1) => do! rest <- names_between label middle t1 r; Ok ((middle a b, x) :: rest)
      | _ => Err IndexError
      end
  end.
(** Epochs.py 120-129: the names on a sequence plot; [log] is j==1, the logarithmic part of the axis *)
Definition sequence_names (log : bool) (time : list R) (t_min t_max : R) (epoch : list str) : res (list (R * str)) :=
  names_between letters (fun a b => if log then sqrt (a * b) else (a + b) / 2)
    (tl (sort Rleb (time ++ [t_min; t_max]))) epoch.
(** Epochs.py 81-85: the names beside a chronology or rate curve, as ages; the text begins 0.03 Ga from the middle *)
Definition chronology_names (time : list R) (x0 : R) (epoch : list str) : res (list (R * str)) :=
  names_between (fun e => Ok e) (fun a b => (a + b) / 2) (time ++ [x0]) epoch.
(** Epochs.py 91-96: the ages written below the curve, with the flag that raises them *)
Fixpoint written_ages (offset : list bool) (time : list R) {struct time} : res (list (R * str * bool)) :=
  match time with
  | [] => Ok []
  | t :: r =>
      if Reqb t 0 then written_ages (tl offset) r
      else match offset with
           | o :: os => do! rest <- written_ages os r; Ok ((t, L " " ++ fmt_g 3 t ++ L " ", o) :: rest)
           | [] => Err IndexError
           end
  end.

(** ** Craterplotset.py 562-568: the list of isochrons: age and whether to hide the label, to put it above, to write it small *)
Definition isochron := (R * bool * bool * bool)%type.
(** Craterplotset.py 562-568 *)
Definition parse_isochrons (s : str) : list isochron :=
  flat_map (fun e => match py_float (rstrip (fun c => mem c (L "ash")) e) with
                     | Ok v => [(Rabs v, mem (ch "h") e, mem (ch "a") e, mem (ch "s") e)]
                     | Err _ => []
                     end) (split_chr (ch ",") [] s).
