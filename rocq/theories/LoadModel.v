(** Functions read from their definitions: Chronologyfn.py 22-59, 87-91, Productionfn.py 14-69; cli.py 211-233, the functions of a chronology
    system.  Definitions only. *)
From Coq Require Import String Ascii List ZArith Reals Bool.
From Verif Require Import Base NumModel ChronModel ProdModel StrModel CliModel TsModel IoModel SccModel EpModel.
Import ListNotations.
Local Open Scope R_scope.

(** Chronologyfn.py 34, Productionfn.py 17, 23: the entry added to a text *)
Definition null_of (kind : str) : str := nl :: kind ++ L "={" ++ nl :: L " name=" ++ dq :: L "null" ++ dq :: nl :: L "}".
(** Chronologyfn.py 30-37, Productionfn.py 19-26: a dictionary, a text of several lines, or the name of a file *)
Definition load_kind (fs : files) (kind : str) (src : source) : res (list (str * tsval)) :=
  match src with
  | SDict d => Ok d
  | SText s =>
      do! txt <- (if mem nl s then Ok (s ++ null_of kind)
                  else do! ls <- read_textfile fs s false true false; Ok (join [nl] ls));
      do! o <- read_structure txt;
      match o with Some d => Ok d | None => Err TypeError end
  end.
(** Chronologyfn.py 39-41, Productionfn.py 28-30 *)
Definition definition (fs : files) (kind : str) (src : source) (identifier : str) : res tsval :=
  do! d <- load_kind fs kind src;
  do! v <- dict_get d kind;
  do! l <- elements v;
  find_definition l identifier.

(** Chronologyfn.py 22-59 *)
Definition make_chronology (fs : files) (src : source) (identifier : str) : res chron :=
  do! d <- definition fs (L "chronology") src identifier;
  do! p <- (if has d (L "coefficients") then do! p <- float_column d (L "coefficients"); Ok (Some p) else Ok None);
  make_chron p.
(** Chronologyfn.py 87-91: the curve that is plotted *)
Definition cf_plotdata (c : chron) (rate linear : bool) : list (R * R) :=
  let t := if linear then linspace 0 5 1000 else map pow10 (linspace (-9) (log10 5) 1000) in
  map (fun t => (t, if rate then phi c t else N1 c t)) t.

(** Productionfn.py 35, 40: np.float32(np.array(v)): a single text is an array without elements that could be indexed; the rounding to 32 bits is left out *)
Definition number_array (v : tsval) : res (list R) :=
  match v with
  | TStr s => do! _ <- py_float s; Ok []
  | TList l => mapM float_of l
  | _ => Err TypeError
  end.
(** Productionfn.py 14-69: a production function with the plot axes of a table.  A function of unknown type has no function (its use fails with AttributeError). *)
Record production := mkPf { pf_fn : option productionfn; pf_xrange : option (R * R); pf_yrange : option (list R) }.
(** Productionfn.py 17: pf_type *)
Definition kind_of (equilibrium : bool) : str := if equilibrium then L "equilibrium" else L "production".
(** Productionfn.py 14-69.  A range of fewer than two numbers fails here, in the program when it is first used; the range of a table is read but not used. *)
Definition make_production (fs : files) (src : source) (identifier : str) (equilibrium : bool) : res production :=
  do! d <- definition fs (kind_of equilibrium) src identifier;
  do! ty <- (if has d (L "type") then sub d (L "type") else Ok (TStr (L "polynomial")));
  do! range <- (if has d (L "range") then do! v <- sub d (L "range"); number_array v else Ok [1 / 10000; 2000]);
  do! yrange <- (if has d (L "yrange") then do! v <- sub d (L "yrange"); do! l <- number_array v; Ok (Some l) else Ok None);
  if is_text (L "polynomial") ty then
    do! a <- float_column d (L "coefficients");
    do! lo <- pyindex range 0;
    do! hi <- pyindex range 1;
    Ok (mkPf (Some (Poly a lo hi)) None yrange)
  else if is_text (L "tabular incremental root-2") ty then
    do! h <- float_column d (L "H");
    do! v <- sub d (L "index_1km");
    do! idx <- int_of v;
    do! t <- make_tabular h idx;
    let d_min := tab_dmin idx (length h) in
    do! first <- pyindex d_min 0;
    do! last <- pyindex d_min (-1);
    Ok (mkPf (Some (Tab t)) (Some (log10 first, log10 (last * sqrt 2))) yrange)
  else Ok (mkPf None None yrange).
(** cli.py 227-230: the axes of a Hartmann plot when the function has its own (None: the default axes) *)
Definition hartmann_axes (p : production) : res (option (R * R * list R)) :=
  match pf_xrange p with
  | None => Ok None
  | Some x => match pf_yrange p with Some y => Ok (Some (x, y)) | None => Err AttributeError end
  end.

(** constants.py 24 *)
Definition planets : list str := map L ["Moon"; "Mars"; "Mercury"]%string.
(** constants.py 25 *)
Definition surface_areas : list R := [37900000; 144000000; 74800000].
(** cli.py 216-218: the text of a value that is used as a name *)
Definition name_text (v : tsval) : res str := match v with TStr s => Ok s | _ => Err TypeError end.
(** cli.py 216-220: what is set *)
Record system := mkSystem { sy_cf : chron; sy_pf : production; sy_area : R }.
(** cli.py 213-220; the global area otherwise stays at the default of constants.py 54 *)
Definition make_system (f : list (str * tsval)) (name : str) : res system :=
  do! v <- dict_get f (L "chronology_system");
  do! l <- elements v;
  do! cs <- (match find_definition l name with Err ValueError => Err SysExit | r => r end);
  do! cfn <- (do! v <- sub cs (L "cf"); name_text v);
  do! cf <- make_chronology [] (SDict f) cfn;
  do! pfn <- (do! v <- sub cs (L "pf"); name_text v);
  do! pf <- make_production [] (SDict f) pfn false;
  do! body <- (do! v <- sub cs (L "body"); name_text v);
  do! i <- decode_abbreviation planets body false true;
  do! area <- (match i with
               | Some i => match nth_error surface_areas i with Some a => Ok a | None => Err IndexError end
               | None => Ok (10 ^ 12)
               end);
  Ok (mkSystem cf pf area).
(** cli.py 222-223: the equilibrium function, none for an empty name *)
Definition make_equilibrium (f : list (str * tsval)) (name : str) : res (option production) :=
  match name with [] => Ok None | _ => do! p <- make_production [] (SDict f) name true; Ok (Some p) end.
