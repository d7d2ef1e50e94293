(** The strip of the randomness analysis in a crater plot: where the results file is sought and read (Cratercount.py 54-63,
    Randomnessanalysis.py 34) and what is drawn from it (Craterplot.py 113-162).  Definitions only.  Colours, fonts and the faded
    background are not modelled. *)
From Coq Require Import String Ascii List ZArith Reals Bool.
From Verif Require Import Base NumModel StrModel CliModel FmtModel TsModel IoModel SccModel RaModel RaFileModel SetModel MainModel.
Import ListNotations.
Local Open Scope R_scope.

(** ** Randomnessanalysis.py 34: the results file.  The name is that of the count (Spatialcount.py 29, 39), which is without the
    word CRATER if it comes from a shapefile; cli.py 402 gives an empty [out] unless -o was given *)
Definition results_file (out source : str) : res str :=
  match out with
  | [] => do! n <- count_name source; Ok (n ++ L "_ra.txt")
  | _ => Ok (out ++ L "_ra.txt")
  end.

(** ** Cratercount.py 29, 55: where a plot looks for the results of a count.  self.name is here still the name of the file *)
Definition ra_locations (source : str) : res (list str) :=
  do! n <- filename source (L "n") None None 4;
  do! p <- filename source (L "p") None None 4;
  Ok [n ++ L "_ra.txt"; p ++ n ++ L "_ra.txt"].
(** Cratercount.py 59 and Craterplot.py 114: the measures, in the order of their names.  The keys of a dictionary are distinct *)
Definition measures_of (table : list (str * tsval)) : list str :=
  sort str_leb (filter (fun k => negb (seqb k (L "bin"))) (map fst table)).
(** Cratercount.py 54-63: the table of n_sigma, and the numbers of trials as they are written *)
Definition read_ra_file (fs : files) (source : str) : res (option (list (str * tsval) * list tsval)) :=
  do! locations <- ra_locations source;
  match find (fun n => if file_get fs n then true else false) locations with
  | None => Ok None
  | Some f =>
      do! c <- structure fs f;
      do! v <- dict_get c (L "n_sigma");
      match v with
      | TDict table =>
          do! trials <- mapM (fun m => do! d <- dict_get c m; sub d (L "n_trials")) (measures_of table);
          Ok (Some (table, trials))
      | _ => Err AttributeError
      end
  end.

(** ** Craterplot.py 138: one value of a line.  float() also takes nan and inf; a single dash is a gap *)
Definition float_cell (v : tsval) : res sigma :=
  match v with
  | TStr s => if seqb s (L "nan") then Ok SNan else if seqb s (L "inf") then Ok (SInf false) else if seqb s (L "-inf") then Ok (SInf true)
              else do! x <- py_float s; Ok (SNum x)
  | _ => Err TypeError
  end.
(** Craterplot.py 138: n_sigma_scaling of one value *)
Definition scale_sigma (s : sigma) : sigma := match s with SNum x => SNum (n_sigma_scaling x) | _ => s end.
(** Craterplot.py 138: * (-1 ...) *)
Definition flip_sigma (s : sigma) : sigma := match s with SNum x => SNum (x * -1) | SNan => SNan | SInf n => SInf (negb n) end.
(** Craterplot.py 138: e!='-' *)
Definition is_dash (v : tsval) : bool := match v with TStr s => seqb s (L "-") | _ => false end.
(** Craterplot.py 138 *)
Definition strip_value (m : str) (v : tsval) : res (option sigma) :=
  if is_dash v then Ok None
  else do! s <- float_cell v; Ok (Some (if seqb m (L "sdaa") then flip_sigma (scale_sigma s) else scale_sigma s)).

(** ** Craterplot.py 114-139: the points, the horizontal extent of the strip, and one line for each measure.  A measure without a line style
    (constants.py 27) is a KeyError *)
Record strip := mkStrip { st_x : list R; st_range : R * R; st_lines : list (str * list (option sigma)) }.
(** constants.py 27, Craterplot.py 139 *)
Definition line_style (m : str) : res str :=
  if seqb m (L "m2cnd") then Ok (L "--") else if seqb m (L "sdaa") then Ok (L ":") else Err KeyError.
(** Craterplot.py 117: min *)
Definition list_min (l : list R) : res R := match l with [] => Err ValueError | x :: r => Ok (fold_left Rmin r x) end.
(** Craterplot.py 117: max *)
Definition list_max (l : list R) : res R := match l with [] => Err ValueError | x :: r => Ok (fold_left Rmax r x) end.
(** Craterplot.py 114-117, 137-139 *)
Definition make_strip (table : list (str * tsval)) : res strip :=
  do! b <- dict_get table (L "bin");
  do! bins <- elements b;
  do! x <- mapM (fun e => do! v <- float_of e; Ok (log10 (Rpower 2 (v + / 4)))) bins;
  do! lo <- list_min x;
  do! hi <- list_max x;
  do! lines <- mapM (fun m => do! c <- dict_get table m; do! cells <- elements c; do! y <- mapM (strip_value m) cells;
                              do! _ <- line_style m; Ok (m, y)) (measures_of table);
  Ok (mkStrip x (lo - log10 (Rpower 2 (/ 4)), hi + log10 (Rpower 2 (/ 4))) lines).
(** Craterplot.py 119-121: the three shaded bands, the widest first *)
Definition bands : list (R * R) := map (fun k => (n_sigma_scaling (- k), n_sigma_scaling k)) [3; 2; 1].

(** ** Craterplot.py 141-162: what is drawn beside the first strip only: the numbers of the scale at its right end, a row for each measure of
    the whole plot at its left end and one for the numbers of trials, and the lines of the grid *)
Record legend := mkLegend { lg_scale : list (R * str); lg_rows : list (str * R); lg_trials : R; lg_grid : list R }.
(** Craterplot.py 142-162 *)
Definition make_legend (measures : list str) (range : R * R) : res legend :=
  let dy := - (8 / 100) in
  let y i := (INR (length measures) / 2 - INR i) * n_sigma_scaling 1 * (13 / 10) in
  do! styles <- mapM line_style measures;
  do! g <- Hartmann_bins (fst range, snd range + 1 / 1000);
  let '(major, _, _, minor) := g in
  Ok (mkLegend (map (fun k => (n_sigma_scaling (IZR k) + dy, pad_left 2 (int_str (Z.abs k)))) [-3; -1; 0; 1; 3]%Z)
               (combine measures (map y (seq 0 (length measures)))) (y (length measures)) (major ++ minor)).
(** Craterplot.py 172, 185-186 and Craterplotset.py 627: the plots of a set in order: is it a plot of data (not a fit), is it hidden
    or without bins where they are needed (Craterplotset.py 529), and its table.  The measures are those of all plots of data, the strips those of the visible ones.  The presentation is one of
    the four that have a strip (Craterplotset.py 271) *)
Record entry_plot := mkPlot { pl_data : bool; pl_hidden : bool; pl_table : option (list (str * tsval)) }.
(** Craterplot.py 185, Craterplotset.py 627 *)
Definition has_table (p : entry_plot) : bool := pl_data p && match pl_table p with Some (_ :: _) => true | _ => false end.
(** Craterplotset.py 627: cp.cratercount.n_sigma *)
Definition table_of (p : entry_plot) : list (str * tsval) := match pl_table p with Some t => t | None => [] end.
(** Craterplotset.py 627 *)
Definition all_measures (plots : list entry_plot) : list str :=
  sort str_leb (dedup (filter (fun k => negb (seqb k (L "bin"))) (flat_map (fun p => map fst (table_of p)) (filter has_table plots)))).
(** Craterplot.py 141-143, 185-186, Craterplotset.py 286: ra_legend_drawn is the state that passes from one plot to the next *)
Fixpoint draw_strips (measures : list str) (drawn : bool) (tables : list (list (str * tsval))) : res (list (strip * option legend)) :=
  match tables with
  | [] => Ok []
  | t :: rest =>
      do! s <- make_strip t;
      do! lg <- (if drawn then Ok None else do! l <- make_legend measures (st_range s); Ok (Some l));
      do! r <- draw_strips measures true rest;
      Ok ((s, lg) :: r)
  end.
(** Craterplotset.py 528-530, Craterplot.py 172, 185-186: the last plot is drawn first *)
Definition strips (ra_show : bool) (plots : list entry_plot) : res (list (strip * option legend)) :=
  if ra_show then draw_strips (all_measures plots) false (map table_of (filter (fun p => has_table p && negb (pl_hidden p)) (rev plots))) else Ok [].
