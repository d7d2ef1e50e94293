(** The results file of the randomness analysis: Randomnessanalysis.py write and read, cli.py randomness_analysis.  Definitions only. *)
From Coq Require Import String Ascii List ZArith Reals Bool.
From Verif Require Import Base NumModel StrModel CliModel FmtModel TsModel IoModel SccModel RaModel.
Import ListNotations.
Local Open Scope R_scope.

(** ** Randomnessanalysis.py 404-436: write.  The statistics of a measure have the same bins as its trials (171-185); [stat m b] is
    n_sigma: a number, or what the division by a zero deviation gives *)
Inductive sigma := SNum (x : R) | SNan | SInf (negative : bool).
(** Randomnessanalysis.py 416: format code .4g *)
Definition sigma_text (s : sigma) : str :=
  match s with SNum x => fmt_g 4 x | SNan => L "nan" | SInf false => L "inf" | SInf true => L "-inf" end.
(** Randomnessanalysis.py 415 *)
Definition has_bin (r : record) (b : str) : bool := existsb (fun p => seqb (fst p) b) (trials r).
(** Randomnessanalysis.py 411: the bins of all measures in ascending order *)
Definition all_bins (s : store) : res (list str) :=
  do! l <- mapM (fun b => do! x <- py_float b; Ok (x, b)) (nodup (list_eq_dec ascii_dec) (flat_map (fun p => map fst (trials (snd p))) s));
  Ok (map snd (sort (fun p q => Rleb (fst p) (fst q)) l)).
(** Randomnessanalysis.py 412-419 *)
Definition sigma_row (stat : str -> str -> sigma) (s : store) (b : str) : str :=
  pad_right 12 b ++
  concat (map (fun p => [tab] ++ pad_left 9 (if has_bin (snd p) b then sigma_text (stat (fst p) b) else L "-")) s).
(** Randomnessanalysis.py 427: one line of a table of trials *)
Definition trial_row (r : record) (t : nat) : res str :=
  do! cells <- mapM (fun p => match nth_error (snd p) t with Some v => Ok (pad_right 12 (fmt_g 7 v)) | None => Err IndexError end) (trials r);
  Ok (join [tab] (pad_right 12 (int_str (Z.of_nat t)) :: cells)).
(** Randomnessanalysis.py 424-435 *)
Definition measure_lines (p : str * record) : res (list str) :=
  let '(m, r) := p in
  do! rows <- mapM (trial_row r) (seq 0 (Z.to_nat (n_trials r)));
  Ok ([L "#"; m ++ L " = {"; L "n_trials = " ++ int_str (n_trials r); L "trials  = {index, " ++ join (L ", ") (map fst (trials r))] ++ rows ++
      [L "}"; L "}"]).
(** Randomnessanalysis.py 405-435 *)
Definition ra_lines (version source : str) (stat : str -> str -> sigma) (s : store) : res (list str) :=
  do! bins <- all_bins s;
  do! ms <- mapM measure_lines s;
  Ok ([L "# Randomness analysis"; L "version = " ++ version; L "source = " ++ [dq] ++ source ++ [dq]; L "#";
       L "n_sigma = {bin" ++ concat (map (fun p => L ", " ++ fst p) s)] ++ map (sigma_row stat s) bins ++ [L "}"] ++ concat ms).
(** Randomnessanalysis.py 404-436 *)
Definition write_ra (fs : files) (name version source : str) (stat : str -> str -> sigma) (s : store) : res files :=
  do! ls <- ra_lines version source stat s; Ok (write_textfile fs name ls false).

(** ** Randomnessanalysis.py 445-451: one measure (read is 438-451) *)
Definition read_measure (c : list (str * tsval)) (m : str) : res (list (str * record)) :=
  match lookup c m with
  | None => Ok []
  | Some v =>
      do! nt <- sub v (L "n_trials"); do! n <- int_of nt;
      do! t <- sub v (L "trials");
      match t with
      | TDict d => do! tr <- mapM (fun b => do! xs <- float_column t b; Ok (b, xs)) (tl (map fst d));
                   Ok [(m, mkRecord n tr)]
      | _ => Err AttributeError
      end
  end.
(** Randomnessanalysis.py 440-451 *)
Definition read_ra (fs : files) (locations : list str) : res store :=
  match find (fun n => if file_get fs n then true else false) locations with
  | None => Ok []
  | Some f =>
      do! o <- read_textstructure fs f;
      match o with
      | None => Err TypeError
      | Some c => do! a <- read_measure c (L "m2cnd"); do! b <- read_measure c (L "sdaa"); Ok (a ++ b)
      end
  end.

(** ** cli.py 411-415: the loop over the measures, with every state of the file system that a crash can leave.  open() for writing
    empties the file; the text follows, in pieces of any size.  A state tells which measures have been written completely so far and
    whether a write is under way.  The statistics of all measures are computed again in each round; if that or the layout of the
    text fails the program stops there. *)
Record crash := mkCrash { finished : list str; writing : bool; disk : files }.
(** cli.py 415, Randomnessanalysis.py 436: the states while the file is written *)
Definition write_states (done : list str) (fs : files) (name t : str) : list crash :=
  map (fun k => mkCrash done true (file_set fs name (firstn k t))) (seq 0 (length t)).
(** cli.py 411-415 *)
Fixpoint analysis (compute : str -> Z -> list (str * list R)) (stats : store -> res (str -> str -> sigma))
    (version source name : str) (n : Z) (done : list str) (fs : files) (s : store) (measures : list str) : list crash :=
  match measures with
  | [] => [mkCrash done false fs]
  | m :: rest =>
      let s := run_montecarlo compute s n m in
      mkCrash done false fs ::
      match (do! stat <- stats s; ra_lines version source stat s) with
      | Err _ => []
      | Ok ls => write_states done fs name (join [nl] ls) ++
                 analysis compute stats version source name n (done ++ [m]) (write_textfile fs name ls false) s rest
      end
  end.
