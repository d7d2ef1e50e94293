(** From the files to the age beside a fit: cli.py 213-217 with Craterplot.py 18-39, 60-61, 69-97, 203.  Definitions only. *)
From Coq Require Import String Ascii List ZArith Reals Bool.
From Verif Require Import Base NumModel BinModel CountModel ChronModel ProdModel StrModel FmtModel TsModel IoModel EpModel LoadModel PdfModel AgeModel OverModel.
Import ListNotations.
Local Open Scope R_scope.

(** Craterplot.py 39: the decoded range; a lower limit that is infinite is left out (decode_range never makes one from finite limits) *)
Definition finite_lower (r : ext * ext) : res (R * ext) := match fst r with Fin a => Ok (a, snd r) | Inf => Err OtherException end.
(** Craterplot.py 203: the median or best age with its limits, which have to be numbers *)
Definition three_ages (t : list value) : res (R * R * R) :=
  match t with [Num t; Num lo; Num hi] => Ok (t, lo, hi) | _ => Err NotANumber end.
(** Craterplot.py 69-97, 203 on a count that a plot has (39: its range is decoded when the plot is made; the count keeps the bins for the age) *)
Definition age_of_count (erf : R -> R) (cfit : (R -> R -> R) -> list R -> list R -> list R -> R) (I1 : R -> R -> R -> R) (cf : chron) (pf : productionfn) (ref : R)
    (c : count) (per : option R) (b : string) (lo hi : limit) (snap : bool) (m : method) (s : set_info) : res str :=
  let '(r, kept) := decode_range (ct c) lo hi b snap in
  do! r <- r;
  do! range <- finite_lower r;
  do! a <- calculate_age erf cfit I1 pf cf ref kept per b range m;
  do! t <- three_ages (m_t a);
  age_string s t.
(** cli.py 216-217 (the functions), Craterplot.py 60-61, 39 (the count of a .diam file and its range), 192, 203 (the age): the text that is drawn beside the fit *)
Definition age_from_files (erf : R -> R) (cfit : (R -> R -> R) -> list R -> list R -> list R -> R) (I1 : R -> R -> R -> R)
    (fs : files) (functions : source) (cfn pfn counts : str) (ref : R) (per : option R) (b : string) (lo hi : limit) (snap : bool) (m : method) (s : set_info) : res str :=
  do! cf <- make_chronology fs functions cfn;
  do! p <- make_production fs functions pfn false;
  do! pf <- (match pf_fn p with Some f => Ok f | None => Err AttributeError end);
  do! c <- read_diam fs counts;
  age_of_count erf cfit I1 cf pf ref c per b lo hi snap m s.
