(** The epochs on a chronology or rate diagram: Epochs.py chronology_oplot.  Definitions only. *)
From Coq Require Import String Ascii List ZArith Reals Bool.
From Verif Require Import Base NumModel StrModel FmtModel ChronModel LoadModel EpModel.
Import ListNotations.
Local Open Scope R_scope.

(** Epochs.py 74, 78-79, 86-89, 94-99: an area as (age, upper, lower) with its place in the list of greys; a dividing line, strong or not; a name with its slant; an age, raised or not *)
Inductive chronology_element := Fill (l : list (R * R * R)) (grey : Z) | Divider (t top bottom : R) (strong : bool) | NameAt (x y : R) (name : str) (slant : Z) | AgeAt (x y : R) (text : str) (raised : bool).
(** Epochs.py 85, 91: the function that is shown *)
Definition shown_density (cf : chron) (rate : bool) (t : R) : R := if rate then phi cf t else N1 cf t.
(** Epochs.py 68, 73, 77: the curve at an age, from the points that are drawn *)
Definition curve_at (cf : chron) (rate : bool) (t : R) : res R := interp t (cf_plotdata cf rate true).
(** Epochs.py 74, 78: the lower end, a factor 1e-11 below *)
Definition far_below (y : R) : R := y * (/ 100000000000).
(** Epochs.py 72-74, for one region *)
Definition fill_region (cf : chron) (rate : bool) (r : R * R * Z) : res chronology_element :=
  let '(t0, t1, g) := r in
  do! l <- mapM (fun t => do! y <- curve_at cf rate t; Ok (t, y, far_below y)) (linspace t0 t1 100);
  Ok (Fill l g).
(** Epochs.py 76-79, for one boundary *)
Definition divide_at (cf : chron) (rate : bool) (tb : R * bool) : res chronology_element :=
  do! y <- curve_at cf rate (fst tb); Ok (Divider (fst tb) y (far_below y) (snd tb)).
(** Epochs.py 84-89 *)
Definition name_at (cf : chron) (rate : bool) (slant : Z) (te : R * str) : chronology_element :=
  NameAt (fst te - 3 / 100) (shown_density cf rate (fst te) * (3 / 2)) (snd te) slant.
(** Epochs.py 91 *)
Definition age_height (cf : chron) (rate : bool) (t1 : R) : R := if rate then phi cf t1 * (7 / 10) else N1 cf t1 / (5 / 2).
(** Epochs.py 60-99; [f] is what decode_formatting returns, [x0] the left end of the age axis *)
Definition chronology_oplot (cf : chron) (rate : bool) (x0 : R) (time : list R) (epoch : list str) (f : res formats) : res (list chronology_element) :=
  do! f <- f;
  do! rs <- epoch_regions f time;
  do! fills <- mapM (fill_region cf rate) rs;
  do! ls <- epoch_lines f time;
  do! dividers <- mapM (divide_at cf rate) ls;
  do! ns <- chronology_names time x0 epoch;
  do! t1 <- pyindex time 1;
  do! ags <- written_ages (f_offset f) time;
  Ok (fills ++ dividers ++ map (name_at cf rate (f_slant f)) ns ++ map (fun a => AgeAt (fst (fst a)) (age_height cf rate t1) (snd (fst a)) (snd a)) ags).
