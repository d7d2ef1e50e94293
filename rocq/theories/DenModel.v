(** Densities at the reference diameter: Craterplot.py calculate_age and make_legend_label, Craterplotset.py CreatePlotSpace (titles) and draw (chronology and rate).  Definitions only.
    The density at the reference diameter that Craterplot.py 97 computes is not used anywhere (Craterplotset.py 679, 692, 718, 723 and Craterplot.py 261 use a0). *)
From Coq Require Import String Ascii List ZArith Reals Bool.
From Verif Require Import Base NumModel StrModel FmtModel ChronModel ProdModel LoadModel LegModel.
Import ListNotations.
Local Open Scope R_scope.

(** Craterplotset.py 481-482: the density at the reference diameter in units of that at 1 km *)
Definition ref_ratio (pf : option productionfn) (ref : R) : res R :=
  match pf with
  | None => Ok 1
  | Some f =>
      do! a <- evaluate f "cumulative" ref None; do! b <- evaluate f "cumulative" 1 None;
      match a, b with Some a, Some b => if Reqb b 0 then Err ZeroDivision else Ok (a / b) | _, _ => Err TypeError end
  end.
(** ** Craterplotset.py 499-510: the curves of the chronology and rate presentations with their labels, in drawing order *)
Definition chronology_curves (cf : chron) (pf : option productionfn) (ref : R) (rate : bool) : res (list (option str * list (R * R))) :=
  do! ratio <- ref_ratio pf ref;
  let ty := cf_plotdata cf rate true in
  Ok (if Reqb ref 1 then [(None, ty)]
      else [(Some (L "N(>" ++ fmt_g 6 ref ++ L " km)"), map (fun p => (fst p, snd p * ratio)) ty); (Some (L "N(>1 km)"), ty)]).
(** ** Craterplotset.py 203-204: the titles of their vertical axes *)
Definition density_title (ref : R) (rate : bool) : str :=
  if rate then L "Crater formation rate N(>" ++ fmt_f 0 ref ++ L " km), km$^{-2}$ Ga$^{-1}$"
  else L "Cumulative crater density N(>" ++ fmt_f 0 ref ++ L " km), km$^{-2}$".
