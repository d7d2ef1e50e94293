(** What one plot adds to the diagram: Craterplot.py overplot (the small plot of a Poisson age is MiniModel's).  Definitions only. *)
From Coq Require Import String Ascii List ZArith Reals Bool.
From Verif Require Import Base NumModel StrModel FmtModel CountModel ProdModel SetModel.
Import ListNotations.
Local Open Scope R_scope.

(** Craterplotset.py 248-250, 308-310: data_to_axis, from the logarithm of the diameter (linear axis) and the density (logarithmic axis) to fractions of the axes *)
Definition data_to_axis (xr yr : R * R) (p : R * R) : R * R :=
  ((fst p - fst xr) / (snd xr - fst xr), (log10 (snd p) - fst yr) / (snd yr - fst yr)).
(** Craterplotset.py 32-69 with 157: what overplot reads of the set *)
Record set_info := mkSet { si_pres : string; si_xrange : R * R; si_yrange : R * R; si_sigfigs : nat; si_mu : bool; si_pf : productionfn; si_ef : option productionfn }.
(** Craterplot.py 19-37: the settings of a plot that overplot reads; [op_fit] is whether it is a fit or Poisson age (191), the rest of its type is in the functions below *)
Record plot_info := mkOp { op_hide : bool; op_error_bars : bool; op_fit : bool; op_isochron : bool; op_show_age : bool; op_age_left : bool; op_offset : R * R; op_range : R * ext }.
(** Craterplot.py 189, 196, 200, 206, 230: what is drawn, in data coordinates with the logarithm of the diameter, except for the age, whose place is in fractions of the axes and which has
    its right or left end there *)
Inductive element :=
  | ErrorBars (l : list (R * R * R)) | Isochron (l : list (R * R)) | FitLine (l : list (R * R)) | AgeText (at_ : R * R) (right_end : bool) (s : str) | Symbols (l : list (R * R)).
(** Craterplot.py 196, 200 *)
Definition logged (l : list (R * R)) : list (R * R) := map (fun p => (log10 (fst p), snd p)) l.
(** Craterplot.py 198-199: an upper limit that is infinite is clipped to that of the production function *)
Definition fit_data (pf : productionfn) (pres : string) (a0 : R) (range : R * ext) : res (list (R * R)) :=
  do! own <- pf_range pf;
  pf_getplotdata pf pres (Some a0) (Some (fst range * (99 / 100), match snd range with Fin b => b * (101 / 100) | Inf => snd own end)).
(** Craterplot.py 204-205 *)
Definition age_place (s : set_info) (o : plot_info) (start : R * R) : R * R :=
  let xy := data_to_axis (si_xrange s) (si_yrange s) (log10 (fst start), snd start) in
  let d := 2 / 100 * (if op_age_left o then -1 else 1) in
  let f := decades (si_xrange s) * 20 in
  (fst xy + d + fst (op_offset o) / f, snd xy + d + snd (op_offset o) / f).
(** Craterplot.py 203 *)
Definition age_string (s : set_info) (t : R * R * R) : res str :=
  let '(t, lo, hi) := t in
  str_age t (hi - t) (t - lo) {| sf := si_sigfigs s; unit := None; simple := false; no_error := false; mu := si_mu s; mathml := false |}.
(** Craterplot.py 165-231 (without 174-176, the sequence plot; 185-186, StripModel; 210-227, MiniModel).  [data] is what getplotdata (178) returns and [age] what calculate_age (192) sets: the
    best a0 and the three ages, which are numbers *)
Definition overplot (s : set_info) (o : plot_info) (data : res (list point)) (age : res (R * (R * R * R))) : res (list element) :=
  if op_hide o then Ok [] else
  do! p <- data;
  let bars := if op_error_bars o then [ErrorBars (map (fun q => (log10 (pt_d q), pt_y q, pt_err q)) p)] else [] in
  do! fit <- (if op_fit o then
                do! a <- age;
                do! iso <- (if op_isochron o then do! i <- getisochron (si_pf s) (si_pres s) (fst a) (si_ef s); Ok [Isochron (logged i)] else Ok []);
                do! fit <- fit_data (si_pf s) (si_pres s) (fst a) (op_range o);
                do! txt <- (if op_show_age o then
                              do! st <- age_string s (snd a);
                              match fit with
                              | start :: _ => Ok [AgeText (age_place s o start) (op_age_left o) st]
                              | [] => Err IndexError
                              end
                            else Ok []);
                Ok (iso ++ [FitLine (logged fit)] ++ txt)
              else Ok []);
  Ok (bars ++ fit ++ [Symbols (map (fun q => (log10 (pt_d q), pt_y q)) p)]).
