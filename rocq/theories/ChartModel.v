(** Randomnessanalysis.py 346-400: the chart of the deviations of an analysis, bin by bin.  Definitions only.  Colours and letter sizes are
    not modelled. *)
From Coq Require Import String Ascii List ZArith Reals Bool.
From Verif Require Import Base NumModel StrModel FmtModel TsModel IoModel RaModel RaFileModel SetModel StripModel.
Import ListNotations.
Local Open Scope R_scope.

(** Randomnessanalysis.py 350-359: the box of the chart (left, bottom, width, height) in the box it is given: a panel (ax0) or the plot *)
Definition chart_box (inset : bool) (x0 y0 w h : R) : R * R * R * R :=
  if inset then (x0 + 15 / 100 * w, y0 + h * (4 / 10), w * (95 / 100), h * (2 / 10)) else (x0, y0 + h * (4 / 10), w, h * (2 / 10)).
(** Randomnessanalysis.py 362: numpy's division: nan or infinite where the trials do not vary *)
Definition deviation (s : stats) : sigma :=
  if Reqb (s_sd s) 0 then (if Reqb (s_m0 s) (s_mn s) then SNan else SInf (Rltb (s_m0 s) (s_mn s)))
  else SNum ((s_m0 s - s_mn s) / s_sd s).
(** what is drawn: the points, their line style, the ranges of the axes, the bands, the words with their places, the numbers of the scale
    with their heights, the text at the left, major ticks with labels and minor ticks *)
Record chart := mkChart { ct_points : list (R * sigma); ct_style : str; ct_x : R * R; ct_y : R * R; ct_bands : list (R * R);
                          ct_words : list (str * (R * R)); ct_scale : list (R * str); ct_text : str;
                          ct_major : list R; ct_labels : list str; ct_minor : list R }.
(** Randomnessanalysis.py 361-396.  [bins]: the bins of the measure with their statistics, in the order of the dictionary.  The left margin of
    the text, which depends on the axis of the plot set, is not modelled *)
Definition n_sigma_chart (measure : str) (n_trials : Z) (bins : list (str * stats)) : res chart :=
  do! x <- mapM (fun b => do! r <- py_float (fst b); Ok (log10 (Rpower 2 (r + / 4)))) bins;
  let y1 := map (fun b => scale_sigma (deviation (snd b))) bins in
  let y := map (fun e => if seqb measure (L "sdaa") then flip_sigma e else e) y1 in
  do! lo <- StripModel.list_min x;
  do! hi <- StripModel.list_max x;
  let xr := (lo - log10 (Rpower 2 (251 / 1000)), hi + log10 (Rpower 2 (251 / 1000))) in
  do! style <- line_style measure;
  let dy := - (8 / 100) in
  let mid := (fst xr + snd xr) / 2 in
  do! g <- Hartmann_bins xr;
  let '(major, labels, _, minor) := g in
  Ok (mkChart (combine x y) style xr (n_sigma_scaling (-3), n_sigma_scaling 3) bands
              [(L "clustered", (mid, n_sigma_scaling (-6))); (L "separated", (mid, n_sigma_scaling 7))]
              (map (fun k => (n_sigma_scaling (IZR k) + dy, pad_left 2 (int_str (Z.abs k)))) [-3; -1; 0; 1; 3]%Z)
              (measure ++ nl :: int_str n_trials ++ L " trials") major labels minor).
