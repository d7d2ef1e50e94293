(** Randomnessanalysis.py 249-316: a map with its histogram.  Definitions only.  shapely's overlaps is an argument; the projection of the area is
    not modelled: what is given are the outlines as projected (258-270; holes are left out there). *)
From Coq Require Import String Ascii List ZArith Reals Bool.
From Verif Require Import Base NumModel StrModel FmtModel BinModel IoModel RaModel.
Import ListNotations.
Local Open Scope R_scope.

(** Randomnessanalysis.py 270-277: a MultiPolygon as the corners of its outlines *)
Definition rings := list (list (R * R)).
(** Randomnessanalysis.py 273, shp.bounds: x_min, y_min, x_max, y_max; nan without corners *)
Definition bounds (mp : rings) : res (R * R * R * R) :=
  match concat mp with
  | [] => Err NotANumber
  | p :: r =>
      Ok (list_min (fst p) (map fst r), list_min (snd p) (map snd r), list_max (fst p) (map fst r), list_max (snd p) (map snd r))
  end.
(** Randomnessanalysis.py 276-277, 281: every corner moved *)
Definition each (g : R * R -> R * R) (mp : rings) : rings := map (map g) mp.
(** Randomnessanalysis.py 276, 281: shp_aff.scale with one factor, by default about the middle of the bounds *)
Definition scale (f : R) (mp : rings) : res rings :=
  do! b <- bounds mp;
  let '(x0, y0, x1, y1) := b in
  let cx := (x1 + x0) / 2 in
  let cy := (y1 + y0) / 2 in
  Ok (each (fun p => (cx + f * (fst p - cx), cy + f * (snd p - cy))) mp).
(** Randomnessanalysis.py 273-277; an area without extent would be scaled by an infinite factor *)
Definition normalise (mp : rings) : res rings :=
  do! b <- bounds mp;
  let '(x0, y0, x1, y1) := b in
  let mg := Rmax (x1 - x0) (y1 - y0) in
  do! s <- (if Reqb mg 0 then Err NotANumber else scale (1 / mg) mp);
  do! c <- bounds s;
  let '(u0, v0, _, _) := c in
  Ok (each (fun p => (fst p - u0, snd p - v0)) s).
(** Randomnessanalysis.py 278-279 *)
Definition hist_box : rings :=
  let hf := 3 / 10 in
  [[(1, 0); (1, hf * (5 / 10)); (1 - hf, hf * (5 / 10)); (1 - hf, 0); (1, 0)]].
(** Randomnessanalysis.py 280-282: the loop; None if the fuel does not suffice *)
Fixpoint shrink (overlaps : rings -> rings -> bool) (fuel : nat) (f : R) (n : rings) : option (res R) :=
  match fuel with
  | O => None
  | S fuel =>
      match scale f n with
      | Err e => Some (Err e)
      | Ok m => if overlaps m hist_box then shrink overlaps fuel (f * (98 / 100)) n else Some (Ok f)
      end
  end.
(** Randomnessanalysis.py 255-284 the first time *)
Definition reduction_factor (overlaps : rings -> rings -> bool) (fuel : nat) (mp : rings) : option (res R) :=
  match normalise mp with
  | Err e => Some (Err e)
  | Ok n => shrink overlaps fuel 1 n
  end.
(** Randomnessanalysis.py 299-304: the boxes (left, bottom, width, height) of the map and of the histogram in a panel *)
Definition panel_boxes (mf x0 y0 w h : R) : (R * R * R * R) * (R * R * R * R) :=
  let hf := 3 / 10 in
  let dx := (1 - hf) * w * 0 in
  let dy := h * (1 - hf * (5 / 10)) * (15 / 100) in
  ((x0, y0 + (1 - mf) * h, w * mf, h * mf), (x0 + (1 - hf) * w - dx, y0 + dy, w * hf - dx, h * hf * (5 / 10))).
(** Randomnessanalysis.py 306, 313-314: the text of a panel *)
Definition panel_text {A} (bd : binned) (ri : list nat) (craters : list A) (bin : str) : res str :=
  do! cs <- bin_craters bd ri craters bin;
  do! r <- py_float bin;
  let d_min := Rpower 2 r in
  do! t <- diameter_range d_min (Some (d_min * Rpower 2 (499 / 1000))) 2;
  Ok (t ++ nl :: L "n = " ++ int_str (Z.of_nat (length cs))).
