(** What is written in and around a diagram: the marks of the option bins (Craterplotset.py 292-305), its titles (193-207, 268-270) and the names of the functions (484-497).
    Definitions only. *)
From Coq Require Import String Ascii List ZArith Reals Bool Arith.
From Verif Require Import Base NumModel StrModel FmtModel BinModel SetModel CliModel.
Import ListNotations.
Local Open Scope R_scope.

(** Craterplotset.py 298: the colours of the bins in turn *)
Inductive bin_colour := Ink | Red | Blue.
(** Craterplotset.py 300-305: a shaded bin, or the text at a boundary; both with the logarithms of the diameters; the place of a text is a part of the height, and it ends or begins there *)
Inductive bin_mark := Shade (lo hi : R) (c : bin_colour) | Edge (x height : R) (text : str) (c : bin_colour) (upwards : bool).
(** Craterplotset.py 298 *)
Definition colour_of_bin (i : nat) : bin_colour := match (i mod 3)%nat with 0%nat => Ink | 1%nat => Red | _ => Blue end.
(** Craterplotset.py 304: a format with one decimal and an exponent, of which the first characters are taken *)
Definition edge_text (b : R) : str := firstn 4 (L " " ++ fst (fmt_e 2 b) ++ exp_str (snd (fmt_e 2 b))).
(** Craterplotset.py 297-305, for one boundary *)
Definition mark_bin (xr : R * R) (bins : list R) (ib : nat * R) : res (list bin_mark) :=
  let '(i, b) := ib in
  if Rltb b (pow10 (snd xr)) then
    do! shade <- (if negb (i mod 3 =? 0)%nat then
                    match nth_error bins (i + 1) with Some e => Ok [Shade (log10 b) (log10 e) (colour_of_bin i)] | None => Err IndexError end
                  else Ok []);
    Ok (shade ++ if Rltb (pow10 (fst xr)) b then map (fun y => Edge (log10 b) y (edge_text b) (colour_of_bin i) (i mod 2 =? 0)%nat) [16 / 100; 1 / 2; 84 / 100] else [])
  else Ok [].
(** Craterplotset.py 293-305; [array] says whether xrange is an array, as autoscale makes it; 10 cannot be raised to a list.  [binning] is that of the first data plot, if there is one *)
Definition mark_bins (array : bool) (xr : R * R) (binning : option string) : res (list bin_mark) :=
  match binning with
  | None => Ok []
  | Some b =>
      if array then
        do! bins <- generate_bins b [pow10 (fst xr); pow10 (snd xr)] 0 true;
        do! ms <- mapM (mark_bin xr bins) (combine (seq 0 (length bins)) bins);
        Ok (concat ms)
      else Err TypeError
  end.

(** ** Titles *)
(** Craterplotset.py 195-206: the titles of the axes; [binnings] are those of the plots.  The sign of the root is one character, here its bytes *)
Definition root_sign : str := bytes [226; 136; 154]%nat.
(** Craterplotset.py 195-197 *)
Definition x_title (p : presentation) : str := if is_time p then L "Age, Ga" else L "Diameter".
(** Craterplotset.py 195, 198-205 *)
Definition y_title (p : presentation) (binnings : list string) (ref_diameter : R) : str :=
  let nonroot2 := existsb (fun b => negb (String.eqb b "root-2")) binnings in
  match p with
  | Cumulative => L "Cumulative crater density, km$^{-2}$"
  | Differential => L "Differential crater density, km$^{-3}$"
  | Rplot => L "Relative crater density (R)"
  | Hartmann => L "Craters per $" ++ root_sign ++ L "$2-bin" ++ (if nonroot2 then L " (equivalent)" else []) ++ L ", km$^{-2}$"
  | Chronology => L "Cumulative crater density N(>" ++ fmt_f 0 ref_diameter ++ L " km), km$^{-2}$"
  | Rate => L "Crater formation rate N(>" ++ fmt_f 0 ref_diameter ++ L " km), km$^{-2}$ Ga$^{-1}$"
  end.
(** Craterplotset.py 207, 268, 457-458: the lines of the title, none if it is empty or not given *)
Definition title_lines (title : option str) : list str :=
  match title with None => [] | Some [] => [] | Some t => split_chr (ch "|") [] t end.

(** ** Craterplotset.py 484-497: the functions; [place] is the presentation with the two that have an age axis and no diagram *)
Inductive view := Diagram (p : presentation) | SequenceView | UncertaintyView.
(** Craterplotset.py 485-489; the names of the functions that there are; an attribute of None cannot be read *)
Definition function_text (v : view) (ep ef pf cf : option str) (ref_diameter : R) : res str :=
  let timely := match v with Diagram p => is_time p | _ => false end in
  let txt := match ep with Some n => L "Epochs: " ++ n ++ [nl] | None => [] end in
  let txt := txt ++ match ef, v with Some n, SequenceView => [] | Some n, _ => L "EF: " ++ n ++ [nl] | None, _ => [] end in
  do! txt <- (if negb (timely && Reqb ref_diameter 1) || (match ep with Some _ => true | None => false end)
              then match pf with Some n => Ok (txt ++ L "PF: " ++ n ++ [nl]) | None => Err AttributeError end else Ok txt);
  match cf with Some n => Ok (txt ++ L "CF: " ++ n) | None => Err AttributeError end.
(** Craterplotset.py 484, 491-495: the text and its place in parts of the axes, and whether it ends there *)
Definition function_legend (legend : str) (v : view) (ep ef pf cf : option str) (ref_diameter : R) : res (option (str * (R * R) * bool)) :=
  if mem (ch "f") legend then
    do! t <- function_text v ep ef pf cf ref_diameter;
    Ok (Some (match v with UncertaintyView => (t, (95 / 100, 5 / 100), true) | _ => (t, (5 / 100, 5 / 100), false) end))
  else Ok None.
