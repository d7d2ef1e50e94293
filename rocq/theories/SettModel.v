(** The settings of a plot set and of a plot (Craterplotset.py __init__, UpdateSettings; Craterplot.py __init__, UpdateSettings) and the sizes of the markers
    (Craterplotset.py 187-191).  Definitions only. *)
From Coq Require Import String Ascii List ZArith Reals Bool.
From Verif Require Import Base StrModel TsModel IoModel SccModel CliModel NumModel SetModel.
Import ListNotations.
Local Open Scope R_scope.

(** a value given for a setting, as in Craterplotset.py 45-63 and constants.py 38-79; [VObject] is an object of the program, such as a production function.  Infinite numbers and nan are left out *)
Inductive value := VNone | VBool (b : bool) | VInt (z : Z) | VNum (x : R) | VStr (s : str) | VList (l : list value) | VObject (n : nat).
(** Python's float, in Craterplotset.py 76-77 *)
Definition to_float (v : value) : res R :=
  match v with
  | VBool b => Ok (if b then 1 else 0)
  | VInt z => Ok (IZR z)
  | VNum x => Ok x
  | VStr s => py_float s
  | _ => Err TypeError
  end.
(** Python's int, in Craterplotset.py 85: a number is cut off towards zero *)
Definition to_int (v : value) : res Z :=
  match v with
  | VBool b => Ok (if b then 1 else 0)%Z
  | VInt z => Ok z
  | VNum x => Ok (if Rltb x 0 then - Rfloor (- x) else Rfloor x)%Z
  | VStr s => int_of (TStr s)
  | _ => Err TypeError
  end.
(** iteration, in Craterplotset.py 76: of a list over its elements, of a text over its characters *)
Definition items (v : value) : res (list value) :=
  match v with
  | VList l => Ok l
  | VStr s => Ok (map (fun c => VStr [c]) s)
  | _ => Err TypeError
  end.
(** the attributes of an object, set in Craterplotset.py 86 and Craterplot.py 61 *)
Definition attributes := str -> option value.
(** setattr, Craterplotset.py 86 *)
Definition set_attribute (a : attributes) (k : str) (v : value) : attributes := fun j => if seqb j k then Some v else a j.
(** Craterplotset.py 72-73, Craterplot.py 42-43: the dictionaries of one call and its keywords, as one dictionary *)
Definition merge (ds : list (list (str * value))) : list (str * value) :=
  fold_left (fun d kv => dict_set d (fst kv) (snd kv)) (concat ds) [].
(** the loops of Craterplotset.py 74-86 and Craterplot.py 44-61: the attributes afterwards, and the exception if one is raised *)
Fixpoint set_all (convert : str -> value -> res value) (a : attributes) (d : list (str * value)) : attributes * option exn :=
  match d with
  | [] => (a, None)
  | (k, v) :: r => match convert k v with Ok w => set_all convert (set_attribute a k w) r | Err e => (a, Some e) end
  end.
(** Craterplotset.py 76-85 *)
Definition convert_set (k : str) (v : value) : res value :=
  if existsb (seqb k) (map L ["xrange"; "yrange"]%string) then do! l <- items v; do! ns <- mapM to_float l; Ok (VList (map VNum ns))
  else if existsb (seqb k) (map L ["pt_size"; "ref_diameter"]%string) then do! x <- to_float v; Ok (VNum x)
  else if existsb (seqb k) (map L ["randomness"; "mu"; "invert"; "text_halo"; "sig_figs"]%string) then do! z <- to_int v; Ok (VInt z)
  else Ok v.
(** Craterplotset.py 71-86: UpdateSettings of a plot set *)
Definition update_set (a : attributes) (ds : list (list (str * value))) : attributes * option exn := set_all convert_set a (merge ds).

(** ** Craterplotset.py 31-69: a plot set *)
(** Craterplotset.py 45-63 *)
Definition set_defaults : list (str * value) :=
  [(L "title", VNone); (L "presentation", VStr (L "differential")); (L "xrange", VList [VInt (-3); VInt 2]); (L "yrange", VList [VInt (-5); VInt 5]); (L "style", VStr (L "natural"));
   (L "isochrons", VNone); (L "print_dimensions", VStr (L "7.5x7.5")); (L "pt_size", VNum 9); (L "font", VStr (L "Open Sans")); (L "ref_diameter", VNum 1); (L "sig_figs", VInt 3);
   (L "randomness", VInt 0); (L "mu", VInt 1); (L "invert", VInt 0); (L "text_halo", VInt 1); (L "bins", VBool false); (L "ra_show", VInt 1)].
(** constants.py 83-84 *)
Definition GREYS : list (list str) :=
  [map L ["#aaaaaa"; "#e0e0e0"; "#ededed"; "#f8f8f8"; "#ffffff"]%string; map L ["#787878"; "#464646"; "#373737"; "#282828"; "#000000"]%string].
(** constants.py 86-119: the colours on white and on black, and their names *)
Definition PALETTE : list (list str) := map (fun '(a, b, c) => [L a; L b; L c])
  ([("#000000", "#ffffff", "Black"); ("#a00000", "#ff0000", "Red"); ("#008200", "#00ff00", "Green"); ("#0050c8", "#5ab4ff", "Blue");
   ("#e1af00", "#ffdc00", "Yellow"); ("#8748bd", "#b464ff", "Violet"); ("#aaaaaa", "#787878", "Grey"); ("#19426b", "#19426b", "blue1");
   ("#476788", "#476788", "blue2"); ("#7a91a9", "#7a91a9", "blue3"); ("#a0ccd3", "#a0ccd3", "blue4"); ("#533714", "#533714", "brown1");
   ("#6b4719", "#6b4719", "brown2"); ("#7b5c33", "#7b5c33", "brown3"); ("#af9c83", "#af9c83", "brown4"); ("#336b19", "#336b19", "green1");
   ("#5d8a49", "#5d8a49", "green2"); ("#91af83", "#91af83", "green3"); ("#b58000", "#b58000", "orange"); ("#6b1946", "#6b1946", "pink1");
   ("#975e7d", "#975e7d", "pink2"); ("#ba93a8", "#ba93a8", "pink3"); ("#4c265d", "#4c265d", "purple1"); ("#876e93", "#876e93", "purple2");
   ("#6b1920", "#6b1920", "red1"); ("#7c393f", "#7c393f", "red2"); ("#8d595e", "#8d595e", "red3"); ("#196b64", "#196b64", "teal1");
   ("#6ba09b", "#6ba09b", "teal2"); ("#b5a200", "#b5a200", "yellow1"); ("#ded68e", "#ded68e", "yellow2"); ("#a8b100", "#a8b100", "yellow-green")])%string.
(** constants.py 126-140: the sizes of the markers *)
Definition MARKERSIZES : list R := [3; 3; 43 / 10; 7 / 2; 9 / 2; 3; 7 / 2; 3; 7 / 2; 5 / 2; 5 / 2; 19 / 5; 5 / 2; 7 / 2; 5 / 2].
(** what __init__ computes from the settings besides them, Craterplotset.py 65-68; a marker has its size and, once drawn, the width of its edge *)
Record plotset := mkSet { ps_attributes : attributes; ps_sz_ratio : R; ps_grey : list str; ps_palette : list str; ps_markers : list (R * option R) }.
(** Craterplotset.py 34-43: the other attributes are not settings *)
Definition no_attributes : attributes := fun _ => None.
(** Craterplotset.py 31-69 *)
Definition new_set (ds : list (list (str * value))) : res plotset :=
  match update_set no_attributes (set_defaults :: ds) with
  | (_, Some e) => Err e
  | (a, None) =>
      do! pt <- match a (L "pt_size") with Some v => to_float v | None => Err AttributeError end;
      do! inv <- match a (L "invert") with Some v => to_int v | None => Err AttributeError end;
      do! grey <- pyindex GREYS inv;
      do! palette <- mapM (fun e => pyindex e inv) PALETTE;
      Ok (mkSet a (pt / 9) grey palette (map (fun s => (s, None)) MARKERSIZES))
  end.
(** Craterplotset.py 71-86, of a plot set that exists *)
Definition later_settings (s : plotset) (ds : list (list (str * value))) : plotset * option exn :=
  let '(a, e) := update_set (ps_attributes s) ds in (mkSet a (ps_sz_ratio s) (ps_grey s) (ps_palette s) (ps_markers s), e).
(** Craterplotset.py 187-191, 479: the markers when the plot set is drawn with the layout [l]; the list is changed in place *)
Definition scale_markers (l : layout) (s : plotset) : plotset :=
  let f := fst (l_decades l) * l_scale l / (15 / 2) in
  mkSet (ps_attributes s) (ps_sz_ratio s) (ps_grey s) (ps_palette s) (map (fun m => (fst m * (8 / 10 * f), Some (1 / 2 * f))) (ps_markers s)).

(** ** Craterplot.py 18-66: a plot *)
(** Craterplot.py 19-37 *)
Definition plot_defaults : list (str * value) :=
  [(L "cratercount", VNone); (L "source", VStr []); (L "name", VStr []); (L "range", VList [VStr (L "0"); VStr (L "inf")]); (L "snap", VInt 1); (L "type", VStr (L "data"));
   (L "error_bars", VInt 1); (L "hide", VInt 0); (L "colour", VInt 0); (L "psym", VInt 0); (L "binning", VStr (L "pseudo-log")); (L "age_left", VInt 0); (L "show_age", VInt 1);
   (L "resurf", VInt 0); (L "resurf_showall", VInt 0); (L "isochron", VInt 0); (L "offset_age", VList [VNum 0; VNum 0])].
(** Craterplot.py 45-60; the test of 45 is one of substrings *)
Definition convert_plot (k : str) (v : value) : res value :=
  if existsb (seqb k) (map L ["error_bars"; "snap"; "hide"; "age_left"; "show_age"; "resurf"; "resurf_showall"; "isochron"; "psym"]%string) then do! z <- to_int v; Ok (VInt z)
  else if substring_of k (L "offset_age") then do! l <- items v; do! ns <- mapM to_float l; Ok (VList (map VNum ns))
  else Ok v.
(** Python's truth value, in Craterplot.py 61-65 *)
Definition truthy (v : value) : bool :=
  match v with
  | VNone => false
  | VBool b => b
  | VInt z => negb (z =? 0)%Z
  | VNum x => negb (Reqb x 0)
  | VStr s => match s with [] => false | _ => true end
  | VList l => match l with [] => false | _ => true end
  | VObject _ => true
  end.
(** an attribute that was set, in Craterplot.py 61-65 *)
Definition attribute (a : attributes) (k : str) : res value := match a k with Some v => Ok v | None => Err AttributeError end.
(** Craterplot.py 61-66, after the loop; [load] is Cratercount(source) and [file_of] the attribute filename of a count *)
Definition complete_plot (load : value -> res value) (file_of : value -> res value) (a : attributes) : res attributes :=
  do! c <- attribute a (L "cratercount");
  do! s <- attribute a (L "source");
  do! a1 <- (if negb (truthy c) && truthy s then do! c' <- load s; Ok (set_attribute a (L "cratercount") c') else Ok a);
  do! c1 <- attribute a1 (L "cratercount");
  do! a2 <- (if negb (truthy s) && truthy c1 then do! s' <- file_of c1; Ok (set_attribute a1 (L "source") s') else Ok a1);
  do! s1 <- attribute a2 (L "source");
  do! n <- attribute a2 (L "name");
  if negb (truthy n) && truthy s1 then
    match s1 with
    | VStr f => do! b <- filename f (L "n") None None 4; Ok (set_attribute a2 (L "name") (VStr (remove_crater 0 b)))
    | _ => Err TypeError
    end
  else Ok a2.
(** Craterplot.py 41-66: UpdateSettings of a plot.  Simplified: when an exception is raised the attributes are not followed further *)
Definition update_plot (load file_of : value -> res value) (a : attributes) (ds : list (list (str * value))) : res attributes :=
  match set_all convert_plot a (merge ds) with
  | (_, Some e) => Err e
  | (a1, None) => complete_plot load file_of a1
  end.
(** Craterplot.py 18-39; [decode] is decode_range of the count, with range, binning and snap *)
Definition new_plot (load file_of : value -> res value) (decode : value -> value -> value -> value -> res value) (ds : list (list (str * value))) : res attributes :=
  do! a <- update_plot load file_of no_attributes (plot_defaults :: ds);
  do! c <- attribute a (L "cratercount");
  if truthy c then
    do! r <- attribute a (L "range"); do! b <- attribute a (L "binning"); do! s <- attribute a (L "snap");
    do! r' <- decode c r b s; Ok (set_attribute a (L "range") r')
  else Err AttributeError.
