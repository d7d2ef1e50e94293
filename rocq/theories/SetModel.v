(** Model of Craterplotset.py: the automatic axis ranges, the place of the randomness strip, the size
    of the plot on the page, and the tick labels of the diameter axis. *)
From Coq Require Import String List Ascii ZArith Reals Bool.
Import ListNotations.
From Verif Require Import Base StrModel NumModel FmtModel.
Local Open Scope R_scope.

(** ** gm/maths/range.py 6-32: range, mag; the range of an empty vector is nan, here [None] *)
Definition gm_range (l : list R) : option (R * R) :=
  match l with [] => None | x :: r => Some (list_min x r, list_max x r) end.
(** gm/maths/range.py 25-26, 31-32: of a pair *)
Definition mag (r : R * R) : R := Rmax (fst r) (snd r) - Rmin (fst r) (snd r).

(** ** Craterplot.py 276-286: get_data_range.
    Simplified: what [getplotdata] returns is the argument (modelled in CountModel): the points (d, y) of the
    plot, or the exception it raises. *)
Definition points := list (R * R).
(** Craterplot.py 276-286 *)
Definition get_data_range (p : res points) : res (option (R * R) * option (R * R)) :=
  do! p <- p; Ok (gm_range (map fst p), gm_range (map snd p)).

(** Craterplotset.py 616-617: Python's [min] / [max] of a tuple: the first value is kept until a better one comes; a comparison with nan is
    false, so a nan is kept if it comes first and passed over otherwise. *)
Definition py_best (better : R -> R -> bool) (l : list (option R)) : res (option R) :=
  match l with
  | [] => Err ValueError
  | x :: r => Ok (fold_left (fun best v => match v, best with
                                           | Some v', Some b => if better v' b then v else best
                                           | _, _ => best
                                           end) r x)
  end.
(** Craterplotset.py 616-617 *)
Definition py_min := py_best Rltb.
(** Craterplotset.py 616-617 *)
Definition py_max := py_best (fun v b => Rltb b v).

(** constants.py 11: PRESENTATIONS, the first six *)
Inductive presentation := Cumulative | Differential | Rplot | Hartmann | Chronology | Rate.
(** comparisons as in Craterplotset.py 160, 615, 637 *)
Definition presentation_eqb (a b : presentation) : bool :=
  match a, b with
  | Cumulative, Cumulative | Differential, Differential | Rplot, Rplot
  | Hartmann, Hartmann | Chronology, Chronology | Rate, Rate => true
  | _, _ => false
  end.
(** constants.py 19-22: DEFAULT_XRANGE, DEFAULT_YRANGE, for the presentations that are plotted on decade axes *)
Definition default_ranges (p : presentation) : (R * R) * (R * R) :=
  match p with
  | Cumulative => ((-3, 2), (-4, 1))
  | Differential => ((-3, 2), (-5, 5))
  | Rplot => ((-2, 3), (-4, 1))
  | Hartmann => ((-315 / 100, 256 / 100), (-8, 5))
  | Chronology => ((9 / 2, 0), (-6, 2))
  | Rate => ((9 / 2, 0), (-6, 3))
  end.

(** ** Craterplotset.py 614-655: the whole-decade ranges for data between 10^min_x .. 10^max_x, 10^min_y .. 10^max_y;
    [strip] is whether the randomness strip is plotted (621).  All ranges are whole numbers of decades here, so they are
    integers; [d2] is the division of the difference into the smaller and larger addition (646-647, 652-653). *)
Definition d2 (d0 : Z) : Z * Z := let d2a := (d0 / 2)%Z in (d2a, d0 - d2a)%Z.
(** Craterplotset.py 639, 644, 648, 654-655 *)
Definition widen (r : Z * Z) (lo hi : Z) : Z * Z := (fst r - lo, snd r + hi)%Z.
(** Craterplotset.py 614-655 *)
Definition auto_ranges (differential strip : bool) (min_x max_x min_y max_y : R) : (Z * Z) * (Z * Z) :=
  let my := if differential then 6 / 10 else 3 / 10 in
  let xr := (Rfloor (min_x - 3 / 10), Rceil (max_x + 8 / 10)) in
  let yr := (Rfloor (min_y - my), Rceil (max_y + my)) in
  let yr := if strip then (fst yr, Z.max (snd yr) (Rceil (max_y + IZR (snd yr - fst yr) * 3 / 16))) else yr in
  let max_y := if strip then max_y + IZR (snd yr - fst yr) / 8 else max_y in
  let big_left := Rltb (IZR (snd xr) - max_x + 8 / 10) (min_x - IZR (fst xr) + 3 / 10) in
  let big_bottom := Rltb (IZR (snd yr) - max_y) (min_y - IZR (fst yr)) in
  let dx := (snd xr - fst xr)%Z in
  let dy := (snd yr - fst yr)%Z in
  if differential then
    let yr := if (dy mod 2 =? 1)%Z then (if big_bottom then widen yr 0 1 else widen yr 1 0) else yr in
    let dy := (snd yr - fst yr)%Z in
    let d := (dy / 2 - dx)%Z in
    let d0 := Z.abs d in
    if (d <? 0)%Z then (xr, widen yr d0 d0)
    else if (0 <? d)%Z then
      let (d2a, d2b) := d2 d0 in ((if big_left then widen xr d2a d2b else widen xr d2b d2a), yr)
    else (xr, yr)
  else
    let d := (dy - dx)%Z in
    let d0 := Z.abs d in
    let (d2a, d2b) := d2 d0 in
    if (d <? 0)%Z then (xr, if big_bottom then widen yr d2a d2b else widen yr d2b d2a)
    else if (0 <? d)%Z then ((if big_left then widen xr d2b d2a else widen xr d2a d2b), yr)
    else (xr, yr).

(** ** Craterplotset.py 595-658: autoscale.  The result is (xrange, yrange, max_y), max_y being what is kept for the
    randomness strip (624).
    With no plot to range over (613) the defaults are numbers, not tuples, and [min] raises TypeError. *)
Definition real_range (r : Z * Z) : R * R := (IZR (fst r), IZR (snd r)).
(** Craterplotset.py 606-611 *)
Definition ranges_of (plots : list (res points)) : list (option (R * R) * option (R * R)) :=
  flat_map (fun p => match get_data_range p with Ok r => [r] | Err _ => [] end) plots.
(** Craterplotset.py 612: x0, y0 *)
Definition lows (l : list (option (R * R))) : list (option R) := map (option_map fst) l.
(** Craterplotset.py 612: x1, y1 *)
Definition highs (l : list (option (R * R))) : list (option R) := map (option_map snd) l.
(** Craterplotset.py 657-658 *)
Definition or_else {A} (o : option A) (d : A) : A := match o with Some a => a | None => d end.
(** Craterplotset.py 606-658 *)
Definition autoscale (p : presentation) (strip : bool) (plots : list (res points)) (xrange yrange : option (R * R))
  : res ((R * R) * (R * R) * option R) :=
  let ranges := ranges_of plots in
  match ranges with
  | [] => Err TypeError
  | _ =>
      do! x0 <- py_min (lows (map fst ranges)); do! x1 <- py_max (highs (map fst ranges));
      do! y0 <- py_min (lows (map snd ranges)); do! y1 <- py_max (highs (map snd ranges));
      let '(xr, yr, top) :=
        match x0, x1, y0, y1 with
        | Some x0, Some x1, Some y0, Some y1 =>
            let (xr, yr) := auto_ranges (presentation_eqb p Differential) strip (log10 x0) (log10 x1) (log10 y0) (log10 y1) in
            (real_range xr, real_range yr, if strip then Some (log10 y1) else None)
        | _, _, _, _ => (fst (default_ranges p), snd (default_ranges p), None)
        end in
      Ok (or_else xrange xr, or_else yrange yr, top)
  end.

(** ** Craterplotset.py 270-273: the randomness strip, as the lower and upper edge in decades of the y axis.
    In the code both are fractions of the axis height, from which the figure coordinates follow linearly. *)
Definition strip_edges (yrange : R * R) (max_y : R) (ra_offset : R) : R * R :=
  let lo := (max_y + mag yrange / 16 + ra_offset / 20 - fst yrange) / mag yrange in
  (fst yrange + lo * mag yrange, fst yrange + (lo + 1 / 16) * mag yrange).

(** ** Craterplotset.py 154-185: plot dimensions.  [dims] is print_dimensions already split at x and converted
    (Python's float, modelled elsewhere); [randomness] is the setting of that name, 0 or 1. *)
Record layout := { l_decades : R * R; l_aspect : R; l_scale : R; l_margin : R; l_page : R * R; l_axes : R * R * R * R;
                   l_norm : R * R * R * R }.
(** Craterplotset.py 156-157 *)
Definition decades (r : R * R) : R := Rmax (mag r) 1.
(** Craterplotset.py 173, 179 *)
Definition is_time (p : presentation) : bool := match p with Chronology | Rate => true | _ => false end.
(** Craterplotset.py 156-185 *)
Definition plot_layout (p : presentation) (xrange yrange : R * R) (dims : list R) (pt_size : R) (randomness : bool) : res layout :=
  let dx := decades xrange in
  let dy := decades yrange in
  let aspect := match p with Differential => 2 | Hartmann | Chronology | Rate => dy / dx | _ => 1 end in
  do! scale <- match dims with
               | [] => Err IndexError
               | [d] => Ok (Rmax d 1)
               | w :: r =>
                   match p, r with
                   | Hartmann, _ => Ok (w / dx)
                   | _, [h] => Ok (Rmin (Rmax w 1 / dx) (Rmax (h * aspect) 1 / dy))
                   | _, _ => Err ValueError
                   end
               end;
  let ra := if randomness && negb (is_time p) then 1 else 0 in
  let margin := pt_size * (2 / 10) in
  let xsize := dx * scale + 2 * margin in
  let ysize := match p with
               | Hartmann => xsize + scale * ra
               | Chronology | Rate => xsize
               | _ => (ra + dy / aspect) * scale + 2 * margin
               end in
  let w := margin * (xsize / margin - 2) in
  let h := margin * (ysize / margin - 2 - ra) in
  Ok {| l_decades := (dx, dy); l_aspect := aspect; l_scale := scale; l_margin := margin; l_page := (xsize, ysize);
        l_axes := (margin, margin, w, h);
        l_norm := (margin / xsize, margin / ysize, w / xsize, h / ysize) |}.

(** ** Craterplotset.py 221-224: ticks and labels of the diameter axis in the natural style; np.arange over whole
    numbers, and 0g is the general format with its usual six figures *)
Definition natural_ticks (xrange : R * R) : list (Z * str) :=
  map (fun e => (e, if (0 <=? e)%Z then fmt_g 6 (ten e) ++ L "$\,$km" else fmt_g 6 (ten (e + 3)) ++ L "$\,$m"))
      (zrange (Rceil (fst xrange)) (Rfloor (snd xrange) + 1)).

(** ** miscellaneous.py 212-224: Hartmann_bins: ticks, labels, the spacing xminor and the minor ticks *)
Definition Hartmann_labels : list str :=
  let labels := map int_str [1; 2; 4; 8; 16; 31; 63; 125; 250; 500; 1; 2; 4; 8; 16; 32; 64; 128; 256; 512; 1024]%Z in
  firstn 10 labels ++ [L "  " ++ nth 10 labels [] ++ L "km"] ++ skipn 11 labels.
(** miscellaneous.py 212-224 *)
Definition Hartmann_bins (d_range : R * R) : res (list R * list str * R * list R) :=
  let v := map (fun e => log10 (powerRZ 2 e)) (zrange (-10) 11) in
  match filter (fun vt => Rleb (fst d_range) (fst vt) && Rleb (fst vt) (snd d_range)) (combine v Hartmann_labels) with
  | [] => Err ValueError
  | (v0, t0) :: rest =>
      let t0 := if Rltb v0 0 then t0 ++ L "m" else t0 in
      match rest with
      | [] => Err IndexError
      | (v1, _) :: _ =>
          let xminor := (v1 - v0) / 2 in
          Ok (v0 :: map fst rest, t0 :: map snd rest, xminor,
              filter (fun m => Rleb (fst d_range) m && Rleb m (snd d_range))
                     (map (fun e => e + xminor) ((v0 - 2 * xminor) :: v0 :: map fst rest)))
      end
  end.

(** ** np.sign, miscellaneous.py 240 *)
Definition sgn (v : R) : R := if Rltb 0 v then 1 else if Rltb v 0 then -1 else 0.
(** miscellaneous.py 236-240: np.power of 0 is 0 *)
Definition n_sigma_scaling (v : R) : R := (if Reqb v 0 then 0 else Rpower (Rabs v) (6 / 10)) * sgn v.

(** ** Craterplot.py 309-314: the row of a fit in the sequence plot: centre, half height of a violin, half height of a bar *)
Definition sequence_row (n i : nat) : R * R * R :=
  let w0 := (1 / 2) / (INR n + 1) in ((INR n - INR i) / (INR n + 1), w0, 3 / 10 * w0).
