(** The small plots of an age distribution: Craterpdf.py plot, offset and violin_plot, and their use in Craterplot.py
    overplot and sequence_plot.  Definitions only. *)
From Coq Require Import String Ascii List ZArith Reals Bool.
From Verif Require Import Base NumModel StrModel FmtModel IoModel CliModel PlotModel PdfModel.
Import ListNotations.
Local Open Scope R_scope.

(** Craterpdf.py 177-179, 224-232: a limit of a slice l[a:b] of an array; negative positions count from the end *)
Definition position (n : nat) (i : Z) : nat := Z.to_nat (if Z.ltb i 0 then Z.max 0 (Z.of_nat n + i) else Z.min i (Z.of_nat n)).
(** Craterpdf.py 177-179, 224-232: l[a:b] *)
Definition array_slice {A} (l : list A) (a b : Z) : list A := slice l (position (length l) a) (position (length l) b).
(** np.searchsorted(self.ts, t) - 1 (Craterpdf.py 139, 220) *)
Definition mark (p : pdf) (t : R) : Z := (Z.of_nat (searchsorted (pdf_ts p) t) - 1)%Z.
(** Craterpdf.py 177-179, 224-232: the samples (time, density) of a slice *)
Definition samples (p : pdf) (a b : Z) : list (R * R) := combine (array_slice (pdf_ts p) a b) (array_slice (pdf_pdf p) a b).
(** np.max of an array, as in Craterpdf.py 203, 205, 222 *)
Definition array_max (l : list R) : res R := match l with [] => Err ValueError | x :: r => Ok (list_max x r) end.

(** Craterpdf.py 166: cst.str_age(t, simple=True) *)
Definition simple_age (t : R) : res str :=
  str_age t 0 0 {| sf := 3; unit := None; simple := true; no_error := false; mu := false; mathml := false |}.
(** Craterpdf.py 163-171: tick values, labels and limits *)
Record mini_axis := { ma_ticks : list R; ma_labels : list str; ma_limits : R * R }.
(** Craterpdf.py 164-170: the labels *)
Definition mini_labels (xt : list R) : res (list str) :=
  match rev xt with
  | [] => Err IndexError
  | top :: _ =>
      do! text <- simple_age top;
      let a := split_chr (ch " ") [] text in
      do! number <- pyindex a 0;
      do! v <- py_float number;
      if Reqb top 0 then Err NotANumber
      else
        let labels := map (fun e => fmt_g 6 (v / top * e)) xt in
        match rev labels with
        | [] => Err IndexError
        | l :: r => do! u <- pyindex a 1; Ok (rev ((L "      " ++ l ++ L " " ++ u) :: r))
        end
  end.
(** Craterpdf.py 158-171, the linear axis. [fuel] is for the search of [ticks]. The limits are those set in line 171, widened by matplotlib's set_xticks (187) to include the ticks. *)
Definition linear_axis (fuel : nat) (max_t : R) : option (res mini_axis) :=
  match ticks fuel [0; max_t] (Some 3%Z) None with
  | None => None
  | Some (Err x) => Some (Err x)
  | Some (Ok (xt, _)) =>
      Some (do! labels <- mini_labels xt;
            match xt with
            | [] => Err IndexError
            | x0 :: r => Ok {| ma_ticks := xt; ma_labels := labels; ma_limits := (Rmin x0 (list_min x0 r), Rmax max_t (list_max x0 r)) |}
            end)
  end.

(** Craterpdf.py 124-191 without an axis range and with a linear scale, as called in Craterplot.py 227: the curve, the shaded samples,
    the sample of the median mark and the axis.  Colours, line widths and fonts are left out; [erf] is math.erf. *)
Record mini_plot := { mp_curve : list (R * R); mp_shaded : list (R * R); mp_median : list (R * R); mp_axis : mini_axis }.
(** Craterpdf.py 138-139, 158-191: the plot *)
Definition plot_pdf (fuel : nat) (erf : R -> R) (p : pdf) : option (res mini_plot) :=
  let t := map (pdf_t p) ([3 / 1000] ++ gaussian_percentiles erf 1 ++ [997 / 1000]) in
  let m i := mark p (nth i t 0) in
  match t with
  | [] => Some (Err ValueError)
  | t0 :: r =>
      match linear_axis fuel (list_max t0 r) with
      | None => None
      | Some a => Some (do! a <- a;
                        Ok {| mp_curve := combine (pdf_ts p) (pdf_pdf p); mp_shaded := samples p (m 1%nat) (m 3%nat);
                              mp_median := samples p (m 2%nat) (m 2%nat + 1); mp_axis := a |})
      end
  end.

(** Craterpdf.py 203: the positions above half the maximum *)
Definition above_half (p : pdf) : res (list nat) :=
  do! m <- array_max (pdf_pdf p);
  Ok (filter (fun i => Rltb (m / 2) (nth i (pdf_pdf p) 0)) (seq 0 (length (pdf_pdf p)))).
(** Craterpdf.py 193-207 *)
Definition offset (fuel : nat) (p : pdf) (left : bool) : option (res R) :=
  match ticks fuel [0; pdf_t p (997 / 1000)] (Some 3%Z) None with
  | None => None
  | Some (Err x) => Some (Err x)
  | Some (Ok (xt, _)) =>
      Some (do! q <- above_half p;
            do! q0 <- pyindex q 0;
            do! q1 <- pyindex q (-1);
            do! top <- array_max xt;
            if Reqb top 0 then Err NotANumber
            else let norm i := nth i (pdf_ts p) 0 / top in
                 Ok (if left then (1 - norm q1) - 1 / 10 else - norm q0 + 1 / 10))
  end.
(** Craterplot.py 211-223: the box of the small plot (left, bottom, right, top) in units of the axes.  The age text, of width w and
    height h in points, is written at (x, y); f turns points into units of the axes. *)
Definition plot_box (left : bool) (x y f w h sz_ratio offset : R) : R * R * R * R :=
  let bx := 12 / 100 * sz_ratio in
  let by_ := 5 / 100 * sz_ratio in
  let dx := if left then - (f * w + 3 / 100) + (-1 + offset) * bx else f * w + 3 / 100 + offset * bx in
  let dy := f * h / 2 in
  (x + dx, y - dy, x + dx + bx, y - dy + by_).

(** Craterpdf.py 209-233: violin_plot at height y with half height w0: the three filled areas, each a list of time, upper and lower
    edge: the whole, the part between the 16% and 84% ages, and the mark of the median *)
Definition violin_area (p : pdf) (y w : R) (a b : Z) : list (R * (R * R)) :=
  map (fun s => (fst s, (y + w * snd s, y - w * snd s))) (samples p a b).
(** Craterpdf.py 209-233 *)
Definition violin (p : pdf) (y w0 : R) : res (list (list (R * (R * R)))) :=
  let m f := mark p (pdf_t p f) in
  do! top <- array_max (pdf_pdf p);
  if Reqb top 0 then Err NotANumber
  else
    let w := 9 / 10 * w0 / top in
    Ok [violin_area p y w (m (1 / 10000)) (m (9999 / 10000)); violin_area p y w (m (16 / 100)) (m (84 / 100));
        violin_area p y w (m (1 / 2)) (m (1 / 2) + 1)].
