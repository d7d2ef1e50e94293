(** Randomnessanalysis.py 188-247: the histogram of the trials of one bin.  Definitions only. *)
From Coq Require Import String Ascii List ZArith Reals Bool.
From Verif Require Import Base NumModel StrModel FmtModel PlotModel RaModel.
Import ListNotations.
Local Open Scope R_scope.

(** Randomnessanalysis.py 199 *)
Definition bar_number (n_trials : nat) : nat := Z.to_nat (round_even (sqrt (INR n_trials) + 5)).
(** Randomnessanalysis.py 201: the edges np.histogram takes for a number of bins: between the smallest and the largest value, or from a half below
    to a half above if they are the same.  No trials at all do not get here (calculate_stats, 182) *)
Definition hist_edges (m : list R) (nbins : nat) : list R :=
  match m with
  | [] => []
  | x :: r =>
      let lo := list_min x r in
      let hi := list_max x r in
      if Reqb lo hi then linspace (lo - 1 / 2) (hi + 1 / 2) (S nbins) else linspace lo hi (S nbins)
  end.
(** Randomnessanalysis.py 202: np.diff *)
Fixpoint diff (l : list R) : list R :=
  match l with x :: ((y :: _) as r) => (y - x) :: diff r | _ => [] end.
(** Randomnessanalysis.py 211 *)
Fixpoint step_line (before : R) (be h : list R) : list (R * R) :=
  match be, h with
  | e :: be, f :: h => (e, before) :: (e, f) :: step_line f be h
  | e :: _, [] => [(e, before); (e, 0)]
  | [], _ => []
  end.
(** Randomnessanalysis.py 221-224: the shaded part; unpacking what zip gives for no points at all is a ValueError *)
Definition shade (sdr : R * R) (line : list (R * R)) : res (list (R * R)) :=
  match filter (fun p => Rltb (fst sdr) (fst p) && Rltb (fst p) (snd sdr)) line with
  | [] => Err ValueError
  | p :: r =>
      Ok ((fst sdr, 0) :: (fst sdr, snd p) :: (p :: r) ++ [(snd sdr, snd (last r p)); (snd sdr, 0)])
  end.
(** Randomnessanalysis.py 232-234: the labels: two spaces for each character before the last one, the unit after it.  An empty list has no last label *)
Definition hist_labels (m2cnd : bool) (tickv : list R) : res (list str) :=
  match rev (map (fmt_g 6) tickv) with
  | [] => Err IndexError
  | s :: r => Ok (rev ((concat (repeat (L "  ") (length s)) ++ s ++ (if m2cnd then L " km" else L " km" ++ bytes [194; 178]%nat)) :: r))
  end.
(** what is drawn: the bars (left edge, width, height), the outline, the line of the measured value (where, from and to), its text and where that is,
    the shaded part, the line of the mean (where, how high), the ranges of the axes *)
Record hist_plot := mkHist { hp_bars : list (R * R * R); hp_outline : list (R * R); hp_measured : R * (R * R); hp_text : str * (R * R);
                             hp_shade : list (R * R); hp_mean : R * R; hp_x : R * R; hp_y : R * R }.
(** Randomnessanalysis.py 195-231; [inset]: drawn into axes that are given (ax0), not a plot of its own *)
Definition plot_histogram (inset : bool) (n_trials : nat) (m : list R) (s : stats) : res hist_plot :=
  let be := hist_edges m (bar_number n_trials) in
  let h := histogram be (map (fun v => (v, 1)) m) in
  match be, diff be, h with
  | b0 :: br, w0 :: _, h0 :: hr =>
      let lo := list_min (s_m0 s) (b0 :: br) - w0 in
      let hi := list_max (s_m0 s) (b0 :: br) + w0 in
      let xr := (if inset then lo else lo - 6 / 10 * (hi - lo), hi) in
      let yr := (0, list_max h0 hr * (if inset then 11 / 10 else 15 / 10)) in
      let line := step_line 0 be h in
      do! band <- shade (s_mn s - s_sd s, s_mn s + s_sd s) line;
      do! top <- interp (s_mn s) band;
      Ok (mkHist (combine (combine be (diff be)) h) line (s_m0 s, yr)
                 (fmt_g 3 (s_m0 s) ++ nl :: percentile_sigfigs (s_percentile s) 2 ++ L "%", (s_m0 s, fst yr + 1 * (snd yr - fst yr)))
                 band (s_mn s, top) xr yr)
  | _, _, _ => Err IndexError
  end.
(** Randomnessanalysis.py 232-234, 239: ticks and their labels; [fuel] for the search in ticks.py *)
Definition histogram_ticks (fuel : nat) (m2cnd : bool) (xr : R * R) : option (res (list R * list str)) :=
  match ticks fuel [fst xr; snd xr] (Some 5%Z) None with
  | None => None
  | Some (Err e) => Some (Err e)
  | Some (Ok (t, _)) =>
      let tickv := filter (fun e => Rltb (fst xr) e && Rltb e (snd xr)) t in
      Some (do! l <- hist_labels m2cnd tickv; Ok (tickv, l))
  end.
