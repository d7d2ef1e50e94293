(** The uncertainty plot: Craterplotset.py create_time_axis_plotspace (the parts of the axis), compute_age_area, age_area_plot.
    Definitions only. *)
From Coq Require Import String Ascii List ZArith Reals Bool.
From Verif Require Import Base NumModel ChronModel ProdModel PdfModel StrModel FmtModel PlotModel.
Import ListNotations.
Local Open Scope R_scope.

(** ** Craterplotset.py 374-376, 403, 418: a part of the axis: where it begins and ends, in widths of the plot, and the ages there *)
Record part := mkPart { x_left : R; x_right : R; t_left : R; t_right : R }.
(** Craterplotset.py 374-375, 418: the linear part *)
Definition linear_part (a : time_axis) : part :=
  mkPart 0 (ta_linear a) (if Rltb (ta_switch a) (ta_max a) then ta_max a else ta_switch a + 1 / 10) (ta_switch a).
(** Craterplotset.py 376, 401-403, 415: the logarithmic part, only with crossover; otherwise the logarithmic axis is off *)
Definition log_part (a : time_axis) : option part :=
  match ta_log_min a with
  | Some l => if ta_crossover a then Some (mkPart (ta_linear a) 1 (ta_switch a) (pow10 l)) else None
  | None => None
  end.

(** ** Craterplotset.py 811-817: the size of the grid *)
Definition grid_size (n_samples : Z) (aspect_ratio : R) : Z * Z :=
  if Rltb 1 aspect_ratio then (n_samples, Rfloor (IZR n_samples * aspect_ratio))
  else (Rfloor (IZR n_samples / aspect_ratio), n_samples).
(** Craterplotset.py 819-820: the numbers of columns of the logarithmic and of the linear part *)
Definition columns (a : time_axis) (nsx : Z) : Z * Z :=
  let ns_lin := round_even (IZR nsx * ta_linear a) in ((nsx - ns_lin)%Z, ns_lin).
(** Craterplotset.py 823-827: the ages of the columns, as logarithms.  A negative number of samples makes linspace fail. *)
Definition log_age (a : time_axis) (nsx : Z) : res (list R) :=
  let '(ns_log, ns_lin) := columns a nsx in
  if Z.ltb ns_log 0 || Z.ltb (ns_lin + 1) 0 then Err ValueError
  else Ok (linspace (log10 (ta_min a)) (log10 (ta_switch a)) (Z.to_nat ns_log)
           ++ map log10 (tl (linspace (ta_switch a) (ta_max a) (Z.to_nat (ns_lin + 1))))).
(** Craterplotset.py 829-830: the areas of the rows, as logarithms *)
Definition log_area (y0 y1 : R) (nsy : Z) : res (list R) :=
  if Z.ltb nsy 0 then Err ValueError else Ok (linspace y0 y1 (Z.to_nat nsy)).

(** ** Craterplotset.py 832-843: craters larger than dmin per km2 on a surface of the age 10^x *)
Definition density (pf : productionfn) (cf : chron) (dmin x : R) : res R :=
  do! r0 <- evaluate pf "cumulative" dmin (Some (cf_a0 cf (pow10 x)));
  do! r1 <- evaluate pf "cumulative" 1000 (Some (cf_a0 cf (pow10 x)));
  match r0, r1 with Some a, Some b => Ok (a - b) | _, _ => Err TypeError end.
(** Craterplotset.py 864: n_samples, 2000 *)
Definition aa_samples : nat := 20 * 100.
(** a quotient of numpy, as in Craterplotset.py 867-872 *)
Inductive quotient := QNum (x : R) | QInf | QNan.
(** a quotient of numpy, as in Craterplotset.py 867 *)
Definition divide (x y : R) : quotient := if Reqb y 0 then (if Reqb x 0 then QNan else QInf) else QNum (x / y).
(** Craterplotset.py 866-873: what is kept of one cell; [err] is infinite if None *)
Record cell := mkCell { err : option R; c_k : nat; ratio : R; lam : R }.
(** Craterplotset.py 857-873: one cell; [poisson] is the random number *)
Definition compute_cell (erf : R -> R) (poisson : R -> nat) (cf : chron) (C : R -> R -> R) (dmin x y c : R) : res cell :=
  let area := pow10 y in
  let lam := c * area in
  if Rltb lam 0 then Err ValueError else
  let k := if Rltb lam (10 ^ 5) then poisson lam else Z.to_nat (Rfloor lam) in
  do! p <- craterpdf cf C area dmin 1000 k aa_samples;
  match median1sigma erf p with
  | [t0; t1; t2] =>
      Ok (mkCell (match divide t2 t1 with QNum q => Some (sqrt q - 1) | QInf => None | QNan => Some 0 end) k (t0 / pow10 x) lam)
  | _ => Err IndexError
  end.

(** ** Craterplotset.py 922-924: the height above which areas are larger than the globe *)
Definition y_exceed (y0 y1 max_area : R) : option R :=
  if Nat.eqb (searchsorted [y0; y1] (log10 max_area)) 1 then Some ((log10 max_area - y0) / Rabs (y1 - y0)) else None.
(** Craterplotset.py 926-929: the age at which the production function reaches the equilibrium function at dmin *)
Definition equilibrium_age (cf : chron) (ef_dmin c_dmin c_1 : R) : R := cf_t cf (ef_dmin * c_1 / c_dmin).
(** Craterplotset.py 931-940: the position of that age *)
Definition x_exceed (a : time_axis) (t_eq : R) : option R :=
  match searchsorted [ta_min a; ta_switch a; ta_max a] t_eq with
  | 1%nat => Some (ta_linear a + (1 - ta_linear a) * (log10 (ta_switch a) - log10 t_eq) / (log10 (ta_switch a) - log10 (ta_min a)))
  | 2%nat => Some (ta_linear a * (ta_max a - t_eq) / (ta_max a - ta_switch a))
  | _ => None
  end.
(** Craterplotset.py 942-948: the truth value of None or a number *)
Definition truth (o : option R) : bool := match o with Some x => negb (Reqb x 0) | None => false end.
(** Craterplotset.py 920-949: the polygon that is covered.  [xe] is None without an equilibrium function. *)
Definition covered (ye xe : option R) : option (list (R * R)) :=
  match ye, xe with
  | Some y, Some x =>
      if truth xe && truth ye then Some [(0, 0); (x, 0); (x, y); (1, y); (1, 1); (0, 1)]
      else if truth xe then Some [(0, 0); (x, 0); (x, 1); (0, 1)]
      else if truth ye then Some [(0, y); (1, y); (1, 1); (0, 1)]
      else None
  | Some y, None => if truth ye then Some [(0, y); (1, y); (1, 1); (0, 1)] else None
  | None, Some x => if truth xe then Some [(0, 0); (x, 0); (x, 1); (0, 1)] else None
  | None, None => None
  end.

(** ** Craterplotset.py 952, 959, 965: np.flip(np.transpose(z), 1): the columns of an image, from the left *)
Definition image_columns {A} (columns : list A) : list A := rev columns.

(** ** Craterplotset.py 951-953: the colour of a count.  imshow scales the values from their minimum lo to their maximum hi onto the n colours of the map
    (Set2_r: 8); a value at the upper end has the last colour, and equal values all have the first. *)
Definition colour_index (n : Z) (lo hi v : R) : Z :=
  if Reqb lo hi then 0%Z else Z.max 0 (Z.min (n - 1) (Rfloor ((v - lo) / (hi - lo) * IZR n))).
(** Craterplotset.py 952: np.clip(kk, 0, 8) *)
Definition shown_k (k : nat) : R := INR (Nat.min k 8).
(** Craterplotset.py 954-955: the label of a count beside the colours is at this value *)
Definition label_value (label : nat) : R := INR label + 1 / 2.

(** ** Craterplotset.py 918: the text for the diameter *)
Definition diameter_text (dmin : R) : str :=
  L " ($d > " ++ (if Rleb 1 dmin then fmt_g 3 dmin ++ L "$ km" else fmt_g 3 (dmin * 1000) ++ L "$ m)").
