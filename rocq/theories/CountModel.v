(** The Cratercount object: binning cache, decode_range, resurf_adj, getplotdata.
    Definitions only. *)
From Coq Require Import String List ZArith Reals Bool.
From Verif Require Import Base NumModel BinModel.
Import ListNotations.
Local Open Scope R_scope.

(** As given to float() in Cratercount.py 335: A range limit that may be infinite (the default range is ['0','inf']).
    Negative infinity and NaN are not modelled. *)
Inductive ext := Fin (r : R) | Inf.

(** x < y, as in Cratercount.py 339, 432 *)
Definition ext_ltb (x y : ext) : bool :=
  match x, y with
  | Fin a, Fin b => Rltb a b
  | Fin _, Inf => true
  | Inf, _ => false
  end.
(** x * c for c > 0, as in Cratercount.py 343, 345 *)
Definition ext_scale (x : ext) (c : R) : ext := match x with Fin a => Fin (a * c) | Inf => Inf end.
(** x <= r, as in Cratercount.py 344 *)
Definition ext_leb_R (x : ext) (r : R) : bool := match x with Fin a => Rleb a r | Inf => false end.
(** r < x, as in Cratercount.py 342, 432 *)
Definition R_ltb_ext (r : R) (x : ext) : bool := match x with Fin a => Rltb r a | Inf => true end.
(** Cratercount.py 343, 345: np.searchsorted with a possibly infinite key *)
Definition searchsorted_ext (l : list R) (x : ext) : nat :=
  match x with Fin a => searchsorted l a | Inf => length l end.

(** The fields of Cratercount (Cratercount.py 17-30) that the functions below use.
    [cc_binning = None] is self.binning=None.  The crater list pairs diam and fraction. *)
Record cratercount := mkCC {
  cc_craters : list (R * R);
  cc_area : R;
  cc_binning : option string;
  cc_prebinned : bool;
  cc_binned : binned;
  cc_reverse : option (list nat) }.

(** Cratercount.py 24: self.binned before any binning *)
Definition empty_binned : binned := mkBinned [] [] [] [] [] [] [] [].

(** Cratercount.py 273-312 as a method: on success the cache is replaced, on an exception the
    object is unchanged. *)
Definition do_apply (s : cratercount) (binning : string) (offset : R) : res unit * cratercount :=
  match apply_binning (cc_craters s) binning offset with
  | Err e => (Err e, s)
  | Ok (bd, ri) =>
      (Ok tt, mkCC (cc_craters s) (cc_area s) (Some binning) (cc_prebinned s) bd
                (match ri with Some r => Some r | None => cc_reverse s end))
  end.

(** Cratercount.py 316-318, 388-390, 199-201: re-bin unless prebinned or already binned so *)
Definition ensure_binning (s : cratercount) (binning : string) : res unit * cratercount :=
  if cc_prebinned s then (Ok tt, s)
  else match cc_binning s with
       | Some b => if String.eqb b binning then (Ok tt, s) else do_apply s binning 0
       | None => do_apply s binning 0
       end.

(** np.where(n > 0)[0], as in Cratercount.py 322, 394 *)
Fixpoint where_pos_from (i : nat) (n : list R) : list nat :=
  match n with
  | [] => []
  | x :: r => if Rltb 0 x then i :: where_pos_from (S i) r else where_pos_from (S i) r
  end.
(** np.where(n > 0)[0], as in Cratercount.py 322, 394 *)
Definition where_pos (n : list R) : list nat := where_pos_from 0 n.

(** ** decode_range *)
(** Cratercount.py 325-335: One element of the range argument, after Python's own parsing of the text: a number (float
    or numeric string, possibly 'inf'), 'b' followed by an integer, or something else. *)
Inductive limit := LNum (x : ext) | LBin (v : Z) | LBad.

(** Cratercount.py 329: np.clip(v, lo, hi) *)
Definition zclip (v lo hi : Z) : Z := Z.min (Z.max v lo) hi.

(** Cratercount.py 324-337: the value and whether it forces snapping.  Any exception inside the
    try block ends in sys.exit. *)
Definition limit_value (bd : binned) (snap : bool) (l : limit) : res (ext * bool) :=
  match l with
  | LNum x => Ok (x, snap)
  | LBad => Err SysExit
  | LBin v0 =>
      let q := where_pos (b_n bd) in
      let len := Z.of_nat (length q) in
      let v1 := zclip v0 (- len) len in
      let v := if Z.ltb 0 v1 then (v1 - 1)%Z else v1 in
      match (do! i <- pyindex q v; pyindex (b_dmean bd) (Z.of_nat i)) with
      | Ok d => Ok (Fin d, true)
      | Err _ => Err SysExit
      end
  end.

(** Cratercount.py 342-343 *)
Definition snap_lower (bd : binned) (r : ext) : res ext :=
  if R_ltb_ext 0 r then
    do! d <- pyindex (b_dmin bd)
               (Z.max (Z.of_nat (searchsorted_ext (b_dmin bd) (ext_scale r (10000001/10000000))) - 1) 0);
    Ok (Fin d)
  else Ok r.
(** Cratercount.py 344-345 *)
Definition snap_upper (bd : binned) (r : ext) : res ext :=
  do! dl <- pyindex (b_dmax bd) (-1);
  if ext_leb_R r (dl - 1/10000000) then
    do! d <- pyindex (b_dmax bd)
               (Z.of_nat (searchsorted_ext (b_dmax bd) (ext_scale r (999999/1000000))));
    Ok (Fin d)
  else Ok r.

(** Cratercount.py 320-347 on the binned data *)
Definition decode_limits (bd : binned) (binning : option string) (lo hi : limit) (snap : bool)
  : res (ext * ext) :=
  do! (r0, s0) <- limit_value bd snap lo;
  do! (r1, s1) <- limit_value bd snap hi;
  let r1 := if ext_ltb r1 r0 then r0 else r1 in
  if (match binning with Some b => String.eqb b "none" | None => false end) then Ok (r0, r1)
  else
    do! r0' <- (if s0 then snap_lower bd r0 else Ok r0);
    do! r1' <- (if s1 then snap_upper bd r1 else Ok r1);
    Ok (r0', r1').

(** Cratercount.py 315-347 decode_range *)
Definition decode_range (s : cratercount) (lo hi : limit) (binning : string) (snap : bool)
  : res (ext * ext) * cratercount :=
  match ensure_binning s binning with
  | (Err e, s') => (Err e, s')
  | (Ok _, s') => (decode_limits (cc_binned s') (cc_binning s') lo hi snap, s')
  end.

(** ** getplotdata *)
(** Cratercount.py 364-365, 419: What getplotdata uses of a production function: evaluate('cumulative', d) with its own a0,
    evaluate('cumulative', d, a0), and the a0 value of fit(p) as a function of p's d, y, err. *)
Record prodfn := mkPF {
  pf_C : R -> R; pf_Ca0 : R -> R -> R; pf_fit : list R -> list R -> list R -> R }.

(** miscellaneous.py 19-32 bin_bias_correction (ratio beta, exponent k) *)
Definition bin_bias_correction (beta k : R) : R :=
  if Rltb (Rabs k) (1 / 100000) then 1
  else (Rpower beta (k / 2) - Rpower beta (- k / 2)) / (k * (sqrt beta - 1 / sqrt beta)).

(** Cratercount.py 396-428, 451: One plotted point: abscissa, value, error *)
Record point := mkPt { pt_d : R; pt_y : R; pt_err : R }.

(** Cratercount.py 396-428: the point of bin [i] in a presentation.  [adj] is the resurfacing
    adjustment; [pf] the production function used for the bias correction.  An unknown
    presentation leaves d unbound: NameError (UnboundLocalError). *)
Definition plot_point (bd : binned) (area adj : R) (pf : option prodfn) (pres : string) (i : nat)
  : res point :=
  let g (l : list R) := nth i l 0 in
  if String.eqb pres "cumulative" then
    let y := g (b_ncum bd) / area + adj in
    Ok (mkPt (g (b_dmin bd)) y (y / sqrt (g (b_ncum_event bd))))
  else if String.eqb pres "incremental" then
    let y := g (b_n bd) / area in
    Ok (mkPt (g (b_dmean bd)) y (y / sqrt (g (b_nevent bd))))
  else if String.eqb pres "Hartmann" then
    let y := g (b_n bd) / g (b_width bd) / area * g (b_dmean bd) * (sqrt 2 - 1) in
    Ok (mkPt (g (b_dmean bd)) y (y / sqrt (g (b_nevent bd))))
  else if String.eqb pres "differential" then
    let d := g (b_dmean bd) in
    let y := g (b_n bd) / g (b_width bd) / area in
    let err := y / sqrt (g (b_nevent bd)) in
    let beta := (d / g (b_dmin bd)) ^ 2 in
    let k := match pf with
             | Some p => log10 (pf_C p (d * sqrt beta) / pf_C p (d / sqrt beta)) / log10 beta
             | None => -3
             end in
    Ok (mkPt d (y / bin_bias_correction beta k) err)
  else if String.eqb pres "R-plot" then
    let d := g (b_dmean bd) in
    let y := d ^ 3 * g (b_n bd) / g (b_width bd) / area in
    Ok (mkPt d y (y / sqrt (g (b_nevent bd))))
  else Err NameError.

(** Cratercount.py 431-436: populated bins whose mean lies strictly inside the range *)
Definition select_range (bd : binned) (q : list nat) (lo : R) (hi : ext) : list nat :=
  filter (fun i => Rltb lo (nth i (b_dmean bd) 0) && R_ltb_ext (nth i (b_dmean bd) 0) hi) q.

(** the dictionary returned by getplotdata, Cratercount.py 451 (without the name of the presentation) *)
Record plotdata := mkPD {
  pd_points : list point; pd_n : R; pd_nevent : R; pd_bin_range : R * R }.

(** Cratercount.py 438-443: bin_range of a requested range *)
Definition requested_bin_range (bd : binned) (binning : option string) (lo : R) (hi : ext)
    (resurfacing : option Z) : res (R * R) :=
  let lo1 := match resurfacing with Some 1%Z => 0 | _ => lo end in
  do! lo2 <- (if Reqb lo1 0 then pyindex (b_dmin bd) 0 else Ok lo1);
  do! hi2 <- (match hi with Inf => pyindex (b_dmax bd) (-1) | Fin h => Ok h end);
  match binning with
  | None => Err KeyError
  | Some b =>
      do! bins <- generate_bins b [lo2; hi2] 0 false;
      do! x <- pyindex bins 0;
      do! y <- pyindex bins (-1);
      Ok (x, y)
  end.

(** the presentations for which d, y, err are bound (Cratercount.py 396-428) *)
Definition data_presentations : list string :=
  ["cumulative"; "incremental"; "Hartmann"; "differential"; "R-plot"]%string.

(** Cratercount.py 392-451 on the binned data, with the adjustment already computed *)
Definition plotdata_of (bd : binned) (area : R) (binning : option string) (pres : string) (adj : R)
    (range : option (R * ext)) (resurfacing : option Z) (showall : bool) (pf : option prodfn)
  : res plotdata :=
  let q := where_pos (b_n bd) in
  match range with
  | Some (lo, hi) =>
      let q1 := select_range bd q (if showall then 0 else lo) hi in
      if negb (existsb (String.eqb pres) data_presentations) then Err NameError else
      do! pts <- mapM (plot_point bd area adj pf pres) q1;
      do! br <- requested_bin_range bd binning lo hi resurfacing;
      Ok (mkPD pts (Rsum (map (fun i => nth i (b_n bd) 0) q1))
            (Rsum (map (fun i => nth i (b_nevent bd) 0) q1)) br)
  | None =>
      do! i0 <- pyindex q 0;
      do! i1 <- pyindex q (-1);
      if negb (existsb (String.eqb pres) data_presentations) then Err NameError else
      do! pts <- mapM (plot_point bd area adj pf pres) q;
      Ok (mkPD pts (Rsum (map (fun i => nth i (b_n bd) 0) q))
            (Rsum (map (fun i => nth i (b_nevent bd) 0) q))
            (nth i0 (b_dmin bd) 0, nth i1 (b_dmax bd) 0))
  end.

(** Cratercount.py 361-368: the fixed-point iteration, at most [fuel] = 21 rounds *)
Fixpoint resurf_iter (fuel : nat) (pf : prodfn) (d y0 err : list R) (adj : R) : R :=
  match fuel with
  | O => adj
  | S f =>
      let a0 := pf_fit pf d (map (fun y => y + adj) y0) err in
      let adj' := pf_Ca0 pf (last d 0) a0 - last y0 0 in
      if Rltb (Rabs (adj - adj')) (1 / 10000) then adj' else resurf_iter f pf d y0 err adj'
  end.

(** Cratercount.py 354-369 resurf_adj.  Without a production function pf.fit is an attribute of
    None: AttributeError. *)
Definition resurf_adj (bd : binned) (area : R) (binning : option string) (pf : option prodfn)
    (range : option (R * ext)) : res R :=
  do! p0 <- plotdata_of bd area binning "cumulative" 0 range (Some 0%Z) false None;
  let d := map pt_d (pd_points p0) in
  if Nat.ltb 1 (length d) then
    match pf with
    | None => Err AttributeError
    | Some p => Ok (resurf_iter 21 p d (map pt_y (pd_points p0)) (map pt_err (pd_points p0)) 0)
    end
  else Ok 0.

(** Cratercount.py 372-451 getplotdata.  [resurfacing]: None | Some 0 | Some 1. *)
Definition getplotdata (s : cratercount) (pres binning : string) (range : option (R * ext))
    (resurfacing : option Z) (showall : bool) (pf : option prodfn)
  : res plotdata * cratercount :=
  match ensure_binning s binning with
  | (Err e, s') => (Err e, s')
  | (Ok _, s') =>
      let bd := cc_binned s' in
      (do! adj <- (match resurfacing with
                   | Some 0%Z => Ok 0
                   | _ => resurf_adj bd (cc_area s') (cc_binning s') pf range
                   end);
       plotdata_of bd (cc_area s') (cc_binning s') pres adj range resurfacing showall pf, s')
  end.
