(** Production functions.  Definitions only. *)
From Coq Require Import String List ZArith Reals Bool.
From Verif Require Import Base NumModel BinModel CountModel.
Import ListNotations.
Local Open Scope R_scope.

(** np.polyval, as called in gm/maths/poly.py 10: coefficients in descending order (Horner) *)
Definition polyval (p : list R) (x : R) : R := fold_left (fun y c => y * x + c) p 0.
(** gm/maths/poly.py 6-10: coefficients in ascending order *)
Definition poly (p : list R) (x : R) : R := polyval (rev p) x.

(** Productionfn.py 116: [(i+1)*e for i,e in enumerate(l)], starting the enumeration at i *)
Fixpoint dash (i : nat) (l : list R) : list R :=
  match l with [] => [] | e :: r => (INR i + 1) * e :: dash (S i) r end.

(** Productionfn.py 97-100 *)
Definition poly_C10 (a : list R) (d10 a0 : R) : R := poly (a0 :: tl a) d10.
(** Productionfn.py 102-105 *)
Definition poly_C (a : list R) (d a0 : R) : R := pow10 (poly_C10 a (log10 d) a0).
(** Productionfn.py 111-120 *)
Definition poly_F (a : list R) (d a0 : R) : R :=
  let x := log10 d in
  let a := a0 :: tl a in
  let p := poly a x in
  let dCdp := ln 10 * pow10 p in
  let dpdx := poly (dash 0 (tl a)) x in
  let dxdD := 1 / (d * ln 10) in
  - dCdp * dpdx * dxdD.
(** Productionfn.py 107-109 *)
Definition poly_F10 (a : list R) (d10 a0 : R) : R := log10 (poly_F a (pow10 d10) a0).
(** Productionfn.py 122-125 *)
Definition poly_R (a : list R) (d a0 : R) : R := poly_F a d a0 / Rpower d (-3).
(** Productionfn.py 127-130 *)
Definition poly_H (a : list R) (d a0 : R) : R := poly_F a d a0 * d * (Rpower 2 (1 / 4) - Rpower 2 (- (1 / 4))).

(** Productionfn.py 51-62: tabular incremental root-2 *)
Record tabular := mkTab { tb_hC10 : list R; tb_dmin10 : list R; tb_dmean10 : list R }.
(** Productionfn.py 57 *)
Definition tab_dmin (idx : Z) (n : nat) : list R :=
  map (fun i => Rpower 2 (IZR (Z.of_nat i - idx) / 2)) (seq 0 n).
(** Productionfn.py 52-60; [h] and [idx] are the values read at 52-53 *)
Definition make_tabular (h : list R) (idx : Z) : res tabular :=
  let hC10 := map log10 (rev (cumsum (rev h))) in
  do! h1 <- pyindex hC10 idx;
  let d_min := tab_dmin idx (length h) in
  let d_mean := map (fun d => d * Rpower 2 (1 / 4)) d_min in
  Ok (mkTab (map (fun c => c - h1) hC10) (map log10 d_min) (map log10 d_mean)).

(** elementwise arithmetic of two arrays, as in Productionfn.py 161 *)
Definition zip (f : R -> R -> R) (a b : list R) : list R := map (fun p => f (fst p) (snd p)) (combine a b).
(** Productionfn.py 158-159, 164, 177-178, 183: 10 ** np.interp(d10, xs, log10(ys)) *)
Definition log_interp (d10 : R) (xs ys : list R) : res R :=
  do! y <- interp d10 (combine xs (map log10 ys)); Ok (pow10 y).

(** Productionfn.py 155 *)
Definition tab_c (t : tabular) (a0 : R) : list R := map (fun y => pow10 (y + a0)) (tb_hC10 t).
(** Productionfn.py 161 *)
Definition tab_h (t : tabular) (a0 : R) : list R :=
  let c := tab_c t a0 in zip Rminus c (tl c ++ [0]).
(** Productionfn.py 171-172: the slopes between bins *)
Definition tab_slopes (hC10 : list R) : res (list R) :=
  let k := zip (fun a b => (a - b) / log10 (sqrt 2)) hC10 (tl hC10 ++ firstn 1 hC10) in
  do! k2 <- pyindex k (-2); Ok (removelast k ++ [k2]).
(** Productionfn.py 167-174: the differential form at the bin means *)
Definition tab_f (t : tabular) (a0 : R) : res (list R) :=
  let bin_width0 := Rpower 2 (1 / 4) - Rpower 2 (- (1 / 4)) in
  let f_bin := zip (fun h d10 => h / pow10 d10 / bin_width0) (tab_h t a0) (tb_dmean10 t) in
  do! k <- tab_slopes (tb_hC10 t);
  Ok (zip (fun f k => f / bin_bias_correction (sqrt 2) k) f_bin k).
(** Productionfn.py 137-138, 152-159: the cumulative form, for a diameter given as log10 *)
Definition tab_C (t : tabular) (d10 a0 : R) : res R := log_interp d10 (tb_dmin10 t) (tab_c t a0).
(** Productionfn.py 140-141, 163-165: the Hartmann form *)
Definition tab_H (t : tabular) (d10 a0 : R) : res R := log_interp d10 (tb_dmean10 t) (tab_h t a0).
(** Productionfn.py 146-147, 176-178: the differential form *)
Definition tab_F (t : tabular) (d10 a0 : R) : res R :=
  do! f <- tab_f t a0; log_interp d10 (tb_dmean10 t) f.
(** Productionfn.py 149-150, 180-184: the R form *)
Definition tab_R (t : tabular) (d10 a0 : R) : res R :=
  do! f <- tab_f t a0;
  log_interp d10 (tb_dmean10 t) (zip (fun f d10 => f / Rpower (pow10 d10) (-3)) f (tb_dmean10 t)).

(** Productionfn.py 32-69: a production function; [Poly a lo hi] has coefficients a and range
    [lo,hi] (1e-4 .. 2e3 when the definition gives none; the float32 rounding of the range is left
    out), [Tab t] is a table whose range is its first and last d_mean. *)
Inductive productionfn := Poly (a : list R) (lo hi : R) | Tab (t : tabular).

(** Productionfn.py 85-92, the presentation dispatch; None is Python's None *)
Definition pf_value (pf : productionfn) (pres : string) (d a0 : R) : res (option R) :=
  let some (m : res R) := do! y <- m; Ok (Some y) in
  if String.eqb pres "cumulative" then
    match pf with Poly a _ _ => Ok (Some (poly_C a d a0)) | Tab t => some (tab_C t (log10 d) a0) end
  else if String.eqb pres "differential" then
    match pf with Poly a _ _ => Ok (Some (poly_F a d a0)) | Tab t => some (tab_F t (log10 d) a0) end
  else if String.eqb pres "R-plot" then
    match pf with Poly a _ _ => Ok (Some (poly_R a d a0)) | Tab t => some (tab_R t (log10 d) a0) end
  else if String.eqb pres "Hartmann" then
    match pf with Poly a _ _ => Ok (Some (poly_H a d a0)) | Tab t => some (tab_H t (log10 d) a0) end
  else Ok None.
(** Productionfn.py 83-84: [if not a0], which is also true of 0 *)
Definition effective_a0 (pf : productionfn) (a0 : option R) : res R :=
  match (match a0 with Some x => if Reqb x 0 then None else Some x | None => None end) with
  | Some x => Ok x
  | None => match pf with Poly a _ _ => pyindex a 0 | Tab _ => Ok 0 end
  end.
(** Productionfn.py 74-92 *)
Definition evaluate (pf : productionfn) (pres : string) (d : R) (a0 : option R) : res (option R) :=
  do! a <- effective_a0 pf a0; pf_value pf pres d a.

(** Productionfn.py 34-37, 61 *)
Definition pf_range (pf : productionfn) : res (R * R) :=
  match pf with
  | Poly _ lo hi => Ok (lo, hi)
  | Tab t => do! a <- pyindex (tb_dmean10 t) 0; do! b <- pyindex (tb_dmean10 t) (-1); Ok (pow10 a, pow10 b)
  end.
(** Productionfn.py 227: np.clip(x, lo, hi) = minimum(maximum(x, lo), hi) *)
Definition clip (lo hi x : R) : R := Rmin (Rmax x lo) hi.
(** Productionfn.py 215-231.  Without a0 the own a[0] is used, which a table does not have
    (AttributeError).  For an unknown presentation y is None; here that is the TypeError of its
    first use. *)
Definition pf_getplotdata (pf : productionfn) (pres : string) (a0 : option R) (range : option (R * R))
  : res (list (R * R)) :=
  do! a <- match a0 with
           | Some a => Ok a
           | None => match pf with Poly l _ _ => pyindex l 0 | Tab _ => Err AttributeError end
           end;
  do! own <- pf_range pf;
  let r := match range with Some r => r | None => own end in
  let r := (clip (fst own) (snd own) (fst r), clip (fst own) (snd own) (snd r)) in
  let ds := map pow10 (linspace (log10 (fst r)) (log10 (snd r)) 400) in
  mapM (fun d => do! y <- evaluate pf pres d (Some a);
                 match y with Some y => Ok (d, y) | None => Err TypeError end) ds.

(** gm/idl/value_locate.py 6-14 *)
Definition value_locate (x : list R) (v : R) : Z := (Z.of_nat (searchsorted x v) - 1)%Z.
(** Productionfn.py 234-251: with an equilibrium function; e['y'][j] wraps around for j = -1 *)
Definition getisochron (pf : productionfn) (pres : string) (a0 : R) (ef : option productionfn)
  : res (list (R * R)) :=
  do! iso <- pf_getplotdata pf pres (Some a0) None;
  match ef with
  | None => Ok iso
  | Some ef =>
      do! e <- pf_getplotdata ef pres None None;
      do! keep <- mapM (fun p => do! ey <- pyindex (map snd e) (value_locate (map fst e) (fst p));
                                 Ok (p, Rltb (snd p) (ey * (8 / 10)))) iso;
      Ok (map fst (filter snd keep))
  end.

(** Productionfn.py 204-208: the function that is fitted *)
Definition fit_function (pf : productionfn) (pres : string) : R -> R -> R :=
  fun d10 a0 =>
    if String.eqb pres "cumulative" then
      match pf with
      | Poly a _ _ => poly_C10 a d10 a0
      | Tab t => match interp d10 (combine (tb_dmin10 t) (map log10 (tab_c t a0))) with Ok y => y | Err _ => 0 end
      end
    else
      match pf with
      | Poly a _ _ => poly_F10 a d10 a0
      | Tab t => match tab_F t d10 a0 with Ok y => log10 y | Err _ => 0 end
      end.
(** Productionfn.py 187-212. [cfit f xs ys sigma] is scipy's curve_fit for a function of one parameter. Arguments are the arrays d, y, err of the points. *)
Definition fit (cfit : (R -> R -> R) -> list R -> list R -> list R -> R)
    (pf : productionfn) (pres : string) (d y err : list R) : res (list R) :=
  match d, y, err with
  | d0 :: dr, y0 :: yr, e0 :: er =>
      let '(d, y, err) := match yr with [] => ([d0; d0], [y0; y0], [e0; e0]) | _ => (d, y, err) end in
      do! sigma <- (if String.eqb pres "cumulative" then Ok (map (fun y => 1 / sqrt y) y)
                    else if String.eqb pres "differential" then Ok (map (fun e => 1 / sqrt e) err)
                    else Err NameError);
      let popt := cfit (fit_function pf pres) (map log10 d) (map log10 y) sigma in
      Ok [popt - 0; popt - (log10 y0 - log10 (y0 - 98 / 100 * e0)); popt - (log10 y0 - log10 (y0 + 98 / 100 * e0))]
  | _, _, _ => Err SysExit
  end.
