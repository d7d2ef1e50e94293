(** One age measurement: Craterplot.py calculate_age, which joins the count, the production function, the fit, the Poisson
    distribution and the chronology.  Definitions only. *)
From Coq Require Import String List ZArith Reals Bool.
From Verif Require Import Base NumModel BinModel ChronModel CountModel ProdModel PdfModel.
Import ListNotations.
Local Open Scope R_scope.

(** As computed in Productionfn.py 211 and Craterplot.py 79: a number of numpy that may have left the reals *)
Inductive value := Num (x : R) | MinusInf | Nan.
(** np.log10, as in Productionfn.py 211 and Chronologyfn.py 70 *)
Definition np_log10 (x : R) : value := if Rltb 0 x then Num (log10 x) else if Reqb x 0 then MinusInf else Nan.
(** the sum of a number and a value, as in Productionfn.py 211 *)
Definition plus (c : R) (v : value) : value := match v with Num x => Num (c + x) | v => v end.
(** Chronologyfn.py 80-85: 10**a0 is 0 for minus infinity; np.interp passes nan on *)
Definition value_t (cf : chron) (v : value) : value :=
  match v with Num a => Num (cf_t_a0 cf a) | MinusInf => Num (cf_t cf 0) | Nan => Nan end.

(** Productionfn.py 187-212 with the limits that are not numbers: [fit] of ProdModel gives the three values for positive arguments of
    the logarithm.  A point whose logarithm is not finite makes curve_fit fail with ValueError. *)
Definition fit_values (cfit : (R -> R -> R) -> list R -> list R -> list R -> R) (pf : productionfn) (pres : string) (pts : list point)
  : res (list value) :=
  if forallb (fun p => Rltb 0 (pt_y p)) pts then
    do! f <- fit cfit pf pres (map pt_d pts) (map pt_y pts) (map pt_err pts);
    match f, pts with
    | best :: _, p :: _ =>
        let off x := plus (best - log10 (pt_y p)) (np_log10 x) in
        Ok [Num best; off (pt_y p - 98 / 100 * pt_err p); off (pt_y p + 98 / 100 * pt_err p)]
    | _, _ => Err IndexError
    end
  else Err ValueError.

(** Cratercount.py 364-365, 419: what [getplotdata] uses of a production function (CountModel), for one built by ProdModel; where an evaluation has no value
    (which does not happen for a built function) 0 is taken *)
Definition number (m : res (option R)) : R := match m with Ok (Some y) => y | _ => 0 end.
(** Cratercount.py 364-365, 419: a production function as [getplotdata] uses it *)
Definition as_prodfn (cfit : (R -> R -> R) -> list R -> list R -> list R -> R) (pf : productionfn) : prodfn :=
  mkPF (fun d => number (evaluate pf "cumulative" d None))
       (fun d a0 => number (evaluate pf "cumulative" d (Some a0)))
       (fun d y err => match fit cfit pf "cumulative" d y err with Ok (a :: _) => a | _ => 0 end).

(** Craterplot.py 76: np.clip for an upper limit that may be infinite *)
Definition clip_ext (lo hi : R) (x : ext) : R := match x with Fin a => clip lo hi a | Inf => hi end.

(** Craterpdf.py 23: n_samples, 5000 *)
Definition pdf_samples : nat := 50 * 100.

(** Craterplot.py 78-97: what calculate_age sets *)
Record measurement := mkMeas {
  m_t : list value; m_a0 : list value; m_n : R; m_nevent : R; m_bins : option (R * R); m_nd : option R }.

(** Craterplot.py 74-89: the ways of measuring an age *)
Inductive method := CFit (resurf : bool) | DFit | Poisson | BPoisson.

(** Craterplot.py 69-97.  [I1] is the Simpson integral of the buffered count as a function of the limits and the perimeter (PdfModel);
    the count of a Poisson age is that of a list of craters (a count read as bins only is left out); the density (97) is None if the
    best a0 is not a number. *)
Definition calculate_age (erf : R -> R) (cfit : (R -> R -> R) -> list R -> list R -> list R -> R) (I1 : R -> R -> R -> R)
    (pf : productionfn) (cf : chron) (ref : R)
    (s : cratercount) (perimeter : option R) (binning : string) (range : R * ext) (m : method) : res measurement :=
  let density (a0 : list value) : res (option R) :=
    match a0 with
    | Num a :: _ => do! y <- evaluate pf "cumulative" ref (Some a); Ok y
    | _ => Ok None
    end in
  let by_fit pres resurfacing pf' :=
    do! p0 <- fst (getplotdata s pres binning (Some range) (Some resurfacing) false (Some pf'));
    do! a0 <- fit_values cfit pf pres (pd_points p0);
    do! nd <- density a0;
    Ok (mkMeas (map (value_t cf) a0) a0 (pd_n p0) (pd_nevent p0) (Some (pd_bin_range p0)) nd) in
  let by_pdf (make : R -> R -> nat -> res pdf) :=
    do! own <- pf_range pf;
    let lo := clip (fst own) (snd own) (fst range) in
    let hi := clip_ext (fst own) (snd own) (snd range) in
    let k := count_range (map fst (cc_craters s)) lo hi in
    do! p <- make lo hi k;
    let t := median1sigma erf p in
    let a0 := map (fun x => np_log10 (N1 cf x)) t in
    do! nd <- density a0;
    Ok (mkMeas (map Num t) a0 (INR k) (INR k) None nd) in
  match m with
  | CFit resurf => by_fit "cumulative"%string (if resurf then 1%Z else 0%Z) (as_prodfn cfit pf)
  | DFit => by_fit "differential"%string 0%Z (as_prodfn cfit pf)
  | Poisson => by_pdf (fun lo hi k => craterpdf cf (fun d a => number (evaluate pf "cumulative" d (Some a))) (cc_area s) lo hi k pdf_samples)
  | BPoisson => by_pdf (fun lo hi k => craterpdf_buffered cf perimeter (I1 lo hi) k pdf_samples)
  end.
