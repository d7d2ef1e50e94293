(** Craterpdf: the Poisson age distribution.  Definitions only. *)
From Coq Require Import String List ZArith Reals Bool.
From Verif Require Import Base NumModel BinModel ChronModel.
Import ListNotations.
Local Open Scope R_scope.

(** Craterpdf.py 43-45: k from the diameters *)
Definition count_range (diam : list R) (lo hi : R) : nat :=
  length (filter (fun e => Rleb lo e && Rltb e hi) diam).
(** Craterpdf.py 46-49: k from a binned-only count *)
Definition count_bins (bd : binned) (lo hi : R) : R :=
  Rsum (map snd (filter (fun p => Rleb lo (fst (fst p)) && Rleb (snd (fst p)) hi)
                   (combine (combine (b_dmin bd) (b_dmax bd)) (b_nevent bd)))).
(** Craterpdf.py 41-49: which of the two.  An empty diameter list is "false" in Python. *)
Definition poisson_k (k : option R) (diam : list R) (bd : binned) (lo hi : R) : R :=
  match k with
  | Some k => k
  | None => match diam with [] => count_bins bd lo hi | _ => INR (count_range diam lo hi) end
  end.

(** gm/maths/poisson.py 22 (scipy's pmf) for a natural k *)
Definition poisson_pmf (k : nat) (lam : R) : R := lam ^ k * exp (- lam) / INR (fact k).

(** np.roll(l, 1), as in Craterpdf.py 38, 245 *)
Definition roll1 (l : list R) : list R :=
  match l with [] => [] | _ => last l 0 :: removelast l end.
(** l[i] = v, as in Craterpdf.py 39, 68 *)
Definition set_nth (i : nat) (v : R) (l : list R) : list R := firstn i l ++ v :: skipn (S i) l.

(** the product of two arrays, as in Craterpdf.py 70-71 *)
Definition zipmul (a b : list R) : list R := map (fun p => fst p * snd p) (combine a b).

(** Craterpdf.py 37-38, 70-71: the fields ts, dt, pdf and cdf *)
Record pdf := mkPdf { pdf_ts : list R; pdf_dt : list R; pdf_pdf : list R; pdf_cdf : list R }.

(** Craterpdf.py 37-39: dt, with its first element replaced by the second *)
Definition make_dt (ts : list R) : res (list R) :=
  let d := map (fun p => fst p - snd p) (combine ts (roll1 ts)) in
  do! d1 <- pyindex d 1; Ok (set_nth 0 d1 d).

(** Craterpdf.py 65-71, given ts, lam, k and the rate function *)
Definition pdf_from (ts lam : list R) (ph : R -> R) (k : nat) : res pdf :=
  do! dt <- make_dt ts;
  let pdf0 := map (fun p => poisson_pmf k (fst p) * ph (snd p)) (combine lam ts) in
  do! pdf1 <- (if Rltb (Rsum pdf0) (pow10 (-30)) then
                 let j := searchsorted lam (INR k) in
                 if Nat.ltb j (length pdf0) then Ok (set_nth j 1 pdf0) else Err IndexError
               else Ok pdf0);
  let s := Rsum (zipmul pdf1 dt) in
  if Reqb s 0 then Err NotANumber
  else
    let p := map (fun x => x / s) pdf1 in
    Ok (mkPdf ts dt p (cumsum (zipmul p dt))).

(** Craterpdf.py 35, 61-63: the standard count's lambda for each sample x; C1 and C2 are
    pf.evaluate('cumulative', lo/hi, a0) *)
Definition lam_standard (xs : list R) (C1 C2 area : R) : list R :=
  map (fun x => (pow10 (log10 C1 + x) - pow10 (log10 C2 + x)) * area) xs.
(** Craterpdf.py 52-60: the buffered count's lambda; I1 is the Simpson integral of
    (A + d*P/2 + pi d^2/4) F(d), an external computation *)
Definition lam_buffered (xs : list R) (I1 : R) : list R := map (fun x => pow10 (log10 I1 + x)) xs.

(** Craterpdf.py 23-71 for a standard count without the optional argument lam.
    [C] is pf.evaluate('cumulative', d, a0). *)
Definition craterpdf (cf : chron) (C : R -> R -> R) (area lo hi : R) (k : nat) (n_samples : nat) : res pdf :=
  let xs := linspace (-10) 5 n_samples in
  let a0 := cf_a0 cf 1 in
  let ts := map (fun x => cf_t_a0 cf (a0 + x)) xs in
  pdf_from ts (lam_standard xs (C lo a0) (C hi a0) area) (phi cf) k.
(** Craterpdf.py 51: the truth value of the argument lam when it is a numpy array *)
Definition array_truth (l : list R) : res bool :=
  match l with [] => Ok false | [x] => Ok (negb (Reqb x 0)) | _ => Err ValueError end.
(** Craterpdf.py 23-71 with the optional argument lam, given as an array (its only use in the
    package is Craterplotset.py 783); an array of size one is broadcast *)
Definition craterpdf_lam (cf : chron) (C : R -> R -> R) (area lo hi : R) (k : nat) (lam : list R) (n_samples : nat) : res pdf :=
  do! given <- array_truth lam;
  if given then
    let ts := map (fun x => cf_t_a0 cf (cf_a0 cf 1 + x)) (linspace (-10) 5 n_samples) in
    pdf_from ts (map (fun _ => hd 0 lam) ts) (phi cf) k
  else craterpdf cf C area lo hi k n_samples.
(** Craterpdf.py 23-71, the same for a buffered count; without a perimeter the program exits (53-54) *)
Definition craterpdf_buffered (cf : chron) (perimeter : option R) (I1 : R -> R) (k : nat) (n_samples : nat) : res pdf :=
  let xs := linspace (-10) 5 n_samples in
  let a0 := cf_a0 cf 1 in
  let ts := map (fun x => cf_t_a0 cf (a0 + x)) xs in
  match perimeter with
  | None => Err SysExit
  | Some per => pdf_from ts (lam_buffered xs (I1 per)) (phi cf) k
  end.

(** Craterpdf.py 74-81 *)
Definition pdf_t (p : pdf) (fraction : R) : R :=
  match interp fraction (combine (pdf_cdf p) (pdf_ts p)) with Ok t => t | Err _ => 0 end.
(** Craterpdf.py 83-90 *)
Definition cumulative_fraction (p : pdf) (t : R) : R :=
  match interp t (combine (pdf_ts p) (pdf_cdf p)) with Ok c => c | Err _ => 0 end.

(** Craterpdf.py 101-112; math.erf is external *)
Fixpoint gaussian_percentiles (erf : R -> R) (n : nat) : list R :=
  match n with
  | O => [1 / 2]
  | S m => let f := (1 - erf (INR n / sqrt 2)) / 2 in [f] ++ gaussian_percentiles erf m ++ [1 - f]
  end.
(** Craterpdf.py 114-121 *)
Definition median1sigma (erf : R -> R) (p : pdf) : list R :=
  let g := gaussian_percentiles erf 1 in
  map (fun i => pdf_t p (nth i g 0)) [1; 0; 2]%nat.

(** Craterpdf.py 236-247 *)
Definition sequence_probability (p q : pdf) : R :=
  let cdf2 := map (fun c => (fst c + snd c) / 2) (combine (pdf_cdf q) (roll1 (pdf_cdf q))) in
  Rsum (zipmul (zipmul (pdf_dt p) (pdf_pdf p)) cdf2).

(** Craterpdf.py 92-99 *)
Definition relative_probability (p : pdf) (t : R) : R :=
  match interp t (combine (pdf_ts p) (pdf_pdf p)) with Ok c => c | Err _ => 0 end.

(** Craterplotset.py 755-769: cells of the sequence table in row i, column j (the first column
    holds the name); sigfigs formatting is left out *)
Definition sequence_cell (l : list pdf) (i j : nat) : option R :=
  let nopdf := mkPdf [] [] [] [] in
  if Nat.ltb i j then Some (1 - sequence_probability (nth i l nopdf) (nth j l nopdf))
  else if Nat.ltb j i then Some (sequence_probability (nth j l nopdf) (nth i l nopdf))
  else None.
(** Craterplotset.py 755-783: a plot in the sequence table: what Craterpdf needs, and the lam array of its own pdf *)
Record seqplot := mkSeqplot {
  sq_area : R; sq_lo : R; sq_hi : R; sq_k : nat; sq_lam : list R; sq_pdf : pdf }.
(** Craterplotset.py 745-797: nothing for fewer than two plots; otherwise the cells are computed,
    then the second calculation builds new pdfs with lam given, then the file is written.  The
    statistics computed from the new pdfs are left out. *)
Definition create_sequence_table (cf : chron) (C : R -> R -> R) (n_samples : nat) (l : list seqplot)
  : res (option (list (list (option R)))) :=
  let n := length l in
  if Nat.ltb n 2 then Ok None
  else
    let pdfs := map sq_pdf l in
    let cells := map (fun i => map (sequence_cell pdfs i) (seq 0 n)) (seq 0 n) in
    let t := map (fun p => pdf_t p (1 / 2)) pdfs in
    let t_mean := Rsum t / INR n in
    do! pdf2 <- mapM (fun st => let lr := N1 cf (snd st) / N1 cf t_mean in
                      craterpdf_lam cf C (sq_area (fst st)) (sq_lo (fst st)) (sq_hi (fst st)) (sq_k (fst st))
                        (map (fun x => x * lr) (sq_lam (fst st))) n_samples) (combine l t);
    Ok (Some cells).
