(** Cratercount.py 77-89, 150-166: tables of bins.  Definitions only. *)
From Coq Require Import String Ascii List ZArith Reals Bool.
From Verif Require Import Base NumModel BinModel StrModel FmtModel TsModel CountModel IoModel.
Import ListNotations.
Local Open Scope R_scope.

(** Cratercount.py 87-89: MakeBinNcum: it.accumulate over the reversed list, left in that order *)
Definition make_ncum (n : list R) : list R := cumsum (rev n).
(** Cratercount.py 150-166: ReadBinnedFile.  The frequencies are converted before they are put in order; a table has as many in each column, so
    that is the same.  binning stays None (21) *)
Definition read_binned (fs : files) (name : str) : res count :=
  do! s <- structure fs name;
  do! t <- dict_get s (L "table");
  do! diam <- float_column t (L "diameter");
  let q := sorted_positions diam in
  do! v <- dict_get s (L "area"); do! area <- float_of v;
  do! d <- take_at diam q;
  do! f <- float_column t (L "frequency"); do! n <- take_at f q;
  do! e <- (if has t (L "event_frequency") then do! g <- float_column t (L "event_frequency"); take_at g q else Ok n);
  do! hi <- upper_edges d;
  Ok (mkCount (mkCC [] area None true
                 (mkBinned d hi (map (fun p => snd p - fst p) (combine d hi)) (map (fun p => sqrt (fst p * snd p)) (combine d hi))
                    n e (make_ncum n) (make_ncum e)) None) None false).
(** Cratercount.py 79, 83: neighbours *)
Definition neighbours {A} (f : R -> R -> A) (l : list R) : list A := map (fun p => f (fst p) (snd p)) (combine l (tl l)).
(** Cratercount.py 77-85: MakeBinMin: lower limits and widths from the centres of the bins *)
Definition make_bin_min (d_mean : list R) : res (list R * list R) :=
  let d_min0 := neighbours (fun a b => sqrt (a * b)) d_mean in
  let width0 := neighbours (fun a b => b - a) d_mean in
  match d_mean, d_min0, rev d_mean, rev width0 with
  | m0 :: m1 :: _, x0 :: _, z1 :: z2 :: _, w1 :: _ =>
      do! a <- divide (x0 * m0) m1;
      do! w <- divide (w1 * z1) z2;
      Ok (a :: d_min0, width0 ++ [w])
  | _, _, _, _ => Err IndexError
  end.
