(** Craterpdf: the density at one age relative to that at the median age.  Definitions only. *)
From Coq Require Import String List ZArith Reals Bool.
From Verif Require Import Base NumModel BinModel ChronModel PdfModel.
Import ListNotations.
Local Open Scope R_scope.

(** Craterpdf.py 249-258: v = np.interp([self.t(0.5),t], self.ts, self.pdf); v[1]/v[0].  A division
    by zero gives inf or nan in numpy, here NotANumber. *)
Definition instantaneous_ratio (p : pdf) (t : R) : res R :=
  let tbl := combine (pdf_ts p) (pdf_pdf p) in
  do! v <- mapM (fun x => interp x tbl) [pdf_t p (1 / 2); t];
  do! v1 <- pyindex v 1;
  do! v0 <- pyindex v 0;
  if Reqb v0 0 then Err NotANumber else Ok (v1 / v0).
