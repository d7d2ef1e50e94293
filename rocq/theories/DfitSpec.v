(** Vocabulary for the statements about ages of differential fits. *)
From Coq Require Import String List ZArith Reals Sorted.
From Verif Require Import Base BinSpec ProdSpec EndSpec.
Import ListNotations.
Local Open Scope R_scope.

(** zs are the numbers of the bins of the range that have craters, smallest first *)
Definition bins_fitted (b : string) (lo hi : R) (craters : list (R * R)) (zs : list Z) : Prop :=
  StronglySorted Z.lt zs /\ forall z, In z zs <-> occupied b lo hi craters z.
(** the middle of bin z, on the logarithmic scale *)
Definition centre (b : string) (z : Z) : R := sqrt (grid b 0 z * grid b 0 (z + 1)).
(** the isochron with one crater of 1 km or larger per km2, in craters of x km or larger per km2 *)
Definition unit_isochron (a : list R) (x : R) : R := pow10 (series 1 a (log10 x)).
(** the exponent of the power law through the isochron C at the ends of a bin *)
Definition bin_exponent (C : R -> R) (lo hi : R) : R := log10 (C hi / C lo) / log10 (hi / lo).
(** mean density of craters per km of diameter over a bin with ends in the ratio q, divided by that in the middle of the bin, for a power law with the
    cumulative exponent k; 1 for exponents that are nearly zero *)
Definition mean_to_middle (q k : R) : R :=
  if Rlt_dec (Rabs k) (1 / 100000) then 1 else (Rpower q (k / 2) - Rpower q (- k / 2)) / (k * (sqrt q - 1 / sqrt q)).
(** the mean of v over the bins zs with weights w *)
Definition mean_over (w v : Z -> R) (zs : list Z) : R := Rsum (map (fun z => w z * v z) zs) / Rsum (map w zs).
