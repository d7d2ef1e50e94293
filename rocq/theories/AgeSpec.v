(** Vocabulary for the statements about age measurements. *)
From Coq Require Import List Reals.
From Verif Require Import Base BinSpec BinModel ChronModel ChronSpec CountModel CountSpec ProdModel ProdSpec.
Import ListNotations.
Local Open Scope R_scope.

(** the populated bins inside the range lo..hi, smallest first *)
Definition bins_used (craters : list (R * R)) (lo hi : R) (dmin dmax : list R) : list (R * R) :=
  filter (fun e => if Rle_dec lo (fst e) then if Rle_dec (snd e) hi then true else false else false)
         (populated_bins craters dmin dmax).

(** t is the age, in Ga, of a surface with n craters of 1 km and larger per km2: never older than the exact age, and younger by at most
    one step of the chronology's table; 5 Ga for what the chronology cannot reach by then *)
Definition age_of (cf : chron) (n t : R) : Prop :=
  0 <= t <= 5 /\ (forall T, 0 <= T <= 5 -> N1 cf T = n -> T - age_step <= t <= T) /\ (N1 cf 5 <= n -> t = 5).

(** best is the parameter that minimises the weighted sum of squares between the logarithms of the measured densities y at the diameters
    d and those of the production function in a presentation *)
Definition best_fit (pf : productionfn) (pres : String.string) (w d y : list R) (best : R) : Prop :=
  forall model, (forall x a, In x d -> pf_value pf pres x a = Ok (Some (model x a)) /\ 0 < model x a) ->
    minimises (log_misfit model w d y) best.
