(** Specification vocabulary for the Cratercount object. *)
From Coq Require Import String List ZArith Reals Bool.
From Verif Require Import Base BinModel BinSpec CountModel.
Import ListNotations.
Local Open Scope R_scope.

(** The public calls that can precede another call on the same object. *)
Inductive call :=
| CApply (binning : string) (offset : R)
| CDecode (lo hi : limit) (binning : string) (snap : bool)
| CPlot (pres binning : string) (range : option (R * ext)) (resurf : option Z) (showall : bool) (pf : option prodfn)
| CWriteStat (binning : string).

(** State after a call (WriteStatFile, Cratercount.py 197-229, changes the object only by
    re-binning, 199-201).  An exception ends the call, not the object. *)
Definition after_call (s : cratercount) (c : call) : cratercount :=
  match c with
  | CApply b off => snd (do_apply s b off)
  | CDecode lo hi b snap => snd (decode_range s lo hi b snap)
  | CPlot pres b range rs sa pf => snd (getplotdata s pres b range rs sa pf)
  | CWriteStat b => snd (ensure_binning s b)
  end.
Definition after_calls (s : cratercount) (h : list call) : cratercount := fold_left after_call h s.

(** An object just constructed from a crater list (Cratercount.py 17-51). *)
Definition fresh (craters : list (R * R)) (area : R) : cratercount :=
  mkCC craters area None false empty_binned None.

(** Contiguous ascending bins, each at least 1% wide, with geometric means. *)
Record good_bins (bd : binned) : Prop := {
  gb_len1 : length (b_dmax bd) = length (b_dmin bd);
  gb_len2 : length (b_dmean bd) = length (b_dmin bd);
  gb_len3 : length (b_n bd) = length (b_dmin bd);
  gb_ne : (0 < length (b_dmin bd))%nat;
  gb_pos : forall i, (i < length (b_dmin bd))%nat -> 0 < nth i (b_dmin bd) 0;
  gb_ratio : forall i, (i < length (b_dmin bd))%nat -> nth i (b_dmin bd) 0 * 1.01 < nth i (b_dmax bd) 0;
  gb_contig : forall i, (S i < length (b_dmin bd))%nat -> nth i (b_dmax bd) 0 = nth (S i) (b_dmin bd) 0;
  gb_mean : forall i, (i < length (b_dmin bd))%nat ->
     nth i (b_dmean bd) 0 = sqrt (nth i (b_dmin bd) 0 * nth i (b_dmax bd) 0) }.

(** number of populated bins in a list of bin contents *)
Fixpoint populated (n : list R) : nat :=
  match n with [] => O | x :: r => (if Rlt_dec 0 x then 1 else 0) + populated r end%nat.

(** bin [i] is the populated bin preceded by exactly [k] populated bins *)
Definition is_populated_no (n : list R) (k i : nat) : Prop :=
  (i < length n)%nat /\ 0 < nth i n 0 /\ populated (firstn i n) = k.

(** what the bin number in 'bN' means, 0-based: N-th from below for N>0, |N|-th from above for
    N<0, beyond the ends the first/last *)
Definition bin_number (p : nat) (v : Z) : nat :=
  if Z.ltb 0 v then Nat.pred (Nat.min (Z.to_nat v) p) else
  if Z.ltb v 0 then (p - Nat.min (Z.to_nat (- v)) p)%nat else O.

(** The point a bin [lo,hi) should give in each presentation, in terms of the craters.
    [slope] is the local log-log slope of the production function used for the bias. *)
Definition expected_point (pres : string) (slope : R -> R -> R) (craters : list (R * R)) (area lo hi : R) : point :=
  let D := sqrt (lo * hi) in
  let N := fraction_between lo hi craters in
  let K := INR (number_between lo hi craters) in
  let density := N / (area * (hi - lo)) in
  if String.eqb pres "cumulative" then
    mkPt lo (fraction_from lo craters / area) (fraction_from lo craters / area / sqrt (INR (number_from lo craters)))
  else if String.eqb pres "incremental" then mkPt D (N / area) (N / area / sqrt K)
  else if String.eqb pres "Hartmann" then
    mkPt D (density * (D * (sqrt 2 - 1))) (density * (D * (sqrt 2 - 1)) / sqrt K)
  else if String.eqb pres "differential" then
    mkPt D (density / bin_bias_correction (hi / lo) (slope lo hi)) (density / sqrt K)
  else mkPt D (D ^ 3 * density) (D ^ 3 * density / sqrt K).

(** log-log slope of the cumulative production function between lo and hi, -3 without one *)
Definition pf_slope (pf : option prodfn) (lo hi : R) : R :=
  match pf with
  | Some p => log10 (pf_C p hi / pf_C p lo) / log10 (hi / lo)
  | None => -3
  end.

(** The populated bins among the bins with edges [dmin], [dmax]. *)
Definition populated_bins (craters : list (R * R)) (dmin dmax : list R) : list (R * R) :=
  filter (fun e => if Rlt_dec 0 (fraction_between (fst e) (snd e) craters) then true else false)
         (combine dmin dmax).
