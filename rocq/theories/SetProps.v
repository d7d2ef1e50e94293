(** C40, C73: the automatic ranges and the place of the randomness strip. *)
From Coq Require Import String List Ascii ZArith Reals Lra Lia Bool Sorted.
Import ListNotations.
From Verif Require Import Base StrModel NumModel NumLemmas FmtModel SetModel SetSpec SetProofs.
Local Open Scope R_scope.

Lemma my_margin p : my_of (is_diff p) = y_margin p.
Proof. destruct p; reflexivity. Qed.
Lemma span_le P a b : spans P a b -> a <= b.
Proof. intros (_ & H & B). destruct (B b H). lra. Qed.
Lemma strip_y_fst s hy yr : fst (strip_y s hy yr) = fst yr.
Proof. destruct s; reflexivity. Qed.
Lemma strip_y_snd s hy yr : (snd yr <= snd (strip_y s hy yr))%Z.
Proof. destruct s; cbn; lia. Qed.

(** * C40 *)
Theorem C40_shows_all_data : forall p strip plots, first_has_point plots -> all_positive plots ->
  exists (x0 x1 y0 y1 : Z) top, autoscale p strip plots None None = Ok ((IZR x0, IZR x1), (IZR y0, IZR y1), top) /\
    shows p plots x0 x1 y0 y1 /\
    (y1 - y0 = y_per_x p * (x1 - x0))%Z.
Proof.
  intros p strip plots F P. destruct (autoscale_eq p strip plots None None F P) as (lx & hx & ly & hy & SX & SY & E).
  destruct (auto_ranges_spec (is_diff p) strip lx hx ly hy (span_le _ _ _ SX) (span_le _ _ _ SY)) as (l & r & b & t & S). cbv zeta in S. destruct S as (A & (L0 & R0 & B0 & T0) & AS & _).
  rewrite A in E. cbn [fst snd or_else] in E. unfold widen, real_range in E. cbn [fst snd] in E.
  pose proof (strip_y_fst strip hy (first_y (is_diff p) ly hy)) as Y0. pose proof (strip_y_snd strip hy (first_y (is_diff p) ly hy)) as Y1.
  destruct (strip_y strip hy (first_y (is_diff p) ly hy)) as [y0 y1] eqn:YE. cbn [fst snd] in *.
  unfold first_x, first_y in *. cbn [fst snd] in *. rewrite my_margin in *.
  eexists _, _, _, _, _. split; [exact E|]. split; [|clear - AS; destruct p; cbn [is_diff presentation_eqb y_per_x] in *; lia].
  intros d y I. destruct SX as (_ & _ & SX). destruct SY as (_ & _ & SY). destruct (SX (log10 d)) as [X1 X2]; [exists d, y; auto|]. destruct (SY (log10 y)) as [V1 V2]; [exists d, y; auto|].
  pose proof (Rfloor_spec (lx - 3 / 10)). pose proof (Rceil_spec (hx + 8 / 10)). pose proof (Rfloor_spec (ly - y_margin p)). pose proof (Rceil_spec (hy + y_margin p)).
  rewrite <- Y0 in *. apply IZR_le in Y1, L0, R0, B0, T0. rewrite !plus_IZR, !minus_IZR. lra.
Qed.
Print Assumptions C40_shows_all_data.

(** without the strip, no ranges of fewer decades would do *)
Theorem C40_smallest : forall p plots, first_has_point plots -> all_positive plots -> forall x0 x1 y0 y1 : Z,
  autoscale p false plots None None = Ok ((IZR x0, IZR x1), (IZR y0, IZR y1), None) ->
  forall a0 a1 b0 b1 : Z, shows p plots a0 a1 b0 b1 -> (b1 - b0 = y_per_x p * (a1 - a0))%Z -> (x1 - x0 <= a1 - a0 /\ y1 - y0 <= b1 - b0)%Z.
Proof.
  intros p plots F P x0 x1 y0 y1 E' a0 a1 b0 b1 SH AB. destruct (autoscale_eq p false plots None None F P) as (lx & hx & ly & hy & SX & SY & E).
  destruct (auto_ranges_spec (is_diff p) false lx hx ly hy (span_le _ _ _ SX) (span_le _ _ _ SY)) as (l & r & b & t & S). cbv zeta in S. destruct S as (A & (L0 & R0 & B0 & T0) & AS & OR & _).
  rewrite A in E. cbn [fst snd or_else] in E. unfold widen, real_range, strip_y, first_x, first_y in *. cbn [fst snd] in *. rewrite my_margin in *. rewrite E' in E. injection E as E1 E2 E3 E4.
  apply eq_IZR in E1, E2, E3, E4.
  destruct SX as ((d1 & v1 & I1 & X1) & (d2 & v2 & I2 & X2) & _). destruct SY as ((d3 & v3 & I3 & X3) & (d4 & v4 & I4 & X4) & _).
  destruct (SH _ _ I1) as [[G1 _] _]. destruct (SH _ _ I2) as [[_ G2] _]. destruct (SH _ _ I3) as [_ [G3 _]]. destruct (SH _ _ I4) as [_ [_ G4]].
  rewrite <- X1 in G1. rewrite <- X2 in G2. rewrite <- X3 in G3. rewrite <- X4 in G4.
  pose proof (Rfloor_spec (lx - 3 / 10)). pose proof (Rceil_spec (hx + 8 / 10)). pose proof (Rfloor_spec (ly - y_margin p)). pose proof (Rceil_spec (hy + y_margin p)).
  assert (K1 : (a0 <= Rfloor (lx - 3 / 10))%Z) by (apply Z.lt_succ_r, lt_IZR; rewrite succ_IZR; lra).
  assert (K2 : (Rceil (hx + 8 / 10) <= a1)%Z) by (apply Z.lt_succ_r, lt_IZR; rewrite succ_IZR; lra).
  assert (K3 : (b0 <= Rfloor (ly - y_margin p))%Z) by (apply Z.lt_succ_r, lt_IZR; rewrite succ_IZR; lra).
  assert (K4 : (Rceil (hy + y_margin p) <= b1)%Z) by (apply Z.lt_succ_r, lt_IZR; rewrite succ_IZR; lra).
  clear - E1 E2 E3 E4 K1 K2 K3 K4 AS OR AB L0 R0 B0 T0. destruct p; cbn [is_diff presentation_eqb y_per_x] in *; lia.
Qed.
Print Assumptions C40_smallest.

(** the decades added to reach the aspect are shared evenly between the two sides; an odd one goes, on the y axis and
    on the x axis of the differential plot, where less room was left *)
Theorem C40_padding : forall p plots, first_has_point plots -> all_positive plots -> forall lx hx ly hy,
  spans (log_diameter plots) lx hx -> spans (log_density plots) ly hy -> forall x0 x1 y0 y1 : Z,
  autoscale p false plots None None = Ok ((IZR x0, IZR x1), (IZR y0, IZR y1), None) ->
  exists f0 f1 g0 g1 : Z,
    (* the ranges before padding *)
    IZR f0 <= lx - 3 / 10 < IZR f0 + 1 /\ IZR f1 - 1 < hx + 8 / 10 <= IZR f1 /\
    IZR g0 <= ly - y_margin p < IZR g0 + 1 /\ IZR g1 - 1 < hy + y_margin p <= IZR g1 /\
    (Z.abs ((f0 - x0) - (x1 - f1)) <= 1 /\ Z.abs ((g0 - y0) - (y1 - g1)) <= 1)%Z /\
    ((f0 - x0 < x1 - f1)%Z -> if is_diff p then hx - IZR f1 > IZR f0 - lx + 5 / 10 else hx - IZR f1 <= IZR f0 - lx + 5 / 10) /\
    ((x1 - f1 < f0 - x0)%Z -> if is_diff p then hx - IZR f1 <= IZR f0 - lx + 5 / 10 else hx - IZR f1 > IZR f0 - lx + 5 / 10) /\
    ((g0 - y0 < y1 - g1)%Z -> IZR g1 - hy < ly - IZR g0) /\
    ((y1 - g1 < g0 - y0)%Z -> ly - IZR g0 <= IZR g1 - hy).
Proof.
  intros p plots F P lx hx ly hy SX SY x0 x1 y0 y1 E'. destruct (autoscale_eq p false plots None None F P) as (lx' & hx' & ly' & hy' & SX' & SY' & E).
  destruct (spans_unique _ _ _ _ _ SX' SX) as [-> ->]. destruct (spans_unique _ _ _ _ _ SY' SY) as [-> ->].
  destruct (auto_ranges_spec (is_diff p) false lx hx ly hy (span_le _ _ _ SX) (span_le _ _ _ SY)) as (l & r & b & t & S). cbv zeta in S. destruct S as (A & _ & _ & _ & BAL & BT & TB & LR & RL).
  rewrite A in E. cbn [fst snd or_else] in E. unfold widen, real_range, strip_y, first_x, first_y, left_big, bottom_big in *. cbn [fst snd] in *. rewrite my_margin in *.
  rewrite E' in E. injection E as E1 E2 E3 E4. apply eq_IZR in E1, E2, E3, E4.
  exists (Rfloor (lx - 3 / 10)), (Rceil (hx + 8 / 10)), (Rfloor (ly - y_margin p)), (Rceil (hy + y_margin p)).
  repeat (split; [first [apply Rfloor_spec|apply Rceil_spec]|]).
  set (f0 := Rfloor (lx - 3 / 10)) in *. set (f1 := Rceil (hx + 8 / 10)) in *. set (g0 := Rfloor (ly - y_margin p)) in *. set (g1 := Rceil (hy + y_margin p)) in *.
  assert (EL : (f0 - x0 = l)%Z) by lia. assert (ER : (x1 - f1 = r)%Z) by lia. assert (EB : (g0 - y0 = b)%Z) by lia. assert (ET : (y1 - g1 = t)%Z) by lia. rewrite EL, ER, EB, ET.
  split; [lia|]. split; [intros H; specialize (LR H)|split; [intros H; specialize (RL H)|split; [intros H; specialize (BT H)|intros H; specialize (TB H)]]];
    first [destruct (is_diff p)|idtac]; cbn [negb] in *; rb; lra.
Qed.
Print Assumptions C40_padding.

Theorem C40_forced : forall p strip plots xf yf xr yr top,
  autoscale p strip plots None None = Ok (xr, yr, top) ->
  autoscale p strip plots xf yf = Ok (match xf with Some r => r | None => xr end, match yf with Some r => r | None => yr end, top).
Proof.
  intros p strip plots xf yf xr yr top. unfold autoscale. destruct (ranges_of plots); [discriminate|].
  set (m1 := py_min _). set (m2 := py_max _). set (m3 := py_min _). set (m4 := py_max _). destruct m1 as [m1|]; [|discriminate]. destruct m2 as [m2|]; [|discriminate].
  destruct m3 as [m3|]; [|discriminate]. destruct m4 as [m4|]; [|discriminate]. cbn [bind or_else].
  set (T := match m1 with Some x0 => _ | None => _ end). destruct T as [[a b] c]. intros H. injection H as -> -> ->. destruct xf, yf; reflexivity.
Qed.
Print Assumptions C40_forced.

(** with no plot that can be drawn it fails, with the ranges given as well *)
Theorem C40_no_plot_refuted : forall p strip plots xf yf, Forall (fun q => exists e, q = Err e) plots ->
  autoscale p strip plots xf yf = Err TypeError.
Proof. intros p strip plots xf yf H. unfold autoscale. now rewrite (ranges_errs plots H). Qed.
Print Assumptions C40_no_plot_refuted.

(** with an empty plot before all others the ranges are the defaults, whatever the other plots hold *)
Theorem C40_empty_first_refuted :
  (forall p strip post, autoscale p strip (Ok [] :: post) None None = Ok (fst (default_ranges p), snd (default_ranges p), None)) /\
  exists d y, 0 < d /\ 0 < y /\ ~ (exists xr yr t, autoscale Cumulative false [Ok []; Ok [(d, y)]] None None = Ok (xr, yr, t) /\ fst xr <= log10 d <= snd xr).
Proof.
  assert (A : forall p strip post, autoscale p strip (Ok [] :: post) None None = Ok (fst (default_ranges p), snd (default_ranges p), None)).
  { intros p strip post. unfold autoscale. cbn [ranges_of flat_map get_data_range bind gm_range map app fst snd lows highs option_map]. unfold py_min, py_max, py_best.
    rewrite !best_none. reflexivity. }
  split; [exact A|]. exists 1000, 1. split; [lra|]. split; [lra|]. intros (xr & yr & t & E & B). rewrite A in E. injection E as <- _ _. cbn [default_ranges fst snd] in B.
  assert (L : log10 1000 = 3) by (replace 1000 with (10 * (10 * 10)) by lra; rewrite !log10_mult, log10_10 by lra; lra).
  rewrite L in B. lra.
Qed.
Print Assumptions C40_empty_first_refuted.

Definition two_plots : list (res points) := [Err ValueError; Ok [(1, 1 / 10); (10, 1 / 100)]; Ok []; Ok [(1 / 10, 1)]].
Lemma two_point d y : is_point two_plots d y -> (d = 1 /\ y = 1 / 10) \/ (d = 10 /\ y = 1 / 100) \/ (d = 1 / 10 /\ y = 1).
Proof.
  intros (pts & [H|[H|[H|[H|[]]]]] & J); [discriminate|injection H as <-|injection H as <-|injection H as <-].
  - destruct J as [J|[J|[]]]; injection J as <- <-; auto.
  - destruct J.
  - destruct J as [J|[]]; injection J as <- <-; auto.
Qed.
Example C40_hypotheses_met : first_has_point two_plots /\ all_positive two_plots /\ is_point two_plots (1 / 10) 1.
Proof.
  split. { exists [Err ValueError], [(1, 1 / 10); (10, 1 / 100)], [Ok []; Ok [(1 / 10, 1)]]. repeat split; [discriminate|]. repeat constructor. now eexists. }
  split. { intros d y H. apply two_point in H. lra. }
  exists [(1 / 10, 1)]. split; [cbn; auto|cbn; auto].
Qed.

(** * C73: the randomness strip fits between the data and the top of the plot *)
Theorem C73_strip_fits : forall p plots, first_has_point plots -> all_positive plots -> exists (xr : R * R) (y0 y1 top : R),
  autoscale p true plots None None = Ok (xr, (y0, y1), Some top) /\ y0 < y1 /\
  (forall d y, is_point plots d y -> log10 y <= top) /\
  (* the strip is a sixteenth of the axis high, as far above the highest point, and below the top *)
  forall lo hi, strip_edges (y0, y1) top 0 = (lo, hi) -> lo = top + (y1 - y0) / 16 /\ hi = lo + (y1 - y0) / 16 /\ hi <= y1.
Proof.
  intros p plots F P. destruct (autoscale_eq p true plots None None F P) as (lx & hx & ly & hy & SX & SY & E).
  pose proof (strip_top (is_diff p) lx hx ly hy (span_le _ _ _ SX) (span_le _ _ _ SY)) as ST. cbv zeta in ST. destruct ST as [S1 S2].
  destruct (auto_ranges (is_diff p) true lx hx ly hy) as [xr [y0 y1]]. cbn [fst snd or_else] in *. unfold real_range in E. cbn [fst snd] in E.
  eexists _, _, _, _. split; [exact E|]. apply IZR_lt in S2 as S3. split; [exact S3|]. split.
  { intros d y I. destruct SY as (_ & _ & SY). destruct (SY (log10 y)); [exists d, y; auto|lra]. }
  intros lo hi H. unfold strip_edges, mag in H. cbn [fst snd] in H. rewrite Rmax_right, Rmin_left in H by lra. rewrite minus_IZR in S1. injection H as <- <-.
  assert (IZR y1 - IZR y0 <> 0) by lra. split; [field; lra|]. split; [field; lra|].
  match goal with |- ?a <= _ => replace a with (hy + (IZR y1 - IZR y0) / 8) by (field; lra) end. lra.
Qed.
Print Assumptions C73_strip_fits.
(** the option ra_offset moves it by twentieths of a decade *)
Theorem C73_offset : forall y0 y1 top k lo hi lo' hi', y0 < y1 -> strip_edges (y0, y1) top 0 = (lo, hi) -> strip_edges (y0, y1) top k = (lo', hi') ->
  lo' = lo + k / 20 /\ hi' = hi + k / 20.
Proof.
  intros y0 y1 top k lo hi lo' hi' L. unfold strip_edges, mag. cbn [fst snd]. rewrite Rmax_right, Rmin_left by lra. intros H1 H2. injection H1 as <- <-. injection H2 as <- <-.
  split; field; lra.
Qed.
Print Assumptions C73_offset.
(** with a y range given by the user the strip may lie outside *)
Theorem C73_forced_refuted : exists plots yr, first_has_point plots /\ all_positive plots /\ fst yr < snd yr /\
  (forall d y, is_point plots d y -> fst yr <= log10 y <= snd yr) /\
  exists xr top lo hi, autoscale Cumulative true plots None (Some yr) = Ok (xr, yr, Some top) /\ strip_edges yr top 0 = (lo, hi) /\ snd yr < hi.
Proof.
  exists [Ok [(1, 1)]], (-1, 0).
  assert (F : first_has_point [Ok [(1, 1)]]) by (exists [], [(1, 1)], []; repeat split; [discriminate|constructor]).
  assert (I : forall d y, is_point [Ok [(1, 1)]] d y -> d = 1 /\ y = 1).
  { intros d y (q & [H|[]] & J). injection H as <-. destruct J as [J|[]]. injection J as <- <-. auto. }
  assert (P : all_positive [Ok [(1, 1)]]) by (intros d y H; apply I in H; lra).
  split; [exact F|]. split; [exact P|]. cbn [fst snd]. split; [lra|]. split.
  { intros d y H. apply I in H as [_ ->]. rewrite log10_1. lra. }
  destruct (autoscale_eq Cumulative true _ None (Some (-1, 0)) F P) as (lx & hx & ly & hy & SX & SY & E). cbn [or_else] in E.
  destruct SY as (_ & (d & y & J & HY) & _). apply I in J as [_ ->]. rewrite log10_1 in HY. subst hy.
  eexists _, _, _, _. split; [exact E|]. split; [reflexivity|]. unfold mag. cbn [fst snd]. rewrite Rmax_right, Rmin_left by lra. lra.
Qed.
Print Assumptions C73_forced_refuted.
Example C73_hypotheses_met : exists xr yr top, autoscale Differential true two_plots None None = Ok (xr, yr, Some top) /\ fst yr < top.
Proof.
  destruct C40_hypotheses_met as (F & P & I). destruct (C73_strip_fits Differential two_plots F P) as (xr & y0 & y1 & top & E & L & A & S).
  exists xr, (y0, y1), top. split; [exact E|]. cbn [fst]. destruct (C40_shows_all_data Differential true two_plots F P) as (a & b & c & d & t & E' & SH & _).
  rewrite E' in E. injection E as <- <- <- ->. specialize (A _ _ I). destruct (SH _ _ I) as [_ [H _]]. cbn in H. lra.
Qed.
