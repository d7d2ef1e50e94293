(** Properties C06-C11: the Cratercount object. *)
From Coq Require Import String List ZArith Reals Lra Lia Bool.
From Verif Require Import Base BinModel BinSpec BinProps CountModel CountSpec CountProofs CountProofs2 CountProofs3.
Import ListNotations.
Local Open Scope R_scope.

Lemma ex_fractions : Forall (fun c => 0 < snd c) ex_craters.
Proof. repeat constructor; cbn; lra. Qed.
Lemma ex_large : Forall (fun c => 1 / 10000 <= fst c) ex_craters.
Proof. repeat constructor; cbn; lra. Qed.

(** ** C06 *)
(** The general claim fails: the bin offset of an earlier apply_binning call leaks into a later
    getplotdata (the cache is keyed by the binning name only). *)
Theorem C06_history_independent_refuted :
  exists craters area h pres b pd pd',
    craters <> [] /\ Forall (fun c => 0 < fst c) craters /\ In b real_binnings /\ In pres data_presentations /\
    fst (getplotdata (after_calls (fresh craters area) h) pres b None (Some 0%Z) false None) = Ok pd /\
    fst (getplotdata (fresh craters area) pres b None (Some 0%Z) false None) = Ok pd' /\
    map pt_d (pd_points pd) <> map pt_d (pd_points pd').
Proof. exact history_offset_matters. Qed.
Print Assumptions C06_history_independent_refuted.

(** It holds for every history in which apply_binning is never given an offset. *)
Theorem C06_getplotdata_history_independent :
  forall craters area h pres b range rs showall pf,
    (forall b' off, In (CApply b' off) h -> off = 0) ->
    fst (getplotdata (after_calls (fresh craters area) h) pres b range rs showall pf)
    = fst (getplotdata (fresh craters area) pres b range rs showall pf).
Proof. exact getplotdata_history. Qed.
Print Assumptions C06_getplotdata_history_independent.
Theorem C06_decode_range_history_independent :
  forall craters area h lo hi b snap,
    (forall b' off, In (CApply b' off) h -> off = 0) ->
    fst (decode_range (after_calls (fresh craters area) h) lo hi b snap)
    = fst (decode_range (fresh craters area) lo hi b snap).
Proof. exact decode_range_history. Qed.
Print Assumptions C06_decode_range_history_independent.
Theorem C06_calls_never_change_the_craters :
  forall s h, cc_craters (after_calls s h) = cc_craters s /\ cc_area (after_calls s h) = cc_area s /\
              cc_prebinned (after_calls s h) = cc_prebinned s.
Proof. exact calls_keep_data. Qed.
Print Assumptions C06_calls_never_change_the_craters.
Theorem C06_prebinned_counts_immutable :
  forall s h, cc_prebinned s = true -> (forall b off, ~ In (CApply b off) h) -> after_calls s h = s.
Proof. exact prebinned_immutable. Qed.
Print Assumptions C06_prebinned_counts_immutable.

Example C06_hypotheses_met :
  forall b off, In (CApply b off) [CApply "x2" 0; CDecode (LBin 1) (LBin (-1)) "root-2" true;
     CPlot "differential" "10/decade" None (Some 0%Z) false None; CWriteStat "x2"] -> off = 0.
Proof. intros b off H. cbn in H. intuition congruence. Qed.

(** ** C07 *)
Theorem C07_bin_numbers_address_populated_bins :
  forall craters area b snap v w,
    In b real_binnings -> craters <> [] ->
    Forall (fun c => 1 / 10000 <= fst c) craters -> Forall (fun c => 0 < snd c) craters ->
    exists bd ri i j, apply_binning craters b 0 = Ok (bd, ri) /\
      is_populated_no (b_n bd) (bin_number (populated (b_n bd)) v) i /\
      is_populated_no (b_n bd) (bin_number (populated (b_n bd)) w) j /\
      fst (decode_range (fresh craters area) (LBin v) (LBin w) b snap)
      = Ok (Fin (nth i (b_dmin bd) 0), Fin (nth (Nat.max i j) (b_dmax bd) 0)).
Proof. exact decode_bins. Qed.
Print Assumptions C07_bin_numbers_address_populated_bins.
(** the same on any contiguous bins, e.g. read from a file *)
Theorem C07_bin_numbers_any_bins :
  forall bd b snap v w,
    good_bins bd -> (0 < populated (b_n bd))%nat -> 1 / 10000 <= hd 0 (b_dmax bd) ->
    b <> Some "none"%string ->
    exists i j, is_populated_no (b_n bd) (bin_number (populated (b_n bd)) v) i /\
      is_populated_no (b_n bd) (bin_number (populated (b_n bd)) w) j /\
      decode_limits bd b (LBin v) (LBin w) snap
      = Ok (Fin (nth i (b_dmin bd) 0), Fin (nth (Nat.max i j) (b_dmax bd) 0)).
Proof. exact decode_bin_numbers. Qed.
Print Assumptions C07_bin_numbers_any_bins.
(** without a populated bin the program stops with its own message *)
Theorem C07_no_populated_bin :
  forall bd b snap v hi, populated (b_n bd) = 0%nat -> decode_limits bd b (LBin v) hi snap = Err SysExit.
Proof. exact decode_bin_no_data. Qed.
Print Assumptions C07_no_populated_bin.
Example C07_hypotheses_met :
  In "root-2"%string real_binnings /\ ex_craters <> [] /\
  Forall (fun c => 1 / 10000 <= fst c) ex_craters /\ Forall (fun c => 0 < snd c) ex_craters.
Proof. split; [cbn; tauto|]. split; [discriminate|]. split; [exact ex_large|exact ex_fractions]. Qed.
Example C07_bin_number_examples :
  bin_number 5 1 = 0%nat /\ bin_number 5 2 = 1%nat /\ bin_number 5 9 = 4%nat /\
  bin_number 5 (-1) = 4%nat /\ bin_number 5 (-5) = 0%nat /\ bin_number 5 (-7) = 0%nat.
Proof. repeat split; reflexivity. Qed.
Example C07_prebinned_hypotheses_met :
  good_bins (mkBinned [1; 2] [2; 4] [1; 2] [sqrt 2; sqrt 8] [3; 1] [3; 1] [4; 1] [4; 1]) /\
  (0 < populated [3; 1]%R)%nat.
Proof.
  split.
  - constructor; cbn [b_dmin b_dmax b_dmean b_n length]; try reflexivity; try lia.
    + intros [|[|i]] Hi; cbn; try lra; lia.
    + intros [|[|i]] Hi; cbn; try lra; lia.
    + intros [|i] Hi; cbn; try lra; lia.
    + intros [|[|i]] Hi; cbn; try (f_equal; lra); lia.
  - cbn. destruct (Rlt_dec 0 3); [lia|lra].
Qed.

(** ** C08 *)
Theorem C08_snapping_extends_to_nearest_boundaries :
  forall craters area b x y,
    In b real_binnings -> craters <> [] -> Forall (fun c => 0 < fst c) craters -> 0 < x -> x <= y ->
    exists bd ri l u, apply_binning craters b 0 = Ok (bd, ri) /\
      fst (decode_range (fresh craters area) (LNum (Fin x)) (LNum (Fin y)) b true) = Ok (Fin l, Fin u) /\
      In l (b_dmin bd) /\
      (l < x * 1.0000001 \/ l = hd 0 (b_dmin bd)) /\
      (forall e, In e (b_dmin bd) -> e < x * 1.0000001 -> e <= l) /\
      (last (b_dmax bd) 0 - 1/10000000 < y -> u = y) /\
      (y <= last (b_dmax bd) 0 - 1/10000000 ->
         In u (b_dmax bd) /\ y * 0.999999 <= u /\ (forall e, In e (b_dmax bd) -> y * 0.999999 <= e -> u <= e)).
Proof. exact decode_snap. Qed.
Print Assumptions C08_snapping_extends_to_nearest_boundaries.
Theorem C08_snapping_idempotent :
  forall craters area area' b x y l u,
    In b real_binnings -> craters <> [] -> Forall (fun c => 1 / 10000 <= fst c) craters ->
    fst (decode_range (fresh craters area) (LNum (Fin x)) (LNum y) b true) = Ok (Fin l, u) ->
    fst (decode_range (fresh craters area') (LNum (Fin l)) (LNum u) b true) = Ok (Fin l, u).
Proof. exact decode_twice. Qed.
Print Assumptions C08_snapping_idempotent.
Theorem C08_without_snapping_only_ordered :
  forall craters area b x y,
    In b ("none"%string :: real_binnings) -> craters <> [] -> Forall (fun c => 0 < fst c) craters ->
    fst (decode_range (fresh craters area) (LNum (Fin x)) (LNum (Fin y)) b false) = Ok (Fin x, Fin (Rmax x y)).
Proof. exact decode_plain. Qed.
Print Assumptions C08_without_snapping_only_ordered.
Example C08_hypotheses_met :
  In "root-2"%string real_binnings /\ ex_craters <> [] /\ Forall (fun c => 0 < fst c) ex_craters /\ 0 < 1.5 /\ 1.5 <= 2.1.
Proof. split; [cbn; tauto|]. destruct ex_craters_ok. repeat split; try assumption; lra. Qed.

(** ** C09 (fit side; the Poisson side is in PdfProps.v) *)
Theorem C09_fit_counts_craters_of_the_range :
  forall craters area b pres pf bd ri lo hi,
    In b real_binnings -> craters <> [] -> Forall (fun c => 0 < fst c) craters -> Forall (fun c => 0 < snd c) craters ->
    area <> 0 -> In pres data_presentations ->
    apply_binning craters b 0 = Ok (bd, ri) -> In lo (b_dmin bd) -> In hi (b_dmax bd) -> lo < hi ->
    exists pd, fst (getplotdata (fresh craters area) pres b (Some (lo, Fin hi)) (Some 0%Z) false pf) = Ok pd /\
      pd_n pd = fraction_between lo hi craters /\ pd_nevent pd = INR (number_between lo hi craters) /\
      pd_bin_range pd = (lo, hi).
Proof. exact fit_counts. Qed.
Print Assumptions C09_fit_counts_craters_of_the_range.
Example C09_hypotheses_met :
  exists bd ri lo hi, apply_binning ex_craters "root-2" 0 = Ok (bd, ri) /\ In lo (b_dmin bd) /\ In hi (b_dmax bd) /\ lo < hi.
Proof.
  destruct ex_craters_ok as [H1 H2]. assert (Hb : In "root-2"%string real_binnings) by (cbn; tauto).
  destruct (ApplyProofs.apply_binning_spec ex_craters "root-2" 0 Hb H1 H2) as (z0 & n & bd & ri & HA & _).
  pose proof (apply_binning_good _ _ _ _ _ Hb H1 H2 HA) as G. pose proof (gb_ne bd G).
  exists bd, (Some ri), (nth 0 (b_dmin bd) 0), (nth 0 (b_dmax bd) 0).
  split; [exact HA|]. split; [apply nth_In; assumption|].
  split; [apply nth_In; rewrite (gb_len1 bd G); assumption|].
  pose proof (lo_hi bd G 0 H). pose proof (lo_pos bd G 0 H). lra.
Qed.

(** ** C10 *)
Theorem C10_plotted_points :
  forall craters area b pres pf showall,
    In b real_binnings -> craters <> [] -> Forall (fun c => 0 < fst c) craters -> Forall (fun c => 0 < snd c) craters ->
    area <> 0 -> In pres data_presentations ->
    exists bd ri pd, apply_binning craters b 0 = Ok (bd, ri) /\
      fst (getplotdata (fresh craters area) pres b None (Some 0%Z) showall pf) = Ok pd /\
      pd_points pd = map (fun e => expected_point pres (pf_slope pf) craters area (fst e) (snd e))
                       (populated_bins craters (b_dmin bd) (b_dmax bd)).
Proof. exact plotted_points. Qed.
Print Assumptions C10_plotted_points.
Theorem C10_values_scale_inversely_with_area :
  forall craters area c b pres pf showall,
    In b real_binnings -> craters <> [] -> Forall (fun c => 0 < fst c) craters -> Forall (fun c => 0 < snd c) craters ->
    area <> 0 -> c <> 0 -> In pres data_presentations ->
    exists pd pd',
      fst (getplotdata (fresh craters area) pres b None (Some 0%Z) showall pf) = Ok pd /\
      fst (getplotdata (fresh craters (area * c)) pres b None (Some 0%Z) showall pf) = Ok pd' /\
      pd_points pd' = map (fun p => mkPt (pt_d p) (pt_y p / c) (pt_err p / c)) (pd_points pd).
Proof. exact plot_area_scaling. Qed.
Print Assumptions C10_values_scale_inversely_with_area.
Theorem C10_relative_error :
  forall craters area b pres pf showall,
    In b real_binnings -> craters <> [] -> Forall (fun c => 0 < fst c) craters -> Forall (fun c => 0 < snd c) craters ->
    area <> 0 -> In pres data_presentations -> pres <> "differential"%string ->
    exists pd, fst (getplotdata (fresh craters area) pres b None (Some 0%Z) showall pf) = Ok pd /\
      forall p, In p (pd_points pd) -> exists z,
        let lo := grid b 0 z in
        let hi := grid b 0 (z + 1) in
        pt_d p = (if String.eqb pres "cumulative" then lo else sqrt (lo * hi)) /\
        pt_err p = pt_y p / sqrt (INR (if String.eqb pres "cumulative" then number_from lo craters else number_between lo hi craters)).
Proof. exact plot_relative_error. Qed.
Print Assumptions C10_relative_error.
(** In the differential presentation the value is corrected for binning bias but its error bar is
    not: a bin holding one crater gets an error bar different from 100%. *)
Theorem C10_differential_relative_error_refuted :
  exists craters area b pd p, craters <> [] /\ Forall (fun c => 0 < fst c) craters /\ Forall (fun c => snd c = 1) craters /\
    fst (getplotdata (fresh craters area) "differential" b None (Some 0%Z) false None) = Ok pd /\
    In p (pd_points pd) /\ pd_nevent pd = 1 /\ pt_err p <> pt_y p / sqrt 1.
Proof. exact plot_differential_error. Qed.
Print Assumptions C10_differential_relative_error_refuted.
(** With root-2 bins the Hartmann values are not the incremental densities but 2^(1/4) times them. *)
Theorem C10_hartmann_is_root2_incremental_refuted :
  forall craters area pf showall,
    craters <> [] -> Forall (fun c => 0 < fst c) craters -> Forall (fun c => 0 < snd c) craters -> area <> 0 ->
    exists inc har,
      fst (getplotdata (fresh craters area) "incremental" "root-2" None (Some 0%Z) showall pf) = Ok inc /\
      fst (getplotdata (fresh craters area) "Hartmann" "root-2" None (Some 0%Z) showall pf) = Ok har /\
      map pt_y (pd_points har) = map (fun p => Rpower 2 (1 / 4) * pt_y p) (pd_points inc).
Proof. exact plot_hartmann. Qed.
Print Assumptions C10_hartmann_is_root2_incremental_refuted.
Example C10_hypotheses_met :
  In "root-2"%string real_binnings /\ ex_craters <> [] /\ Forall (fun c => 0 < fst c) ex_craters /\
  Forall (fun c => 0 < snd c) ex_craters /\ 100 <> 0 /\ In "differential"%string data_presentations.
Proof. destruct ex_craters_ok. repeat split; try assumption; try exact ex_fractions; try lra; cbn; tauto. Qed.

(** ** C11 *)
(** (N(lo)-N(hi))/(hi-lo) divided by the correction is exactly -dN/dD at the bin's mean *)
Theorem C11_correction_exact_for_power_laws :
  forall c k lo hi, 0 < lo -> lo < hi -> 1 / 100000 <= Rabs k ->
    let N D := c * Rpower D k in
    let D := sqrt (lo * hi) in
    let F := (N lo - N hi) / (hi - lo) / bin_bias_correction (hi / lo) k in
    derivable_pt_lim (fun x => - N x) D F.
Proof. exact bias_exact. Qed.
Print Assumptions C11_correction_exact_for_power_laws.
(** and the exponent the code estimates from a power-law production function is the right one *)
Theorem C11_exponent_of_power_law :
  forall p c k lo hi, 0 < c -> 0 < lo -> lo < hi -> (forall D, 0 < D -> pf_C p D = c * Rpower D k) ->
    pf_slope (Some p) lo hi = k.
Proof. exact pf_slope_power. Qed.
Print Assumptions C11_exponent_of_power_law.
Theorem C11_correction_symmetric :
  forall beta k, bin_bias_correction beta (- k) = bin_bias_correction beta k.
Proof. exact bias_even. Qed.
Print Assumptions C11_correction_symmetric.
Theorem C11_correction_relative_to_one :
  forall beta k, 1 < beta -> 1 / 100000 <= Rabs k ->
    (Rabs k < 1 -> bin_bias_correction beta k < 1) /\
    (Rabs k = 1 -> bin_bias_correction beta k = 1) /\
    (1 < Rabs k -> 1 < bin_bias_correction beta k).
Proof. exact bias_order. Qed.
Print Assumptions C11_correction_relative_to_one.
(** Continuity in k fails at 0 for every bin ratio: the guard returns 1 for |k| < 1e-5 while just
    outside the correction stays a fixed amount below 1. *)
Theorem C11_correction_continuous_refuted :
  forall beta, 1 < beta -> exists gap, 0 < gap /\
    (forall k, Rabs k < 1 / 100000 -> bin_bias_correction beta k = 1) /\
    (forall k, 1 / 100000 <= Rabs k <= 1 / 2 -> bin_bias_correction beta k <= 1 - gap).
Proof. exact bias_gap. Qed.
Print Assumptions C11_correction_continuous_refuted.
Example C11_hypotheses_met : 0 < 1 /\ 1 < sqrt 2 /\ 1 / 100000 <= Rabs (-3).
Proof.
  split; [lra|]. split; [rewrite <- sqrt_1; apply sqrt_lt_1; lra|].
  rewrite Rabs_left by lra. lra.
Qed.
