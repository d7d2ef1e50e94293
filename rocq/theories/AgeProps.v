(** C79: the ages, densities and counts reported for one plot belong to one measurement.
    [calculate_age erf cfit I1 pf cf ref s per b range m] is Craterplot.calculate_age for a count s (perimeter per), binning b, a decoded
    range and a method, in a plot with production function pf, chronology cf and reference diameter ref. *)
From Coq Require Import String List ZArith Reals Lra Lia Bool.
From Verif Require Import Base NumModel NumLemmas BinModel BinSpec BinProofs ApplyProofs ChronModel ChronSpec ChronProofs ChronProps InterpProofs BinProps CountModel CountSpec CountProofs CountProps CountProofs2 CountProofs3.
From Verif Require Import ProdModel ProdSpec ProdProofs ProdProofs2 ProdProofs3 ProdProps PdfModel PdfSpec PdfProofs PdfProps AgeModel AgeSpec AgeProofs AgeProofs2.
Import ListNotations.
Local Open Scope R_scope.

(** what the density at the reference diameter has to be: that of the isochron *)
Definition density_at (pf : productionfn) (ref best : R) (nd : option R) : Prop :=
  best <> 0 -> exists y, nd = Some y /\ pf_value pf "cumulative" ref best = Ok (Some y) /\ (ref = 1 -> y = pow10 best).
(** a polynomial has at least one coefficient *)
Definition has_coefficients (pf : productionfn) : Prop := match pf with Poly [] _ _ => False | _ => True end.
Lemma density_ok pf ref best : built pf -> has_coefficients pf ->
  exists nd, evaluate pf "cumulative" ref (Some best) = Ok nd /\ density_at pf ref best nd.
Proof.
  intros B H. destruct (Req_dec best 0) as [E|E].
  - assert (T : exists a, effective_a0 pf (Some best) = Ok a).
    { unfold effective_a0. destruct (Reqb best 0); [|eauto]. destruct pf as [[|a r] lo hi|t]; [destruct H| |eauto]. exists a. reflexivity. }
    destruct T as (a & T). destruct (value_total pf "cumulative" ref a B ltac:(cbn; tauto)) as (y & V).
    exists (Some y). unfold evaluate. rewrite T. cbn [bind]. split; [exact V|]. intros C. congruence.
  - destruct (value_total pf "cumulative" ref best B ltac:(cbn; tauto)) as (y & V).
    exists (Some y). rewrite evaluate_value by assumption. split; [exact V|]. intros _. exists y. split; [reflexivity|]. split; [exact V|].
    intros ->. pose proof (C19_density_at_1km pf best B E) as Q. rewrite evaluate_value in Q by assumption. congruence.
Qed.

(** ** fits *)
(** any fit whose plotted points are positive and whose first error bar leaves room: with or without resurfacing correction, for any
    count and history *)
Theorem C79_any_fit :
  forall erf cfit I1 pf cf ref s per b range m pres rs p0 p r,
    solves_least_squares cfit -> built pf -> has_coefficients pf -> positive_coefficients cf ->
    (m, pres, rs) = (CFit true, "cumulative"%string, 1%Z) \/ (m, pres, rs) = (CFit false, "cumulative"%string, 0%Z) \/
      (m, pres, rs) = (DFit, "differential"%string, 0%Z) ->
    fst (getplotdata s pres b (Some range) (Some rs) false (Some (as_prodfn cfit pf))) = Ok p0 -> pd_points p0 = p :: r ->
    Forall (fun q => 0 < pt_d q /\ 0 < pt_y q /\ 0 < pt_err q) (p :: r) -> 98 / 100 * pt_err p < pt_y p ->
    exists best lower upper t tl tu nd,
      calculate_age erf cfit I1 pf cf ref s per b range m
        = Ok (mkMeas [Num t; Num tl; Num tu] [Num best; Num lower; Num upper] (pd_n p0) (pd_nevent p0) (Some (pd_bin_range p0)) nd) /\
      lower <= best <= upper /\ tl <= t <= tu /\
      age_of cf (pow10 best) t /\ age_of cf (pow10 lower) tl /\ age_of cf (pow10 upper) tu /\
      pow10 lower = pow10 best * (1 - 98 / 100 * (pt_err p / pt_y p)) /\
      pow10 upper = pow10 best * (1 + 98 / 100 * (pt_err p / pt_y p)) /\
      best_fit pf pres (if String.eqb pres "cumulative" then map pt_y (p :: r) else map pt_err (p :: r))
               (map pt_d (p :: r)) (map pt_y (p :: r)) best /\
      density_at pf ref best nd.
Proof.
  intros erf cfit I1 pf cf ref s per b range m pres rs p0 p r LS B HC Hc M E EP F H.
  assert (P : In pres ["cumulative"; "differential"]%string).
  { destruct M as [M|[M|M]]; injection M as -> -> ->; cbn; tauto. }
  destruct (fit_values_ok cfit pf pres p r LS B P F H) as (best & lower & upper & EF & O & Q1 & Q2 & Q3).
  destruct (density_ok pf ref best B HC) as (nd & EN & ND).
  exists best, lower, upper, (cf_t_a0 cf best), (cf_t_a0 cf lower), (cf_t_a0 cf upper), nd.
  split.
  { destruct M as [M|[M|M]]; injection M as -> -> ->; unfold calculate_age; rewrite E; cbn [bind]; rewrite EP, EF; cbn [bind];
    rewrite EN; reflexivity. }
  split; [exact O|]. split; [unfold cf_t_a0; split; apply cf_t_mono; try assumption; apply pow10_le; lra|].
  repeat (split; [now apply age_of_ok|]). repeat (split; [assumption|]). exact ND.
Qed.

Lemma number_from_ge lo hi cs : (number_between lo hi cs <= number_from lo cs)%nat.
Proof.
  induction cs as [|[d f] cs IH]; [reflexivity|]. cbn [number_between number_from]. destruct (Rle_dec lo d); [destruct (Rlt_dec d hi)|]; lia.
Qed.
Lemma number_of_fraction lo hi cs : 0 < fraction_between lo hi cs -> (0 < number_between lo hi cs)%nat.
Proof.
  induction cs as [|[d f] cs IH]; cbn [fraction_between number_between]; [lra|].
  destruct (Rle_dec lo d); [destruct (Rlt_dec d hi)|]; intros H; try lia; apply IH; lra.
Qed.
Lemma fraction_from_ge lo hi cs : Forall (fun c => 0 < snd c) cs -> fraction_between lo hi cs <= fraction_from lo cs.
Proof.
  induction 1 as [|[d f] cs Hf _ IH]; cbn [fraction_between fraction_from snd] in *; [lra|].
  destruct (Rle_dec lo d); [destruct (Rlt_dec d hi)|]; lra.
Qed.
Lemma sqrt_INR_ge1 n : (0 < n)%nat -> 1 <= sqrt (INR n).
Proof. intros H. rewrite <- sqrt_1 at 1. apply sqrt_le_1_alt. change 1 with (INR 1). apply le_INR. lia. Qed.

(** the cumulative fit of a list of craters: the limits are those of N craters of at least the lower end of the range, at 0.98 sigma,
    and the points are the cumulative densities at the lower edges of the populated bins of the range *)
Theorem C79_cumulative_fit :
  forall erf cfit I1 pf cf ref craters area per b lo hi bd ri,
    solves_least_squares cfit -> built pf -> has_coefficients pf -> positive_coefficients cf ->
    In b real_binnings -> craters <> [] -> Forall (fun c => 0 < fst c) craters -> Forall (fun c => 0 < snd c) craters -> 0 < area ->
    apply_binning craters b 0 = Ok (bd, ri) -> In lo (b_dmin bd) -> In hi (b_dmax bd) -> lo < hi ->
    (0 < number_between lo hi craters)%nat ->
    let d := map fst (bins_used craters lo hi (b_dmin bd) (b_dmax bd)) in
    let y := map (fun x => fraction_from x craters / area) d in
    let sigma := 98 / 100 / sqrt (INR (number_from lo craters)) in
    exists best lower upper t tl tu nd,
      calculate_age erf cfit I1 pf cf ref (fresh craters area) per b (lo, Fin hi) (CFit false)
        = Ok (mkMeas [Num t; Num tl; Num tu] [Num best; Num lower; Num upper] (fraction_between lo hi craters)
                (INR (number_between lo hi craters)) (Some (lo, hi)) nd) /\
      lower <= best <= upper /\ tl <= t <= tu /\
      age_of cf (pow10 best) t /\ age_of cf (pow10 lower) tl /\ age_of cf (pow10 upper) tu /\
      pow10 lower = pow10 best * (1 - sigma) /\ pow10 upper = pow10 best * (1 + sigma) /\
      best_fit pf "cumulative" y d y best /\
      density_at pf ref best nd.
Proof.
  intros erf cfit I1 pf cf ref craters area per b lo hi bd ri LS B HC Hc Hb Hne Hpos Hfr Ha HA Hlo Hhi Hlt HN d y sigma.
  destruct (fit_points craters area b bd ri lo hi Hb Hne Hpos Hfr Ha HA Hlo Hhi Hlt "cumulative" (Some (as_prodfn cfit pf)) ltac:(cbn; tauto))
    as (pd & E & E1 & E2 & E3 & EP).
  pose proof (bins_nonempty craters b bd ri lo hi Hb Hne Hpos Hfr HA Hlo Hhi Hlt HN) as NE.
  pose proof (used_edges craters b bd ri lo hi Hb Hne Hpos HA) as UE.
  pose proof (first_bin craters b bd ri lo hi Hb Hne Hpos Hfr HA Hlo Hhi Hlt) as FB.
  unfold y, d. destruct (bins_used craters lo hi (b_dmin bd) (b_dmax bd)) as [|e rest]; [congruence|].
  specialize (FB e rest eq_refl). destruct FB as [FB1 FB2].
  set (pt := fun e : R * R => expected_point "cumulative" (pf_slope (Some (as_prodfn cfit pf))) craters area (fst e) (snd e)) in EP.
  change (pd_points pd = pt e :: map pt rest) in EP.
  assert (PT : forall e', In e' (e :: rest) -> 0 < pt_d (pt e') /\ 0 < pt_y (pt e') /\ 0 < pt_err (pt e')).
  { intros e' He. destruct (UE e' He) as (P1 & P2 & P3 & P4 & P5).
    change (0 < fst e' /\ 0 < fraction_from (fst e') craters / area /\
            0 < fraction_from (fst e') craters / area / sqrt (INR (number_from (fst e') craters))).
    pose proof (fraction_from_ge (fst e') (snd e') craters Hfr).
    assert (Q : 0 < fraction_from (fst e') craters / area) by (apply Rdiv_lt_0_compat; lra).
    split; [assumption|]. split; [exact Q|]. apply Rdiv_lt_0_compat; [exact Q|].
    pose proof (sqrt_INR_ge1 (number_from (fst e') craters)) as S.
    pose proof (number_of_fraction _ _ _ P5). pose proof (number_from_ge (fst e') (snd e') craters). specialize (S ltac:(lia)). lra. }
  destruct (PT e (or_introl eq_refl)) as (D0 & Y0 & E0).
  destruct (UE e (or_introl eq_refl)) as (_ & _ & _ & _ & P5).
  assert (S1 : 1 <= sqrt (INR (number_from lo craters))).
  { apply sqrt_INR_ge1. pose proof (number_from_ge lo hi craters). lia. }
  assert (RE : pt_err (pt e) = pt_y (pt e) / sqrt (INR (number_from lo craters))).
  { change (pt_y (pt e) / sqrt (INR (number_from (fst e) craters)) = pt_y (pt e) / sqrt (INR (number_from lo craters))).
    now rewrite FB1. }
  destruct (C79_any_fit erf cfit I1 pf cf ref (fresh craters area) per b (lo, Fin hi) (CFit false) "cumulative" 0%Z pd (pt e) (map pt rest)
     LS B HC Hc ltac:(tauto) E EP) as (best & lower & upper & t & tl & tu & nd & R0 & R1 & R2 & R3 & R4 & R5 & R6 & R7 & R8 & R9).
  { change (pt e :: map pt rest) with (map pt (e :: rest)). apply Forall_map, Forall_forall. exact PT. }
  { rewrite RE. assert (I1' : / sqrt (INR (number_from lo craters)) <= 1) by (rewrite <- Rinv_1; apply Rinv_le_contravar; lra).
    assert (0 < / sqrt (INR (number_from lo craters))) by (apply Rinv_0_lt_compat; lra).
    unfold Rdiv at 2. nra. }
  exists best, lower, upper, t, tl, tu, nd. rewrite <- E1, <- E2, <- E3. split; [exact R0|].
  repeat (split; [assumption|]).
  assert (SG : 98 / 100 * (pt_err (pt e) / pt_y (pt e)) = sigma) by (rewrite RE; unfold sigma; field; lra).
  rewrite SG in R6, R7. split; [exact R6|]. split; [exact R7|]. split; [|exact R9].
  cbn [String.eqb Ascii.eqb Bool.eqb] in R8.
  change (pt e :: map pt rest) with (map pt (e :: rest)) in R8. rewrite !map_map in R8. rewrite map_map. exact R8.
Qed.

(** the local log-log slope of the production function over a bin *)
Definition own_slope (pf : productionfn) (lo hi : R) : R :=
  let C d := match evaluate pf "cumulative" d None with Ok (Some y) => y | _ => 0 end in log10 (C hi / C lo) / log10 (hi / lo).
(** the differential fit: of the bias-corrected densities at the means of the populated bins of the range, provided that the correction
    of the smallest bin does not exceed its error *)
Theorem C79_differential_fit :
  forall erf cfit I1 pf cf ref craters area per b lo hi bd ri,
    solves_least_squares cfit -> built pf -> has_coefficients pf -> positive_coefficients cf ->
    In b real_binnings -> craters <> [] -> Forall (fun c => 0 < fst c) craters -> Forall (fun c => 0 < snd c) craters -> 0 < area ->
    apply_binning craters b 0 = Ok (bd, ri) -> In lo (b_dmin bd) -> In hi (b_dmax bd) -> lo < hi ->
    (0 < number_between lo hi craters)%nat ->
    let bins := bins_used craters lo hi (b_dmin bd) (b_dmax bd) in
    let bias e := bin_bias_correction (snd e / fst e) (own_slope pf (fst e) (snd e)) in
    let d := map (fun e => sqrt (fst e * snd e)) bins in
    let y := map (fun e => fraction_between (fst e) (snd e) craters / (area * (snd e - fst e)) / bias e) bins in
    let err := map (fun e => fraction_between (fst e) (snd e) craters / (area * (snd e - fst e)) / sqrt (INR (number_between (fst e) (snd e) craters))) bins in
    forall e rest, bins = e :: rest ->
    let sigma := 98 / 100 * bias e / sqrt (INR (number_between (fst e) (snd e) craters)) in
    sigma < 1 ->
    exists best lower upper t tl tu nd,
      calculate_age erf cfit I1 pf cf ref (fresh craters area) per b (lo, Fin hi) DFit
        = Ok (mkMeas [Num t; Num tl; Num tu] [Num best; Num lower; Num upper] (fraction_between lo hi craters)
                (INR (number_between lo hi craters)) (Some (lo, hi)) nd) /\
      lower <= best <= upper /\ tl <= t <= tu /\
      age_of cf (pow10 best) t /\ age_of cf (pow10 lower) tl /\ age_of cf (pow10 upper) tu /\
      pow10 lower = pow10 best * (1 - sigma) /\ pow10 upper = pow10 best * (1 + sigma) /\
      best_fit pf "differential" err d y best /\
      density_at pf ref best nd.
Proof.
  intros erf cfit I1 pf cf ref craters area per b lo hi bd ri LS B HC Hc Hb Hne Hpos Hfr Ha HA Hlo Hhi Hlt HN bins bias d y err e rest EB sigma HS.
  destruct (fit_points craters area b bd ri lo hi Hb Hne Hpos Hfr Ha HA Hlo Hhi Hlt "differential" (Some (as_prodfn cfit pf)) ltac:(cbn; tauto))
    as (pd & E & E1 & E2 & E3 & EP).
  pose proof (used_edges craters b bd ri lo hi Hb Hne Hpos HA) as UE. fold bins in UE, EP.
  set (pt := fun e : R * R => expected_point "differential" (pf_slope (Some (as_prodfn cfit pf))) craters area (fst e) (snd e)) in EP.
  assert (PD : forall e', pt_d (pt e') = sqrt (fst e' * snd e')) by reflexivity.
  assert (PY : forall e', pt_y (pt e') = fraction_between (fst e') (snd e') craters / (area * (snd e' - fst e')) / bias e') by reflexivity.
  assert (PE : forall e', pt_err (pt e') = fraction_between (fst e') (snd e') craters / (area * (snd e' - fst e')) / sqrt (INR (number_between (fst e') (snd e') craters))) by reflexivity.
  assert (PT : forall e', In e' bins -> 0 < pt_d (pt e') /\ 0 < pt_y (pt e') /\ 0 < pt_err (pt e') /\ 0 < bias e' /\ 1 <= sqrt (INR (number_between (fst e') (snd e') craters))
      /\ 0 < fraction_between (fst e') (snd e') craters / (area * (snd e' - fst e'))).
  { intros e' He. destruct (UE e' He) as (P1 & P2 & P3 & P4 & P5). rewrite PD, PY, PE.
    assert (D : 0 < fraction_between (fst e') (snd e') craters / (area * (snd e' - fst e'))).
    { apply Rdiv_lt_0_compat; [assumption|]. apply Rmult_lt_0_compat; lra. }
    assert (BP : 0 < bias e').
    { apply bias_positive. apply Rmult_lt_reg_r with (fst e'); [assumption|]. unfold Rdiv. rewrite Rmult_assoc, Rinv_l by lra. lra. }
    pose proof (sqrt_INR_ge1 _ (number_of_fraction _ _ _ P5)) as S.
    repeat split; try assumption; try (apply Rdiv_lt_0_compat; lra). apply sqrt_lt_R0. apply Rmult_lt_0_compat; lra. }
  destruct (PT e ltac:(rewrite EB; now left)) as (D0 & Y0 & E0 & B0 & S0 & F0).
  rewrite EB in EP.
  destruct (C79_any_fit erf cfit I1 pf cf ref (fresh craters area) per b (lo, Fin hi) DFit "differential" 0%Z pd (pt e) (map pt rest)
     LS B HC Hc ltac:(tauto) E EP) as (best & lower & upper & t & tl & tu & nd & R0 & R1 & R2 & R3 & R4 & R5 & R6 & R7 & R8 & R9).
  { change (pt e :: map pt rest) with (map pt (e :: rest)). apply Forall_map, Forall_forall. rewrite <- EB. intros e' He.
    destruct (PT e' He) as (? & ? & ? & _). auto. }
  { assert (Q : 98 / 100 * pt_err (pt e) = sigma * pt_y (pt e)).
    { rewrite PE, PY. unfold sigma. set (N := fraction_between (fst e) (snd e) craters / (area * (snd e - fst e))) in *. field. repeat split; lra. }
    rewrite Q. nra. }
  assert (SG : 98 / 100 * (pt_err (pt e) / pt_y (pt e)) = sigma).
  { rewrite PE, PY. unfold sigma. set (N := fraction_between (fst e) (snd e) craters / (area * (snd e - fst e))) in *. field. repeat split; lra. }
  exists best, lower, upper, t, tl, tu, nd. rewrite <- E1, <- E2, <- E3. split; [exact R0|].
  repeat (split; [assumption|]). rewrite SG in R6, R7. split; [exact R6|]. split; [exact R7|]. split; [|exact R9].
  cbn [String.eqb Ascii.eqb Bool.eqb] in R8.
  change (pt e :: map pt rest) with (map pt (e :: rest)) in R8. rewrite !map_map in R8. rewrite <- EB in R8. exact R8.
Qed.

(** the error bar of the lowest point reaches zero density, or beyond: age 0 and no age as lower limit *)
Theorem C79_no_lower_limit :
  forall erf cfit I1 pf cf ref s per b range m pres rs p0 p r,
    built pf -> has_coefficients pf -> positive_coefficients cf ->
    (m, pres, rs) = (CFit true, "cumulative"%string, 1%Z) \/ (m, pres, rs) = (CFit false, "cumulative"%string, 0%Z) \/
      (m, pres, rs) = (DFit, "differential"%string, 0%Z) ->
    fst (getplotdata s pres b (Some range) (Some rs) false (Some (as_prodfn cfit pf))) = Ok p0 -> pd_points p0 = p :: r ->
    Forall (fun q => 0 < pt_y q) (p :: r) -> pt_y p <= 98 / 100 * pt_err p ->
    exists best upper t tu nd,
      calculate_age erf cfit I1 pf cf ref s per b range m
        = Ok (mkMeas [Num t; if Req_EM_T (pt_y p) (98 / 100 * pt_err p) then Num 0 else Nan; Num tu]
                [Num best; if Req_EM_T (pt_y p) (98 / 100 * pt_err p) then MinusInf else Nan; Num upper]
                (pd_n p0) (pd_nevent p0) (Some (pd_bin_range p0)) nd).
Proof.
  intros erf cfit I1 pf cf ref s per b range m pres rs p0 p r B HC Hc M E EP F H.
  assert (P : In pres ["cumulative"; "differential"]%string).
  { destruct M as [M|[M|M]]; injection M as -> -> ->; cbn; tauto. }
  assert (Y0 : 0 < pt_y p) by now inversion F.
  assert (ALL : forallb (fun q => Rltb 0 (pt_y q)) (p :: r) = true).
  { apply forallb_forall. intros q Hq. rewrite Forall_forall in F. apply Rltb_true. now apply F. }
  assert (EF : exists best upper, fit_values cfit pf pres (p :: r) =
     Ok [Num best; if Req_EM_T (pt_y p) (98 / 100 * pt_err p) then MinusInf else Nan; Num upper]).
  { unfold fit_values. rewrite ALL. cbn [map].
    rewrite (fit_unfold cfit pf pres (pt_d p) (map pt_d r) (pt_y p) (map pt_y r) (pt_err p) (map pt_err r) P) by now rewrite !map_length.
    cbv zeta. cbn [bind]. rewrite (np_log10_pos (pt_y p + _)) by lra. cbn [plus].
    assert (NL : np_log10 (pt_y p - 98 / 100 * pt_err p) = if Req_EM_T (pt_y p) (98 / 100 * pt_err p) then MinusInf else Nan).
    { unfold np_log10. destruct (Rltb_spec 0 (pt_y p - 98 / 100 * pt_err p)); [lra|].
      destruct (Reqb_spec (pt_y p - 98 / 100 * pt_err p) 0), (Req_EM_T (pt_y p) (98 / 100 * pt_err p)); try reflexivity; exfalso; lra. }
    rewrite NL. do 2 eexists. destruct (Req_EM_T _ _); reflexivity. }
  destruct EF as (best & upper & EF). destruct (density_ok pf ref best B HC) as (nd & EN & _).
  exists best, upper, (cf_t_a0 cf best), (cf_t_a0 cf upper), nd.
  assert (T0 : cf_t cf 0 = 0) by (apply (cf_t_below cf Hc 0); lra).
  destruct M as [M|[M|M]]; injection M as -> -> ->; unfold calculate_age; rewrite E; cbn [bind]; rewrite EP, EF; cbn [bind];
    rewrite EN; cbn [bind map value_t]; destruct (Req_EM_T _ _); cbn [value_t]; rewrite ?T0; reflexivity.
Qed.

(** A single crater in the smallest bin of a differential fit: the correction for the width of the bin is larger than the one-sigma limit
    allows, and the program reports nan for the lower limit, for every solver. *)
Theorem C79_differential_lower_limit_refuted :
  exists pf craters area b lo hi,
    built pf /\ has_coefficients pf /\ In b real_binnings /\ craters <> [] /\ Forall (fun c => 0 < fst c) craters /\ 0 < area /\
    number_between lo hi craters = 1%nat /\
    forall erf cfit I1 cf ref per, exists best t upper tu nd,
      calculate_age erf cfit I1 pf cf ref (fresh craters area) per b (lo, Fin hi) DFit
        = Ok (mkMeas [Num t; Nan; Num tu] [Num best; Nan; Num upper] 1 1 (Some (lo, hi)) nd).
Proof.
  set (cs := [(12 / 10, 1)] : list (R * R)).
  assert (Hb : In "x2"%string real_binnings) by (cbn; tauto).
  assert (Hp : Forall (fun c : R * R => 0 < fst c) cs) by (repeat constructor; cbn; lra).
  assert (Hf : Forall (fun c : R * R => 0 < snd c) cs) by (repeat constructor; cbn; lra).
  assert (Hne : cs <> []) by discriminate.
  set (pf := Poly [-3; -3] (1 / 10) 100).
  destruct (plotted_points cs 1 "x2" "differential" None false Hb Hne Hp Hf ltac:(lra) ltac:(cbn; tauto)) as (bd & ri & pd0 & HA & _ & _).
  pose proof (where_pos_nonempty _ _ _ _ _ Hb Hne Hp HA Hf) as HW.
  pose proof (where_pos_edges _ _ _ _ _ Hb Hne Hp HA) as HE.
  destruct (populated_bins cs (b_dmin bd) (b_dmax bd)) as [|e es] eqn:B.
  { destruct (where_pos (b_n bd)); [congruence|discriminate]. }
  destruct (populated_edges _ _ _ _ e Hb Hne Hp HA ltac:(rewrite B; left; reflexivity)) as (P1 & P2 & P3 & z & E1 & E2).
  assert (Hin : In e (combine (b_dmin bd) (b_dmax bd))).
  { assert (In e (populated_bins cs (b_dmin bd) (b_dmax bd))) by (rewrite B; now left). unfold populated_bins in H. now apply filter_In in H. }
  destruct e as [lo hi]. cbn [fst snd] in *.
  assert (Hlo : In lo (b_dmin bd)) by (eapply in_combine_l; exact Hin).
  assert (Hhi : In hi (b_dmax bd)) by (eapply in_combine_r; exact Hin).
  assert (R2 : hi / lo = 2).
  { rewrite E1, E2, !x2_grid. rewrite !Rminus_0_r. rewrite plus_IZR, Rpower_plus, Rpower_1 by lra. field.
    apply Rgt_not_eq. unfold Rpower. apply exp_pos. }
  assert (HH : hi = 2 * lo) by (rewrite <- R2; field; lra).
  assert (N1' : number_between lo hi cs = 1%nat /\ fraction_between lo hi cs = 1).
  { revert P3. unfold cs. cbn [number_between fraction_between]. destruct (Rle_dec lo (12 / 10)); [destruct (Rlt_dec (12 / 10) hi)|]; intros; try lra; split; [reflexivity|lra]. }
  destruct N1' as [NB FB].
  assert (Bpf : built pf) by constructor.
  exists pf, cs, 1, "x2"%string, lo, hi.
  split; [exact Bpf|]. split; [exact I|]. split; [exact Hb|]. split; [exact Hne|]. split; [exact Hp|]. split; [lra|]. split; [exact NB|].
  intros erf cfit I1 cf ref per.
  destruct (fit_points cs 1 "x2" bd ri lo hi Hb Hne Hp Hf ltac:(lra) HA Hlo Hhi P2 "differential" (Some (as_prodfn cfit pf)) ltac:(cbn; tauto))
    as (pd & E & G1 & G2 & G3 & EP).
  assert (BU : bins_used cs lo hi (b_dmin bd) (b_dmax bd) = [(lo, hi)]).
  { pose proof (selected_bins cs "x2" bd ri lo hi Hb Hne Hp HA Hlo Hhi P2) as SB.
    assert (U : forall x, In x (bins_used cs lo hi (b_dmin bd) (b_dmax bd)) -> x = (lo, hi)).
    { intros [x y] Hx. pose proof (used_edges cs "x2" bd ri lo hi Hb Hne Hp HA (x, y) Hx) as (Q1 & Q2 & Q3 & Q4 & Q5). cbn [fst snd] in *.
      assert (In (x, y) (populated_bins cs (b_dmin bd) (b_dmax bd))) by (unfold bins_used in Hx; now apply filter_In in Hx).
      destruct (populated_edges _ _ _ _ (x, y) Hb Hne Hp HA H) as (_ & _ & _ & z' & F1 & F2). cbn [fst snd] in *.
      assert (y = 2 * x).
      { rewrite F1, F2, !x2_grid, !Rminus_0_r, plus_IZR, Rpower_plus, Rpower_1 by lra. ring. }
      assert (XL : x = lo) by lra. assert (YH : y = hi) by lra. now rewrite XL, YH. }
    unfold bins_used in SB, U |- *. rewrite B in SB, U |- *. cbn [filter fst snd] in SB, U |- *.
    destruct (Rle_dec lo lo); [|lra]. destruct (Rle_dec hi hi); [|lra].
    destruct (filter _ es) as [|e' r'] eqn:EF; [reflexivity|exfalso].
    assert (SS : Sorting.Sorted.StronglySorted lt (select_range bd (where_pos (b_n bd)) lo (Fin hi))) by (apply filter_sorted, where_pos_from_sorted).
    pose proof (U e' ltac:(right; now left)) as ->.
    destruct (select_range bd (where_pos (b_n bd)) lo (Fin hi)) as [|i [|j q]] eqn:EQ; try discriminate SB.
    cbn [map] in SB. injection SB as S1 S2 S3 S4 _.
    pose proof (apply_binning_good _ _ _ _ _ Hb Hne Hp HA) as G.
    apply Sorting.Sorted.StronglySorted_inv in SS. destruct SS as [_ FA]. apply Forall_inv in FA.
    assert (J : In j (select_range bd (where_pos (b_n bd)) lo (Fin hi))) by (rewrite EQ; right; now left).
    unfold select_range in J. apply filter_In in J. destruct J as [J _]. apply where_pos_In in J. rewrite (gb_len3 bd G) in J.
    pose proof (hi_lo bd G i j ltac:(lia)). pose proof (lo_hi bd G i ltac:(lia)). lra. }
  rewrite BU in EP. cbn [map fst snd] in EP.
  set (p := expected_point "differential" (pf_slope (Some (as_prodfn cfit pf))) cs 1 lo hi) in EP.
  assert (SL : pf_slope (Some (as_prodfn cfit pf)) lo hi = -3).
  { apply pf_slope_power with (c := pow10 (-3)); [apply pow10_pos|assumption|assumption|]. intros D HD.
    cbn [pf_C as_prodfn]. change (poly_C [-3; -3] D (-3) = pow10 (-3) * Rpower D (-3)).
    unfold poly_C, poly_C10. rewrite poly_peval. cbn [tl peval]. rewrite Rmult_0_r, Rplus_0_r, pow10_plus. f_equal.
    unfold pow10, log10, Rpower. f_equal. field. apply Rgt_not_eq. rewrite <- ln_1. apply ln_increasing; lra. }
  set (K := bin_bias_correction 2 (-3)).
  assert (HK : K = 7 / 6).
  { unfold K, bin_bias_correction. rewrite Rltb_false by (rewrite Rabs_left by lra; lra).
    assert (S2 : sqrt 2 * sqrt 2 = 2) by (apply sqrt_sqrt; lra). assert (0 < sqrt 2) by (apply sqrt_lt_R0; lra).
    assert (S1 : sqrt 2 <> 1) by (intros C; rewrite C in S2; lra).
    assert (A : Rpower 2 (- -3 / 2) = 2 * sqrt 2).
    { replace (- -3 / 2) with (1 + / 2) by lra. rewrite Rpower_plus, Rpower_1, Rpower_sqrt by lra. reflexivity. }
    assert (A' : Rpower 2 (-3 / 2) = / (2 * sqrt 2)).
    { replace (-3 / 2) with (- (- -3 / 2)) by lra. rewrite Rpower_Ropp, A. reflexivity. }
    rewrite A, A'. replace (sqrt 2 - 1 / sqrt 2) with (sqrt 2 / 2).
    2:{ apply Rmult_eq_reg_r with (sqrt 2); [|lra]. field_simplify; [|lra]. nra. }
    apply Rmult_eq_reg_r with (sqrt 2 * sqrt 2); [|nra]. field_simplify; [|lra]. nra. }
  set (Y := 1 / (1 * (hi - lo))).
  assert (HY : 0 < Y) by (unfold Y; apply Rdiv_lt_0_compat; lra).
  assert (PY : pt_y p = Y / K).
  { unfold p, expected_point. cbn [String.eqb Ascii.eqb Bool.eqb pt_y]. rewrite FB, R2, SL. reflexivity. }
  assert (PE : pt_err p = Y).
  { unfold p, expected_point. cbn [String.eqb Ascii.eqb Bool.eqb pt_err]. rewrite FB, NB. cbn [INR]. rewrite sqrt_1. unfold Y. field. lra. }
  unfold calculate_age. rewrite E. cbn [bind]. rewrite EP. unfold fit_values. cbn [forallb].
  rewrite (Rltb_true 0 (pt_y p)) by (rewrite PY, HK; apply Rdiv_lt_0_compat; lra). cbn [andb map].
  rewrite fit_unfold by (cbn; tauto || reflexivity). cbv zeta. cbn [bind].
  assert (L1 : np_log10 (pt_y p - 98 / 100 * pt_err p) = Nan).
  { unfold np_log10. rewrite PY, PE, HK. rewrite Rltb_false by lra. destruct (Reqb_spec (Y / (7 / 6) - 98 / 100 * Y) 0); [lra|reflexivity]. }
  rewrite L1, (np_log10_pos (pt_y p + 98 / 100 * pt_err p)) by (rewrite PY, PE, HK; lra). cbn [plus].
  match goal with |- context [evaluate pf "cumulative" ref (Some ?a)] => destruct (density_ok pf ref a Bpf I) as (nd & EN & _) end.
  rewrite EN. cbn [bind map value_t]. rewrite G1, G2, G3, NB, FB. do 5 eexists. reflexivity.
Qed.

(** ** Poisson ages *)
(** the limit x of a range, moved into the range of validity of the production function *)
Definition within (valid : R * R) (x : R) : R := Rmin (Rmax x (fst valid)) (snd valid).
(** The ages are the percentiles of one distribution; the fitted parameters and the density are those of the isochrons of these ages; the
    count is that of the craters in the valid part of the range.  The other outcome is the one of C12. *)
Theorem C79_poisson :
  forall erf cfit I1 pf cf ref s per b lo hi valid y1 y2,
    erf 0 = 0 -> (forall x y, x < y -> erf x < erf y) ->
    built pf -> has_coefficients pf -> positive_coefficients cf -> cf_a0 cf 1 <> 0 -> 0 < cc_area s ->
    pf_range pf = Ok valid ->
    let lo' := within valid lo in
    let hi' := within valid hi in
    pf_value pf "cumulative" lo' (cf_a0 cf 1) = Ok (Some y1) -> pf_value pf "cumulative" hi' (cf_a0 cf 1) = Ok (Some y2) -> 0 < y2 < y1 ->
    let k := number_between lo' hi' (cc_craters s) in
    (exists median lower upper a al au p nd,
      calculate_age erf cfit I1 pf cf ref s per b (lo, Fin hi) Poisson
        = Ok (mkMeas [Num median; Num lower; Num upper] [Num a; Num al; Num au] (INR k) (INR k) None nd) /\
      0 < lower /\ lower <= median <= upper /\ upper <= 5 /\
      pow10 a = N1 cf median /\ pow10 al = N1 cf lower /\ pow10 au = N1 cf upper /\
      craterpdf cf (fun d a => match evaluate pf "cumulative" d (Some a) with Ok (Some y) => y | _ => 0 end) (cc_area s) lo' hi' k pdf_samples = Ok p /\
      distribution p pdf_samples /\
      median = pdf_t p (1 / 2) /\ lower = pdf_t p ((1 - erf (1 / sqrt 2)) / 2) /\ upper = pdf_t p ((1 + erf (1 / sqrt 2)) / 2) /\
      density_at pf ref a nd) \/
    calculate_age erf cfit I1 pf cf ref s per b (lo, Fin hi) Poisson = Err IndexError.
Proof.
  intros erf cfit I1 pf cf ref s per b lo hi valid y1 y2 Z0 ZM B HC Hc NZ Ha VR lo' hi' V1 V2 Hy k.
  set (C := fun d a => number (evaluate pf "cumulative" d (Some a))).
  assert (C1 : C lo' (cf_a0 cf 1) = y1) by (unfold C; rewrite evaluate_value, V1 by assumption; reflexivity).
  assert (C2 : C hi' (cf_a0 cf 1) = y2) by (unfold C; rewrite evaluate_value, V2 by assumption; reflexivity).
  assert (RO : range_ok cf C (cc_area s) lo' hi') by (unfold range_ok; rewrite C1, C2; split; [exact Ha|lra]).
  assert (H2 : (2 <= pdf_samples)%nat) by (apply Nat.leb_le; vm_compute; reflexivity).
  assert (CA : calculate_age erf cfit I1 pf cf ref s per b (lo, Fin hi) Poisson =
    (do! p <- craterpdf cf C (cc_area s) lo' hi' k pdf_samples;
     let t := median1sigma erf p in
     let a0 := map (fun x => np_log10 (N1 cf x)) t in
     do! nd <- match a0 with Num a :: _ => do! y <- evaluate pf "cumulative" ref (Some a); Ok y | _ => Ok None end;
     Ok (mkMeas (map Num t) a0 (INR k) (INR k) None nd))).
  { unfold calculate_age. rewrite VR. cbn [bind fst snd clip_ext]. unfold k. rewrite <- count_range_between. reflexivity. }
  rewrite CA. clear CA.
  destruct (C12_when_the_pdf_exists cf C (cc_area s) lo' hi' k pdf_samples Hc RO H2) as [(p & EP)|(EP & _)]; rewrite EP; [left|now right].
  pose proof (C12_pdf_is_a_distribution cf C (cc_area s) lo' hi' k pdf_samples p Hc RO H2 EP) as D.
  cbn [bind].
  destruct (C13_median1sigma_order erf Z0 ZM p pdf_samples D H2) as (median & lower & upper & EM & O & _ & U5 & M1 & M2 & M3).
  assert (LP : 0 < lower).
  { rewrite M2. pose proof (pdf_t_range p pdf_samples D H2 ((1 - erf (1 / sqrt 2)) / 2)) as [Q _].
    pose proof (pdf_from_ts _ _ _ _ _ EP) as TS. fold (PdfProofs.grid cf pdf_samples) in TS. rewrite TS in Q.
    pose proof (grid_first_pos cf pdf_samples Hc H2). lra. }
  rewrite EM. cbn [map]. rewrite !np_log10_pos by (apply N1_pos; [assumption|lra]).
  destruct (density_ok pf ref (log10 (N1 cf median)) B HC) as (nd & EN & ND). rewrite EN. cbn [bind].
  exists median, lower, upper, (log10 (N1 cf median)), (log10 (N1 cf lower)), (log10 (N1 cf upper)), p, nd.
  split; [reflexivity|]. split; [exact LP|]. split; [exact O|]. split; [exact U5|].
  split; [apply pow10_log10, N1_pos; [assumption|lra]|]. split; [apply pow10_log10, N1_pos; [assumption|lra]|].
  split; [apply pow10_log10, N1_pos; [assumption|lra]|].
  split; [exact EP|]. split; [exact D|]. repeat (split; [assumption|]). exact ND.
Qed.

(** An unlimited range ends where the production function does. *)
Theorem C79_unlimited_range :
  forall erf cfit I1 pf cf ref s per b lo valid m, pf_range pf = Ok valid -> fst valid <= snd valid -> m = Poisson \/ m = BPoisson ->
    calculate_age erf cfit I1 pf cf ref s per b (lo, Inf) m = calculate_age erf cfit I1 pf cf ref s per b (lo, Fin (snd valid)) m.
Proof.
  intros erf cfit I1 pf cf ref s per b lo valid m VR HV M. unfold calculate_age. rewrite VR. cbn [bind fst snd].
  assert (E : clip_ext (fst valid) (snd valid) (Fin (snd valid)) = snd valid).
  { cbn [clip_ext]. unfold clip. rewrite Rmax_left by exact HV. apply Rmin_left. lra. }
  rewrite E. destruct M as [-> | ->]; reflexivity.
Qed.
(** a buffered age without a perimeter ends the program *)
Theorem C79_buffered_needs_perimeter :
  forall erf cfit I1 pf cf ref s b range valid, pf_range pf = Ok valid ->
    calculate_age erf cfit I1 pf cf ref s None b range BPoisson = Err SysExit.
Proof. intros erf cfit I1 pf cf ref s b range valid VR. unfold calculate_age. rewrite VR. reflexivity. Qed.

(** the hypotheses can be met: D^-3 with three craters, one of them alone in the smallest bin *)
Example C79_hypotheses_met :
  (exists cfit, solves_least_squares cfit) /\ positive_coefficients neukum83 /\ built (Poly [-3; -3] (1 / 10) 100) /\
  has_coefficients (Poly [-3; -3] (1 / 10) 100) /\ ex_craters <> [] /\
  exists bd ri lo hi, apply_binning ex_craters "root-2" 0 = Ok (bd, ri) /\ In lo (b_dmin bd) /\ In hi (b_dmax bd) /\ lo < hi /\
    (0 < number_between lo hi ex_craters)%nat.
Proof.
  split; [exact a_solver|]. split; [exact neukum83_positive|]. split; [constructor|]. split; [exact I|].
  destruct ex_craters_ok as [H1 H2]. split; [exact H1|].
  assert (Hb : In "root-2"%string real_binnings) by (cbn; tauto).
  destruct (plotted_points ex_craters 1 "root-2" "cumulative" None false Hb H1 H2 ex_fractions ltac:(lra) ltac:(cbn; tauto)) as (bd & ri & pd & HA & _ & _).
  pose proof (where_pos_nonempty _ _ _ _ _ Hb H1 H2 HA ex_fractions) as HW.
  pose proof (where_pos_edges _ _ _ _ _ Hb H1 H2 HA) as HE.
  destruct (populated_bins ex_craters (b_dmin bd) (b_dmax bd)) as [|e es] eqn:B.
  { destruct (where_pos (b_n bd)); [congruence|discriminate]. }
  destruct (populated_edges _ _ _ _ e Hb H1 H2 HA ltac:(rewrite B; left; reflexivity)) as (P1 & P2 & P3 & z & E1 & E2).
  assert (Hin : In e (combine (b_dmin bd) (b_dmax bd))).
  { assert (In e (populated_bins ex_craters (b_dmin bd) (b_dmax bd))) by (rewrite B; now left). unfold populated_bins in H. now apply filter_In in H. }
  destruct e as [lo hi]. exists bd, ri, lo, hi. split; [exact HA|]. split; [eapply in_combine_l; exact Hin|].
  split; [eapply in_combine_r; exact Hin|]. split; [exact P2|]. apply number_of_fraction. exact P3.
Qed.
Example C79_poisson_hypotheses_met :
  exists valid y1 y2, pf_range (Poly [-3; -3] (1 / 10) 100) = Ok valid /\
    pf_value (Poly [-3; -3] (1 / 10) 100) "cumulative" (within valid 1) (cf_a0 neukum83 1) = Ok (Some y1) /\
    pf_value (Poly [-3; -3] (1 / 10) 100) "cumulative" (within valid 1000) (cf_a0 neukum83 1) = Ok (Some y2) /\ 0 < y2 < y1 /\
    cf_a0 neukum83 1 <> 0.
Proof.
  exists (1 / 10, 100). do 2 eexists. split; [reflexivity|]. split; [reflexivity|]. split; [reflexivity|].
  assert (W1 : within (1 / 10, 100) 1 = 1) by (unfold within; cbn [fst snd]; rewrite Rmax_left, Rmin_left; lra).
  assert (W2 : within (1 / 10, 100) 1000 = 100) by (unfold within; cbn [fst snd]; rewrite Rmax_left, Rmin_right; lra).
  rewrite W1, W2. unfold poly_C, poly_C10. rewrite !poly_peval. cbn [tl peval].
  split; [split; [apply pow10_pos|]|].
  - apply pow10_lt. pose proof (log10_lt 1 100 ltac:(lra) ltac:(lra)). lra.
  - unfold cf_a0. rewrite <- log10_1. intros C.
    assert (NP : 0 < N1 neukum83 1) by (apply N1_pos; [exact neukum83_positive|lra]).
    assert (L : N1 neukum83 1 < 1).
    { unfold N1, neukum83. cbn [ch_p0 ch_p1 ch_p3].
      assert (X : exp (693 / 100 * 1) <= 3 ^ 7).
      { apply Rle_trans with (exp 7); [apply Rlt_le, exp_increasing; lra|].
        replace 7 with (1 + 1 + 1 + 1 + 1 + 1 + 1) by lra. rewrite !exp_plus. pose proof exp_le_3 as E3. pose proof (exp_pos 1).
        assert (P : forall n, exp 1 ^ n <= 3 ^ n) by (intros; apply pow_incr; lra). specialize (P 7%nat). cbn [pow] in P |- *. lra. }
      lra. }
    assert (log10 (N1 neukum83 1) < log10 1) by (apply log10_lt; lra). lra.
Qed.
Print Assumptions C79_any_fit.
Print Assumptions C79_cumulative_fit.
Print Assumptions C79_differential_fit.
Print Assumptions C79_differential_lower_limit_refuted.
Print Assumptions C79_no_lower_limit.
Print Assumptions C79_poisson.
Print Assumptions C79_unlimited_range.
Print Assumptions C79_buffered_needs_perimeter.
