(** Properties C19-C24: production functions. *)
From Coq Require Import String List ZArith Reals Lra Lia Bool.
From Verif Require Import Base NumModel NumLemmas InterpProofs BinModel CountModel CountProofs CountProofs2
  ProdModel ProdSpec ProdProofs ProdProofs2 ProdProofs3.
Import ListNotations.
Local Open Scope string_scope.
Local Open Scope R_scope.

(** ** C19 *)
Theorem C19_density_at_1km :
  forall pf a0, built pf -> a0 <> 0 -> evaluate pf "cumulative" 1 (Some a0) = Ok (Some (pow10 a0)).
Proof.
  intros pf a0 B Ha. rewrite evaluate_value by assumption. destruct B as [a lo hi|h idx t F Hi H2 E].
  - unfold pf_value. cbn [String.eqb Ascii.eqb Bool.eqb]. now rewrite poly_C_1km.
  - rewrite (make_tabular_ok h idx (conj F Hi)) in E. injection E as <-. unfold pf_value. cbn [String.eqb Ascii.eqb Bool.eqb].
    pose proof (tab_C_node h idx (conj F Hi) a0 idx Hi) as Q. unfold root2_edge in Q.
    replace (IZR (Z.of_nat idx - Z.of_nat idx) / 2) with 0 in Q by (rewrite Z.sub_diag; lra).
    rewrite Rpower_O in Q by lra. rewrite Q. cbn [bind]. do 2 f_equal. pose proof (total_pos idx h F Hi). field. lra.
Qed.
Print Assumptions C19_density_at_1km.
Theorem C19_a0_scales_every_presentation :
  forall pf pres d a0 x, built pf -> In pres ["cumulative"; "differential"; "R-plot"; "Hartmann"] ->
    a0 <> 0 -> a0 + x <> 0 ->
    exists y, evaluate pf pres d (Some a0) = Ok (Some y) /\ evaluate pf pres d (Some (a0 + x)) = Ok (Some (pow10 x * y)).
Proof.
  intros pf pres d a0 x B P H1 H2. rewrite !evaluate_value by assumption.
  destruct (value_total pf pres d a0 B P) as (y & E). exists y. split; [exact E|]. now apply value_scale.
Qed.
Print Assumptions C19_a0_scales_every_presentation.

Lemma ex_table_built : exists t, make_tabular [8; 4; 2] (Z.of_nat 1) = Ok t /\ built (Tab t).
Proof.
  assert (F : Forall (fun x => 0 < x) [8; 4; 2]) by (repeat constructor; lra).
  assert (I : (1 < length [8; 4; 2])%nat) by (cbn; lia).
  exists (the_table [8; 4; 2] 1). assert (E := make_tabular_ok [8; 4; 2] 1 (conj F I)). split; [exact E|].
  apply (built_tab [8; 4; 2] 1 _ F I); [cbn; lia|exact E].
Qed.
Example C19_hypotheses_met : (exists t, make_tabular [8; 4; 2] 1 = Ok t /\ built (Tab t)) /\
  built (Poly [-3; -4; 1 / 2] (1 / 10) 100) /\ -3 <> 0 /\ -3 + 1 <> 0.
Proof. split; [exact ex_table_built|]. split; [apply built_poly|]. lra. Qed.

(** ** C20 *)
Lemma removelast_len (l : list R) : length (removelast l) = (length l - 1)%nat.
Proof. induction l as [|x [|y l] IH]; [reflexivity..|]. cbn [removelast length] in *. lia. Qed.
Theorem C20_presentations_of_one_function :
  forall a lo hi a0, a0 <> 0 ->
    exists C F : R -> R,
      (forall d, evaluate (Poly a lo hi) "cumulative" d (Some a0) = Ok (Some (C d)) /\
                 C d = pow10 (series 0 (a0 :: tl a) (log10 d))) /\
      (forall d, 0 < d ->
         evaluate (Poly a lo hi) "differential" d (Some a0) = Ok (Some (F d)) /\
         derivable_pt_lim C d (- F d) /\
         evaluate (Poly a lo hi) "R-plot" d (Some a0) = Ok (Some (d ^ 3 * F d)) /\
         evaluate (Poly a lo hi) "Hartmann" d (Some a0) = Ok (Some (d * F d * (Rpower 2 (1 / 4) - Rpower 2 (- (1 / 4)))))).
Proof.
  intros a lo hi a0 Ha. exists (fun d => poly_C a d a0), (fun d => poly_F a d a0). split.
  - intros d. rewrite evaluate_value by assumption. split; [reflexivity|].
    unfold poly_C, poly_C10. rewrite peval_series, poly_peval. cbn [pow]. now rewrite Rmult_1_l.
  - intros d Hd. rewrite !evaluate_value by assumption. split; [reflexivity|]. split; [now apply poly_C_deriv|].
    unfold pf_value. cbn [String.eqb Ascii.eqb Bool.eqb]. split; [now rewrite poly_R_cube|].
    unfold poly_H. do 2 f_equal. ring.
Qed.
Print Assumptions C20_presentations_of_one_function.
(** the same identities for tables hold between the first and the last bin mean (outside, the program
    holds each presentation constant) *)
Theorem C20_table_R_is_cube_times_F :
  forall h idx t d a0 F, Forall (fun x => 0 < x) h -> (idx < length h)%nat -> (2 <= length h)%nat ->
    make_tabular h (Z.of_nat idx) = Ok t ->
    root2_centre (Z.of_nat idx) 0 <= d <= root2_centre (Z.of_nat idx) (length h - 1) ->
    evaluate (Tab t) "differential" d (Some a0) = Ok (Some F) ->
    evaluate (Tab t) "R-plot" d (Some a0) = Ok (Some (d ^ 3 * F)).
Proof.
  intros h idx t d a0 F Fh Hi H2 E Hd. rewrite !evaluate_tab.
  rewrite (make_tabular_ok h idx (conj Fh Hi)) in E. injection E as <-. unfold pf_value. cbn [String.eqb Ascii.eqb Bool.eqb].
  destruct (tab_F _ _ _) as [z|e] eqn:I; cbn [bind]; [|discriminate]. intros J; injection J as <-.
  rewrite (tab_R_inside h idx (conj Fh Hi) H2 d a0 z Hd I). reflexivity.
Qed.
Print Assumptions C20_table_R_is_cube_times_F.
(** at the bin means: differential = Hartmann / (D (2^(1/4) - 2^(-1/4))) / bias correction of the local slope *)
Theorem C20_table_differential_at_bin_means :
  forall h idx t a0 i, Forall (fun x => 0 < x) h -> (idx < length h)%nat -> (i + 1 < length h)%nat ->
    make_tabular h (Z.of_nat idx) = Ok t ->
    let D := root2_centre (Z.of_nat idx) i in
    let k := (log10 (total_from i h) - log10 (total_from (i + 1) h)) / log10 (sqrt 2) in
    exists H, evaluate (Tab t) "Hartmann" D (Some a0) = Ok (Some H) /\
      evaluate (Tab t) "differential" D (Some a0) =
        Ok (Some (H / (D * (Rpower 2 (1 / 4) - Rpower 2 (- (1 / 4)))) / bin_bias_correction (sqrt 2) k)).
Proof.
  intros h idx t a0 i Fh Hi Hi2 E D k. rewrite !evaluate_tab.
  rewrite (make_tabular_ok h idx (conj Fh Hi)) in E. injection E as <-. unfold pf_value. cbn [String.eqb Ascii.eqb Bool.eqb].
  exists (pow10 a0 * nth i h 0 / total_from idx h). unfold D. rewrite (tab_H_node h idx (conj Fh Hi)) by lia.
  split; [reflexivity|].
  destruct (f_ok h idx (conj Fh Hi) ltac:(lia) a0) as (f & ks & K & Ef & Lf & Nf). unfold tab_F. rewrite Ef. cbn [bind].
  assert (Hii : (i < length h)%nat) by lia. destruct (Nf i Hii) as (Pf & Vf).
  rewrite <- (dmean_nth h idx i Hii).
  rewrite (log_interp_node h); [|apply dmean_len|exact Lf|apply dmean_sorted|exact Hii|exact Pf].
  cbn [bind]. do 2 f_equal. rewrite Vf, h_nth by first [exact (conj Fh Hi)|exact Hii].
  assert (Ek : nth i ks 0 = k); [|rewrite Ek].
  - unfold tab_slopes in K. destruct (pyindex _ _) as [k2|] eqn:I2 in K; cbn [bind] in K; [|discriminate]. injection K as <-.
    set (z := zip _ _ _) in *.
    assert (Lz : length z = length h).
    { unfold z. rewrite zip_len; rewrite ?app_length, ?tl_len, ?firstn_length, ?(hC_len h idx); cbn [length]; lia. }
    rewrite app_nth1.
    2:{ rewrite removelast_len, Lz. lia. }
    assert (RL : forall (l : list R) j, (S j < length l)%nat -> nth j (removelast l) 0 = nth j l 0).
    { intros l j Hj. assert (Z : l <> []) by (intros Z; rewrite Z in Hj; cbn in Hj; lia).
      rewrite (app_removelast_last 0 Z) at 2. rewrite app_nth1; [reflexivity|].
      rewrite removelast_len. lia. }
    rewrite RL by lia. unfold z. rewrite zip_nth; rewrite ?app_length, ?tl_len, ?firstn_length, ?(hC_len h idx); try lia.
    rewrite app_nth1 by (rewrite tl_len, (hC_len h idx); lia). rewrite tl_nth.
    rewrite !hC_nth by first [exact (conj Fh Hi)|lia]. unfold k. replace (i + 1)%nat with (Datatypes.S i) by lia. f_equal. ring.
  - pose proof bw_pos as H. pose proof (bias_positive (sqrt 2) k sqrt2_gt1).
    assert (0 < root2_centre (Z.of_nat idx) i) by (unfold root2_centre, Rpower; apply exp_pos).
    pose proof (total_pos idx h Fh Hi). field. repeat split; lra.
Qed.
Print Assumptions C20_table_differential_at_bin_means.
Example C20_hypotheses_met : -3 <> 0 /\ Forall (fun x => 0 < x) [8; 4; 2] /\ (1 < length [8; 4; 2])%nat /\ (2 <= length [8; 4; 2])%nat.
Proof. repeat split; try lra; try (cbn; lia). repeat constructor; lra. Qed.

(** ** C21 *)
(** Given an a0 other than 0, the function's own first coefficient plays no role. *)
Theorem C21_given_a0_replaces_own :
  forall b b' r lo hi pres d a0, a0 <> 0 ->
    evaluate (Poly (b :: r) lo hi) pres d (Some a0) = evaluate (Poly (b' :: r) lo hi) pres d (Some a0).
Proof. intros b b' r lo hi pres d a0 H. rewrite !evaluate_value by assumption. reflexivity. Qed.
Print Assumptions C21_given_a0_replaces_own.
(** Without an a0 the function is the one its own coefficients describe. *)
Theorem C21_own_a0_when_omitted :
  forall b r lo hi d,
    evaluate (Poly (b :: r) lo hi) "cumulative" d None = Ok (Some (pow10 (series 0 (b :: r) (log10 d)))) /\
    (b <> 0 -> forall pres, evaluate (Poly (b :: r) lo hi) pres d None = evaluate (Poly (b :: r) lo hi) pres d (Some b)).
Proof.
  intros b r lo hi d. split.
  - unfold evaluate, effective_a0. change (pyindex (b :: r) 0) with (Ok b). cbn [bind]. unfold pf_value.
    cbn [String.eqb Ascii.eqb Bool.eqb]. unfold poly_C, poly_C10. rewrite peval_series, poly_peval. cbn [pow tl]. now rewrite Rmult_1_l.
  - intros Hb pres. rewrite evaluate_value by assumption. reflexivity.
Qed.
Print Assumptions C21_own_a0_when_omitted.
(** A table has no own a0: every given value is honoured, 0 included, and omitting it means 0. *)
Theorem C21_table_honours_every_a0 :
  forall h idx t a0, Forall (fun x => 0 < x) h -> (idx < length h)%nat -> make_tabular h (Z.of_nat idx) = Ok t ->
    evaluate (Tab t) "cumulative" 1 (Some a0) = Ok (Some (pow10 a0)) /\
    evaluate (Tab t) "cumulative" 1 None = Ok (Some 1).
Proof.
  intros h idx t a0 F Hi E. rewrite (make_tabular_ok h idx (conj F Hi)) in E. injection E as <-.
  assert (Q : forall a, pf_value (Tab (the_table h idx)) "cumulative" 1 a = Ok (Some (pow10 a))).
  { intros a. unfold pf_value. cbn [String.eqb Ascii.eqb Bool.eqb].
    pose proof (tab_C_node h idx (conj F Hi) a idx Hi) as Q. unfold root2_edge in Q.
    replace (IZR (Z.of_nat idx - Z.of_nat idx) / 2) with 0 in Q by (rewrite Z.sub_diag; lra).
    rewrite Rpower_O in Q by lra. rewrite Q. cbn [bind]. do 2 f_equal. pose proof (total_pos idx h F Hi). field. lra. }
  rewrite evaluate_tab, Q. split; [reflexivity|]. unfold evaluate, effective_a0. cbn [bind]. rewrite Q.
  now rewrite pow10_0.
Qed.
Print Assumptions C21_table_honours_every_a0.
(** For a polynomial, asking for a0 = 0 (one crater per square km) silently gives the own a0. *)
Theorem C21_zero_a0_is_ignored_refuted :
  forall b r lo hi, b <> 0 ->
    evaluate (Poly (b :: r) lo hi) "cumulative" 1 (Some 0) = Ok (Some (pow10 b)) /\ pow10 b <> pow10 0.
Proof.
  intros b r lo hi Hb. split.
  - unfold evaluate, effective_a0. destruct (Reqb_spec 0 0) as [_|N]; [|now contradiction N].
    change (pyindex (b :: r) 0) with (Ok b). cbn [bind]. unfold pf_value. cbn [String.eqb Ascii.eqb Bool.eqb]. now rewrite poly_C_1km.
  - intros E. destruct (Rtotal_order b 0) as [L|[L|L]]; [|contradiction|]; apply pow10_lt in L; lra.
Qed.
Print Assumptions C21_zero_a0_is_ignored_refuted.
Example C21_hypotheses_met : -3 <> 0 /\ Forall (fun x => 0 < x) [8; 4; 2].
Proof. split; [lra|repeat constructor; lra]. Qed.

(** ** C22 *)
Theorem C22_table_gives_table_densities :
  forall h idx a0, Forall (fun x => 0 < x) h -> (idx < length h)%nat ->
    exists t, make_tabular h (Z.of_nat idx) = Ok t /\
      evaluate (Tab t) "cumulative" 1 (Some a0) = Ok (Some (pow10 a0)) /\
      forall i, (i < length h)%nat ->
        evaluate (Tab t) "cumulative" (root2_edge (Z.of_nat idx) i) (Some a0)
          = Ok (Some (pow10 a0 * total_from i h / total_from idx h)) /\
        evaluate (Tab t) "Hartmann" (root2_centre (Z.of_nat idx) i) (Some a0)
          = Ok (Some (pow10 a0 * nth i h 0 / total_from idx h)).
Proof.
  intros h idx a0 F Hi. exists (the_table h idx). assert (E := make_tabular_ok h idx (conj F Hi)). split; [exact E|].
  split; [exact (proj1 (C21_table_honours_every_a0 h idx _ a0 F Hi E))|].
  intros i Hii. rewrite !evaluate_tab. unfold pf_value. cbn [String.eqb Ascii.eqb Bool.eqb].
  rewrite (tab_C_node h idx (conj F Hi)), (tab_H_node h idx (conj F Hi)) by assumption. split; reflexivity.
Qed.
Print Assumptions C22_table_gives_table_densities.
(** so neighbouring incremental densities have the table's ratio, and the cumulative curve drops by the
    incremental density across each bin *)
Theorem C22_incremental_is_cumulative_difference :
  forall h idx a0 t i, Forall (fun x => 0 < x) h -> (idx < length h)%nat -> (i + 1 < length h)%nat ->
    make_tabular h (Z.of_nat idx) = Ok t ->
    exists c c' n n', evaluate (Tab t) "cumulative" (root2_edge (Z.of_nat idx) i) (Some a0) = Ok (Some c) /\
      evaluate (Tab t) "cumulative" (root2_edge (Z.of_nat idx) (i + 1)) (Some a0) = Ok (Some c') /\
      evaluate (Tab t) "Hartmann" (root2_centre (Z.of_nat idx) i) (Some a0) = Ok (Some n) /\
      evaluate (Tab t) "Hartmann" (root2_centre (Z.of_nat idx) (i + 1)) (Some a0) = Ok (Some n') /\
      c - c' = n /\ n * nth (i + 1) h 0 = n' * nth i h 0 /\ c' < c.
Proof.
  intros h idx a0 t i F Hi Hi2 E. destruct (C22_table_gives_table_densities h idx a0 F Hi) as (t' & E' & _ & Q).
  rewrite E in E'. injection E' as <-. destruct (Q i ltac:(lia)) as (A & B). destruct (Q (i + 1)%nat ltac:(lia)) as (A' & B').
  do 4 eexists. split; [exact A|]. split; [exact A'|]. split; [exact B|]. split; [exact B'|].
  pose proof (total_step i h ltac:(lia)) as T. pose proof (total_pos idx h F Hi) as P0.
  replace (Datatypes.S i) with (i + 1)%nat in T by lia. pose proof (pow10_pos a0) as P1.
  assert (Hn : 0 < nth i h 0) by (rewrite Forall_forall in F; apply F, nth_In; lia).
  split; [rewrite T; field; lra|]. split; [field; lra|].
  rewrite T. unfold Rdiv. apply Rmult_lt_compat_r; [now apply Rinv_0_lt_compat|]. apply Rmult_lt_compat_l; lra.
Qed.
Print Assumptions C22_incremental_is_cumulative_difference.
Example C22_hypotheses_met : Forall (fun x => 0 < x) [8; 4; 2] /\ (1 + 1 < length [8; 4; 2])%nat.
Proof. split; [repeat constructor; lra|cbn; lia]. Qed.

(** ** C23 *)
(** The weights are the densities themselves (cumulative) or the error bars (differential). *)
Theorem C23_fit_is_the_weighted_least_squares_optimum :
  forall cfit pf pres (model : R -> R -> R) d y err,
    solves_least_squares cfit -> built pf -> In pres ["cumulative"; "differential"] ->
    d <> [] -> length d = length y -> length y = length err ->
    Forall (fun x => 0 < x) d -> Forall (fun x => 0 < x) y -> Forall (fun x => 0 < x) err ->
    (forall x a, In x d -> pf_value pf pres x a = Ok (Some (model x a)) /\ 0 < model x a) ->
    let w := if String.eqb pres "cumulative" then y else err in
    exists best lo hi, fit cfit pf pres d y err = Ok [best; lo; hi] /\
      minimises (log_misfit model w d y) best /\
      (forall a, minimises (log_misfit model w d y) a -> a = best) /\
      (forall a, Forall2 (fun x z => z = model x a) d y -> best = a).
Proof.
  intros cfit pf pres model d y err LS B P NE L1 L2 Pd Py Pe M w.
  do 3 eexists. split; [now apply (fit_result cfit pf pres model d y err)|].
  assert (Q := best_min cfit pf pres model d y err LS B P NE L1 L2 Pd Py Pe M).
  split; [exact Q|]. split.
  - intros a Ha. apply (misfit_unique cfit pf pres model d y err B P NE L1 L2 Pd Py Pe M); assumption.
  - intros a Ha. exact (fit_recovers cfit pf pres model d y err LS B P NE L1 L2 Pd Py Pe M a Ha).
Qed.
Print Assumptions C23_fit_is_the_weighted_least_squares_optimum.
Theorem C23_limits_bracket_the_fit :
  forall cfit pf pres d0 d y0 y e0 err,
    In pres ["cumulative"; "differential"] -> length d = length y -> length y = length err ->
    0 <= e0 -> 98 / 100 * e0 < y0 ->
    exists best lo hi, fit cfit pf pres (d0 :: d) (y0 :: y) (e0 :: err) = Ok [best; lo; hi] /\ lo <= best <= hi /\
      pow10 (lo - best) * y0 = y0 - 98 / 100 * e0 /\ pow10 (hi - best) * y0 = y0 + 98 / 100 * e0.
Proof.
  intros cfit pf pres d0 d y0 y e0 err P L1 L2 H1 H2.
  rewrite fit_unfold by assumption. cbv zeta. do 3 eexists. split; [reflexivity|].
  assert (log10 (y0 - 98 / 100 * e0) <= log10 y0) by (apply log10_le; lra).
  assert (log10 y0 <= log10 (y0 + 98 / 100 * e0)) by (apply log10_le; lra).
  split; [lra|]. generalize (cfit (fit_function pf pres) (map log10 (doubled (d0 :: d))) (map log10 (doubled (y0 :: y)))
                  (fit_sigma pres (doubled (y0 :: y)) (doubled (e0 :: err)))). intros b.
  assert (Y : pow10 (log10 y0) = y0) by (apply pow10_log10; lra).
  assert (K : forall X, pow10 X * y0 = pow10 (X + log10 y0)) by (intros X; now rewrite pow10_plus, Y).
  split; rewrite K.
  - match goal with |- pow10 ?u = _ => replace u with (log10 (y0 - 98 / 100 * e0)) by ring end. apply pow10_log10. lra.
  - match goal with |- pow10 ?u = _ => replace u with (log10 (y0 + 98 / 100 * e0)) by ring end. apply pow10_log10. lra.
Qed.
Print Assumptions C23_limits_bracket_the_fit.
Theorem C23_empty_range_exits : forall cfit pf pres, fit cfit pf pres [] [] [] = Err SysExit.
Proof. reflexivity. Qed.

(** a least-squares solver exists, and the hypotheses on the data can be met *)
Lemma a_solver : exists cfit, solves_least_squares cfit.
Proof.
  exists (fun f xs ys ss => wres (fun x => f x 0) xs ys ss / wsum ss).
  intros f xs ys ss H1 H2 H3 H4 H5. apply (ls_minimum f (fun x => f x 0)); auto.
Qed.
Example C23_hypotheses_met : (exists cfit, solves_least_squares cfit) /\
  let pf := Poly [-3; -3] (1 / 10) 100 in
  built pf /\
  forall x a, In x [1; 2] -> pf_value pf "cumulative" x a = Ok (Some (poly_C [-3; -3] x a)) /\ 0 < poly_C [-3; -3] x a.
Proof.
  split; [exact a_solver|]. cbv zeta. split; [apply built_poly|]. intros x a _. split; [reflexivity|]. apply pow10_pos.
Qed.

(** ** C24 *)
Theorem C24_isochron_without_equilibrium :
  forall pf pres a0, getisochron pf pres a0 None = pf_getplotdata pf pres (Some a0) None.
Proof.
  intros. unfold getisochron. destruct (pf_getplotdata _ _ _ _); reflexivity.
Qed.
Theorem C24_isochron_cut_at_equilibrium :
  forall pf pres a0 b ea lo hi iso e, 0 < lo < hi ->
    getisochron pf pres a0 None = Ok iso ->
    pf_getplotdata (Poly (b :: ea) lo hi) pres None None = Ok e ->
    exists out keep, getisochron pf pres a0 (Some (Poly (b :: ea) lo hi)) = Ok out /\ out = filter keep iso /\
      (forall q, In q e -> evaluate (Poly (b :: ea) lo hi) pres (fst q) None = Ok (Some (snd q))) /\
      forall p, In p iso -> lo < fst p ->
        exists q, In q e /\ fst q < fst p /\ (forall q', In q' e -> fst q' < fst p -> fst q' <= fst q) /\
                  (In p out <-> snd p < 8 / 10 * snd q).
Proof.
  intros pf pres a0 b ea lo hi iso e Hl Hiso He. destruct (pfget_poly _ _ _ _ _ _ Hl He) as (Le & Ne & Ve).
  set (f := fun p : R * R => pyindex (map snd e) (value_locate (map fst e) (fst p))).
  set (g := fun p => match f p with Ok y => y | Err _ => 0 end).
  assert (Fg : forall p, In p iso -> f p = Ok (g p)).
  { intros p _. unfold g. assert (exists y, f p = Ok y) as (y & ->); [|reflexivity]. unfold f, value_locate.
    pose proof (searchsorted_le (map fst e) (fst p)) as S. rewrite map_length, Le in S.
    destruct (searchsorted (map fst e) (fst p)) as [|k].
    - change (Z.of_nat 0 - 1)%Z with (-1)%Z. rewrite pyindex_last; [eauto|]. intros N. apply (f_equal (@length R)) in N.
      rewrite map_length, Le in N. discriminate.
    - replace (Z.of_nat (Datatypes.S k) - 1)%Z with (Z.of_nat k) by lia. rewrite (pyindex_nat _ _ 0); [eauto|]. rewrite map_length. lia. }
  destruct (filter_keep f iso g (fun p ey => Rltb (snd p) (ey * (8 / 10))) Fg) as (kp & E & FK).
  exists (filter (fun p => Rltb (snd p) (g p * (8 / 10))) iso), (fun p => Rltb (snd p) (g p * (8 / 10))).
  split; [|split; [reflexivity|split]].
  - unfold getisochron in Hiso |- *. destruct (pf_getplotdata pf pres (Some a0) None) as [i|]; [|discriminate].
    cbn [bind] in Hiso |- *. injection Hiso as ->. rewrite He. cbn [bind]. unfold f in E. rewrite E. cbn [bind]. now rewrite FK.
  - intros q Hq. rewrite <- (Ve q Hq). destruct (Req_dec b 0) as [Z|Z].
    + unfold evaluate, effective_a0. rewrite Z. destruct (Reqb_spec 0 0) as [_|N]; [reflexivity|now contradiction N].
    + rewrite evaluate_value by exact Z. reflexivity.
  - intros p Hp Hlt. set (s := searchsorted (map fst e) (fst p)).
    assert (S0 : (0 < s)%nat).
    { destruct (Nat.eq_dec s 0) as [Z|Z]; [|lia]. exfalso.
      pose proof (searchsorted_above (map fst e) (fst p)) as A. fold s in A. rewrite Z, map_length, Le in A. specialize (A ltac:(lia)).
      change 0 with (fst (0, 0)) in A at 1. rewrite map_nth, Ne in A by lia. cbn [INR] in A.
      rewrite Rmult_0_l, Rplus_0_r, pow10_log10 in A by lra. lra. }
    pose proof (searchsorted_le (map fst e) (fst p)) as SL. fold s in SL. rewrite map_length, Le in SL.
    set (k := (s - 1)%nat). assert (Hk : (k < 400)%nat) by (unfold k; lia).
    exists (nth k e (0, 0)). split; [apply nth_In; lia|].
    assert (KL : forall j, (j < s)%nat -> fst (nth j e (0, 0)) < fst p).
    { intros j Hj. pose proof (searchsorted_below (map fst e) (fst p) j Hj) as A.
      change 0 with (fst (0, 0)) in A at 1. now rewrite map_nth in A. }
    split; [apply KL; unfold k; lia|]. split.
    + intros q' Hq' Hq'lt. destruct (In_nth e q' (0, 0) Hq') as (j & Hj & <-).
      destruct (Nat.lt_ge_cases j s) as [J|J].
      * destruct (Nat.eq_dec j k) as [->|N]; [lra|]. apply Rlt_le. apply (pfget_sorted ea b lo hi pres e); auto. unfold k in *; lia.
      * exfalso. assert (Hs : (s < 400)%nat) by lia.
        pose proof (searchsorted_above (map fst e) (fst p)) as A. fold s in A. rewrite map_length, Le in A. specialize (A Hs).
        change 0 with (fst (0, 0)) in A at 1. rewrite map_nth in A.
        destruct (Nat.eq_dec j s) as [->|N]; [lra|].
        pose proof (pfget_sorted ea b lo hi pres e s j Hl He ltac:(lia)). lra.
    + rewrite filter_In. assert (G : g p = snd (nth k e (0, 0))).
      { unfold g, f, value_locate. fold s. replace (Z.of_nat s - 1)%Z with (Z.of_nat k) by (unfold k; lia).
        rewrite (pyindex_nat _ _ 0) by (rewrite map_length; lia). change 0 with (snd (0, 0)). now rewrite map_nth. }
      rewrite G. split.
      * intros (_ & T). destruct (Rltb_spec (snd p) (snd (nth k e (0, 0)) * (8 / 10))) as [L|L]; [lra|discriminate].
      * intros L. split; [exact Hp|]. apply Rltb_true. lra.
Qed.
Print Assumptions C24_isochron_cut_at_equilibrium.

(** Nothing is said above about points at or below the smallest equilibrium diameter: they are compared
    with the equilibrium density at the LARGEST diameter. *)
Theorem C24_below_equilibrium_range_refuted :
  exists pf pres a0 ef iso out p y,
    getisochron pf pres a0 None = Ok iso /\ getisochron pf pres a0 (Some ef) = Ok out /\ In p iso /\
    evaluate ef pres (fst p) None = Ok (Some y) /\ snd p < 8 / 10 * y /\ ~ In p out.
Proof.
  set (pf := Poly [1; -2] 1 10). set (ef := Poly [3; -2] 1 10).
  assert (Cv : forall b a x, poly_C [b; -2] x a = pow10 (a - 2 * log10 x)).
  { intros b a x. unfold poly_C, poly_C10. rewrite poly_peval. cbn [tl peval]. f_equal. ring. }
  assert (G : forall b a, (b <> 0) -> exists l, pf_getplotdata (Poly [b; -2] 1 10) "cumulative" (Some a) None = Ok l /\
              (a <> 0 -> nth 0 l (0, 0) = (1, pow10 a) /\ length l = 400%nat /\ nth 399 l (0, 0) = (10, pow10 (a - 2)))).
  { intros b a Hb. assert (T : forall ds, exists l, mapM (fun d => do! y <- evaluate (Poly [b; -2] 1 10) "cumulative" d (Some a);
                 match y with Some y => Ok (d, y) | None => Err TypeError end) ds = Ok l).
    { induction ds as [|x ds (l & IH)]; [exists []; reflexivity|].
      destruct (Req_dec a 0) as [Z|Z].
      - cbn [mapM]. unfold evaluate at 1, effective_a0. rewrite Z in IH |- *. destruct (Reqb_spec 0 0) as [_|N]; [|now contradiction N].
        change (pyindex [b; -2] 0) with (Ok b). cbn [bind]. unfold pf_value at 1. cbn [String.eqb Ascii.eqb Bool.eqb bind].
        rewrite IH. cbn [bind]. eauto.
      - cbn [mapM]. rewrite evaluate_value by exact Z. unfold pf_value at 1. cbn [String.eqb Ascii.eqb Bool.eqb bind].
        rewrite IH. cbn [bind]. eauto. }
    unfold pf_getplotdata. cbn [bind pf_range fst snd].
    replace (clip 1 10 1) with 1 by (unfold clip; rewrite Rmax_left, Rmin_left; lra).
    replace (clip 1 10 10) with 10 by (unfold clip; rewrite Rmax_left, Rmin_left; lra).
    destruct (T (map pow10 (linspace (log10 1) (log10 10) 400))) as (l & El). exists l. split; [exact El|]. intros Ha.
    pose proof (mapM_length _ _ _ El) as L. rewrite map_length, linspace_length in L.
    assert (N : forall i, (i < 400)%nat -> nth i l (0, 0) = (pow10 (nth i (linspace (log10 1) (log10 10) 400) 0),
        pow10 (a - 2 * (nth i (linspace (log10 1) (log10 10) 400) 0)))).
    { intros i Hi. pose proof (mapM_nth _ _ _ (pow10 0) (0, 0) i El) as Q. rewrite map_length, linspace_length in Q.
      specialize (Q Hi). rewrite map_nth in Q. rewrite evaluate_value in Q by exact Ha. unfold pf_value in Q.
      cbn [String.eqb Ascii.eqb Bool.eqb bind] in Q. injection Q as Q. rewrite <- Q. f_equal. now rewrite Cv, log10_pow10. }
    assert (L1 : log10 1 = 0) by (rewrite <- (log10_pow10 0); f_equal; now rewrite pow10_0).
    assert (L10 : log10 10 = 1) by (rewrite <- (log10_pow10 1); f_equal; now rewrite pow10_1).
    split; [|split; [exact L|]].
    - rewrite N by lia. rewrite linspace_first by lia. rewrite L1. f_equal; [now rewrite pow10_0|f_equal; ring].
    - rewrite N by lia. replace 399%nat with (400 - 1)%nat by reflexivity. rewrite linspace_last by lia.
      rewrite L10. f_equal; [now rewrite pow10_1|f_equal; ring]. }
  destruct (G 1 (3 / 2) ltac:(lra)) as (iso & Ei & Pi). destruct (Pi ltac:(lra)) as (I0 & IL & _).
  destruct (G 3 3 ltac:(lra)) as (e & Ee & Pe). destruct (Pe ltac:(lra)) as (E0 & EL & E9).
  assert (Ee' : pf_getplotdata ef "cumulative" None None = Ok e).
  { unfold ef. rewrite <- Ee. unfold pf_getplotdata. reflexivity. }
  destruct (C24_isochron_cut_at_equilibrium pf "cumulative" (3 / 2) 3 [-2] 1 10 iso e ltac:(lra)) as (out & keep & Eo & _).
  { rewrite C24_isochron_without_equilibrium. exact Ei. }
  { exact Ee'. }
  exists pf, "cumulative", (3 / 2), ef, iso, out, (1, pow10 (3 / 2)), (pow10 3).
  split; [rewrite C24_isochron_without_equilibrium; exact Ei|]. split; [exact Eo|].
  split; [rewrite <- I0; apply nth_In; lia|].
  assert (H15 : 10 < pow10 (3 / 2) < 100).
  { replace 10 with (pow10 1) at 1 by (now rewrite pow10_1).
    replace 100 with (pow10 2) by (replace 2 with (1 + 1) by ring; rewrite pow10_plus, pow10_1; ring).
    split; apply pow10_lt; lra. }
  assert (H3 : pow10 3 = 1000) by (replace 3 with (1 + (1 + 1)) by ring; rewrite !pow10_plus, pow10_1; ring).
  split; [|split; [cbn [snd]; lra|]].
  - cbn [fst]. unfold evaluate, effective_a0, ef. change (pyindex [3; -2] 0) with (Ok 3). cbn [bind]. unfold pf_value.
    cbn [String.eqb Ascii.eqb Bool.eqb]. now rewrite poly_C_1km.
  - unfold getisochron in Eo. unfold pf in Eo. rewrite Ei in Eo. cbn [bind] in Eo. unfold ef in Ee'. rewrite Ee' in Eo. cbn [bind] in Eo.
    destruct (mapM _ iso) as [kp|] eqn:Ek; [|discriminate]. cbn [bind] in Eo. injection Eo as <-.
    intros Hin. apply in_map_iff in Hin. destruct Hin as ([p bb] & Fp & Hin). apply filter_In in Hin. destruct Hin as (Hin & Hb).
    cbn [fst snd] in Fp, Hb. subst p bb. destruct (In_nth kp _ (0, 0, true) Hin) as (j & Hj & Nj).
    pose proof (mapM_length _ _ _ Ek) as KL.
    pose proof (mapM_nth _ _ _ (0, 0) (0, 0, true) j Ek ltac:(lia)) as Q. rewrite Nj in Q.
    destruct (pyindex _ _) as [ey|] eqn:Ey in Q; [|discriminate]. cbn [bind] in Q. injection Q as Q1 Q2. rewrite Q1 in *. cbn [fst snd] in *.
    assert (SS : searchsorted (map fst e) 1 = 0%nat).
    { apply searchsorted_unique; [lia|intros; lia|]. intros _. change 0 with (fst (0, 0)). rewrite map_nth, E0. cbn. lra. }
    unfold value_locate in Ey. rewrite SS in Ey. change (Z.of_nat 0 - 1)%Z with (-1)%Z in Ey.
    rewrite pyindex_last in Ey by (intros N; apply (f_equal (@length R)) in N; rewrite map_length, EL in N; discriminate).
    injection Ey as Ey. rewrite last_nth_R in Ey. rewrite map_length, EL in Ey. change (400 - 1)%nat with 399%nat in Ey.
    change 0 with (snd (0, 0)) in Ey at 1. rewrite map_nth, E9 in Ey. cbn [snd] in Ey.
    destruct (Rltb_spec (pow10 (3 / 2)) (ey * (8 / 10))) as [L|L]; [|discriminate].
    assert (pow10 (3 - 2) = 10) by (replace (3 - 2) with 1 by ring; now rewrite pow10_1). lra.
Qed.
Print Assumptions C24_below_equilibrium_range_refuted.
Example C24_hypotheses_met : exists e, pf_getplotdata (Poly [3; -2] 1 10) "cumulative" None None = Ok e /\ 0 < 1 < 10.
Proof.
  unfold pf_getplotdata. change (pyindex [3; -2] 0) with (Ok 3). cbn [bind pf_range]. eexists. split; [|lra].
  apply (mapM_map _ (fun d => (d, poly_C [3; -2] d 3))). intros x _. rewrite evaluate_value by lra. reflexivity.
Qed.
