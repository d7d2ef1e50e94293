(** C84-C86: the uncertainty plot: which age and area a cell shows, what is covered, and the colours of counts. *)
From Coq Require Import String Ascii List ZArith Reals Lra Lia Bool Sorting.Sorted.
From Verif Require Import Base NumModel NumLemmas InterpProofs ChronModel ChronSpec ChronProofs ChronProps ProdModel ProdSpec ProdProofs3
  PdfModel PdfSpec PdfProofs PdfProps AgeProofs2 StrModel FmtModel FmtProofs PlotModel PlotProps LegSpec LegProofs2 AaModel AaSpec AaProofs AaProofs2.
Import ListNotations.
Local Open Scope R_scope.

(** ** C84: column j from the left is drawn from j/nsx to (j+1)/nsx; the axis shows its age there, within half a column *)
Theorem C84_columns_at_their_ages :
  forall fuel x0 x1 a nsx, time_axis_params fuel x0 x1 = Some (Ok a) -> (0 < nsx)%nat ->
    exists ages, log_age a (Z.of_nat nsx) = Ok ages /\ length ages = nsx /\
      (forall i, (S i < nsx)%nat -> nth i ages 0 < nth (S i) ages 0) /\
      forall j, (j < nsx)%nat -> let t := pow10 (nth j (image_columns ages) 0) in
        ta_min a <= t <= ta_max a /\
        exists x, placed a t x /\ (INR j - 1 / 2) / INR nsx <= x <= (INR j + 1 + 1 / 2) / INR nsx.
Proof.
  intros fuel x0 x1 a nsx E Hn. pose proof (axis_kinds _ _ _ _ E) as K. eexists. split; [apply ages_eq; [exact K|exact Hn]|].
  pose proof (ages_length a K nsx Hn) as LEN. split; [exact LEN|]. split; [intros i Hi; now apply ages_increasing|].
  intros j Hj t. unfold t, image_columns. rewrite rev_nth by (rewrite LEN; exact Hj). rewrite LEN.
  destruct (ages_placed a K nsx Hn (nsx - S j)) as (x & P & B & Q); [lia|]. split; [exact B|]. exists x. split; [exact P|].
  assert (N : 0 < INR nsx) by (now apply lt_0_INR). rewrite minus_INR, S_INR in Q by lia.
  split; apply (Rmult_le_reg_r (INR nsx)); try exact N; unfold Rdiv; rewrite Rmult_assoc, Rinv_l by lra; lra.
Qed.
(** row j from below is drawn from j/nsy to (j+1)/nsy, and the axis shows its area there *)
Theorem C84_rows_at_their_areas :
  forall y0 y1 nsy, y0 < y1 -> (0 < nsy)%nat ->
    exists areas, log_area y0 y1 (Z.of_nat nsy) = Ok areas /\ length areas = nsy /\
      forall j, (j < nsy)%nat -> let y := nth j areas 0 in
        y0 <= y <= y1 /\ INR j / INR nsy <= (y - y0) / (y1 - y0) <= (INR j + 1) / INR nsy.
Proof.
  intros y0 y1 nsy H Hn. exists (linspace y0 y1 nsy). unfold log_area.
  replace (Z.ltb (Z.of_nat nsy) 0) with false by (symmetry; apply Z.ltb_ge; lia). rewrite Nat2Z.id.
  split; [reflexivity|]. split; [apply linspace_length|]. intros j Hj. cbv zeta. rewrite linspace_nth by exact Hj.
  assert (N : 0 < INR nsy) by (now apply lt_0_INR).
  destruct (Nat.eq_dec nsy 1) as [->|D].
  - assert (j = O) by lia. subst j. cbn [INR Nat.sub]. replace (y0 + 0 * ((y1 - y0) / 0) - y0) with 0 by ring. replace (y0 + 0 * ((y1 - y0) / 0)) with y0 by ring.
    split; [lra|]. unfold Rdiv. lra.
  - assert (M : 0 < INR (nsy - 1)) by (apply lt_0_INR; lia). set (m := INR (nsy - 1)) in *.
    assert (E : INR nsy = m + 1) by (unfold m; rewrite <- S_INR; f_equal; lia).
    assert (J : 0 <= INR j <= m) by (split; [apply pos_INR|apply le_INR; lia]).
    replace (y0 + INR j * ((y1 - y0) / m) - y0) with (INR j / m * (y1 - y0)) by (field; lra).
    replace (y0 + INR j * ((y1 - y0) / m)) with (y0 + INR j / m * (y1 - y0)) by (field; lra).
    assert (U : 0 <= INR j / m <= 1).
    { split; [apply Rmult_le_pos; [lra|left; now apply Rinv_0_lt_compat]|]. apply (Rmult_le_reg_r m); [exact M|]. unfold Rdiv. rewrite Rmult_assoc, Rinv_l by lra. lra. }
    split; [nra|]. replace (INR j / m * (y1 - y0) / (y1 - y0)) with (INR j / m) by (field; lra). set (u := INR j / m) in *.
    assert (W : INR j = u * m) by (unfold u; field; lra). rewrite W, E in *.
    split; apply (Rmult_le_reg_r (m + 1)); try lra; unfold Rdiv; rewrite Rmult_assoc, Rinv_l by lra; nra.
Qed.
(** neither side has fewer cells than asked for *)
Theorem C84_grid_is_fine_enough :
  forall n aspect nsx nsy, (0 < n)%Z -> 0 < aspect -> grid_size n aspect = (nsx, nsy) -> (n <= nsx)%Z /\ (n <= nsy)%Z /\ (nsx = n \/ nsy = n).
Proof.
  intros n aspect nsx nsy Hn Ha. assert (N : 1 <= IZR n) by (apply IZR_le; lia). unfold grid_size. destruct (Rltb_spec 1 aspect) as [H|H]; intros E; injection E as <- <-.
  - split; [lia|]. split; [|now left]. rewrite <- (Rfloor_IZR n) at 1. apply Rfloor_le. nra.
  - split; [|split; [lia|now right]]. rewrite <- (Rfloor_IZR n) at 1. apply Rfloor_le. apply (Rmult_le_reg_r aspect); [exact Ha|].
    unfold Rdiv. rewrite Rmult_assoc, Rinv_l by lra. nra.
Qed.
(** the number of craters expected in a cell is the one that the dating of its counts assumes for that age *)
Theorem C84_expected_number :
  forall pf cf C dmin x area, built pf -> positive_coefficients cf ->
    (forall d a, a <> 0 -> evaluate pf "cumulative" d (Some a) = Ok (Some (C d a))) ->
    cf_a0 cf (pow10 x) <> 0 -> cf_a0 cf 1 <> 0 ->
    exists c, density pf cf dmin x = Ok c /\
      c * area = expected_craters cf C area dmin 1000 (log10 (N1 cf (pow10 x) / N1 cf 1)).
Proof.
  intros pf cf C dmin x area B Hc HC Ha H1. unfold density. rewrite !HC by exact Ha. cbn [bind]. eexists. split; [reflexivity|].
  unfold expected_craters. assert (P1 : 0 < N1 cf 1) by (apply N1_pos; [exact Hc|lra]).
  assert (Px : 0 < N1 cf (pow10 x)) by (apply N1_pos; [exact Hc|apply pow10_pos]).
  assert (G : forall d, C d (cf_a0 cf (pow10 x)) = pow10 (log10 (N1 cf (pow10 x) / N1 cf 1)) * C d (cf_a0 cf 1)).
  { intros d. pose proof (HC d _ H1) as E1. pose proof (HC d _ Ha) as E2. unfold evaluate, effective_a0 in E1, E2.
    destruct (Reqb_spec (cf_a0 cf 1) 0); [contradiction|]. destruct (Reqb_spec (cf_a0 cf (pow10 x)) 0); [contradiction|]. cbn [bind] in E1, E2.
    pose proof (value_scale pf "cumulative" d _ (cf_a0 cf (pow10 x) - cf_a0 cf 1) _ B E1) as S.
    replace (cf_a0 cf 1 + (cf_a0 cf (pow10 x) - cf_a0 cf 1)) with (cf_a0 cf (pow10 x)) in S by ring. rewrite S in E2. injection E2 as <-.
    f_equal. f_equal. unfold cf_a0. now rewrite log10_div. }
  rewrite !G. ring.
Qed.
(** a cell shows the percentiles of the age distribution of its count *)
Theorem C84_cell :
  forall erf poisson cf C dmin x y c, erf 0 = 0 -> (forall u v, u < v -> erf u < erf v) ->
    positive_coefficients cf -> range_ok cf C (pow10 y) dmin 1000 -> 0 <= c ->
    let lam := c * pow10 y in
    exists k, (lam < 10 ^ 5 -> k = poisson lam) /\ (10 ^ 5 <= lam -> INR k <= lam < INR k + 1) /\
      ((exists p e, craterpdf cf C (pow10 y) dmin 1000 k aa_samples = Ok p /\
          let median := pdf_t p (1 / 2) in let lower := pdf_t p ((1 - erf (1 / sqrt 2)) / 2) in let upper := pdf_t p ((1 + erf (1 / sqrt 2)) / 2) in
          compute_cell erf poisson cf C dmin x y c = Ok (mkCell (Some e) k (median / pow10 x) lam) /\
          0 < lower <= median /\ median <= upper <= 5 /\
          0 <= e /\ (1 + e) ^ 2 * lower = upper) \/
       (compute_cell erf poisson cf C dmin x y c = Err IndexError /\ craterpdf cf C (pow10 y) dmin 1000 k aa_samples = Err IndexError)).
Proof.
  intros erf poisson cf C dmin x y c E0 Ei Hc Hr Hl lam. assert (L0 : 0 <= lam) by (unfold lam; pose proof (pow10_pos y); nra).
  unfold compute_cell. fold lam. destruct (Rltb_spec lam 0); [lra|]. set (k := if Rltb lam (10 ^ 5) then _ else _). exists k.
  split. { unfold k. destruct (Rltb_spec lam (10 ^ 5)) as [W|W]; [reflexivity|]. intros Q. now contradiction W. }
  split.
  { unfold k. intros Q. destruct (Rltb_spec lam (10 ^ 5)) as [W|W]; [exfalso; exact (Rlt_not_le _ _ W Q)|].
    pose proof (Rfloor_spec lam) as F. assert (0 <= Rfloor lam)%Z by (rewrite <- (Rfloor_IZR 0); now apply Rfloor_le).
    rewrite INR_IZR_INZ, Z2Nat.id by assumption. exact F. }
  assert (N2 : (2 <= aa_samples)%nat) by (unfold aa_samples; apply Nat.leb_le; reflexivity).
  destruct (outcome cf C (pow10 y) dmin 1000 k aa_samples Hc Hr N2) as [(p & Ep & D & G & _)|(Ep & _)].
  - left. destruct (C13_median1sigma_order erf E0 Ei p aa_samples D N2) as (t0 & t1 & t2 & M & O1 & O2 & O3 & Q0 & Q1 & Q2).
    exists p, (sqrt (t2 / t1) - 1). split; [exact Ep|]. cbv zeta. rewrite <- Q0, <- Q1, <- Q2. rewrite Ep. cbn [bind]. rewrite M.
    assert (P1 : 0 < t1).
    { rewrite Q1. pose proof (pdf_t_range p aa_samples D N2 ((1 - erf (1 / sqrt 2)) / 2)) as R0. rewrite G in R0. pose proof (grid_first_pos cf aa_samples Hc N2). lra. }
    unfold divide. destruct (Reqb_spec t1 0); [lra|]. split; [reflexivity|]. split; [lra|]. split; [lra|].
    assert (Q : 1 <= t2 / t1) by (apply (Rmult_le_reg_r t1); [exact P1|]; unfold Rdiv; rewrite Rmult_assoc, Rinv_l by lra; lra).
    split.
    + assert (1 <= sqrt (t2 / t1)); [|lra]. rewrite <- sqrt_1. apply sqrt_le_1_alt. exact Q.
    + replace ((1 + (sqrt (t2 / t1) - 1)) ^ 2) with (sqrt (t2 / t1) * sqrt (t2 / t1)) by ring. rewrite sqrt_sqrt by lra. field. lra.
  - right. split; [|exact Ep]. rewrite Ep. reflexivity.
Qed.
Example C84_hypotheses_met :
  (exists fuel a, time_axis_params fuel (1 / 100) 4 = Some (Ok a)) /\ positive_coefficients neukum83 /\ range_ok neukum83 ex_C (pow10 3) 1 1000.
Proof.
  split. { destruct (C60_time_axis (1 / 100) 4) as (f & ax & E & _). exists f, ax. apply E. lia. }
  split; [exact neukum83_positive|]. unfold range_ok, ex_C. pose proof (pow10_pos (cf_a0 neukum83 1)). split; [apply pow10_pos|].
  split; [apply Rmult_lt_0_compat; lra|]. unfold Rdiv. apply Rmult_lt_compat_l; lra.
Qed.

(** ** C85: surfaces older than equilibrium or larger than the globe are covered, and no others *)
Theorem C85_covered :
  forall fuel x0 x1 a y0 y1 globe T, time_axis_params fuel x0 x1 = Some (Ok a) -> y0 < y1 ->
    ta_min a < T -> y0 < log10 globe -> 0 < globe ->
    forall t x area, let y := (log10 area - y0) / (y1 - y0) in
      ta_min a <= t <= ta_max a -> placed a t x -> 0 < x < 1 -> 0 < area -> 0 < y < 1 -> area <> globe ->
      (shaded (y_exceed y0 y1 globe) (x_exceed a T) (x, y) = true <-> T < t \/ globe < area).
Proof.
  intros fuel x0 x1 a y0 y1 globe T E Hy HT Hg Hg0 t x area y Ht P Hx Ha Hyy N. pose proof (axis_kinds _ _ _ _ E) as K.
  assert (YA : log10 area = y0 + y * (y1 - y0)) by (unfold y; field; lra).
  assert (LG : log10 globe < log10 area <-> globe < area).
  { split; intros Q; [|now apply log10_lt]. destruct (Rlt_le_dec globe area) as [W|W]; [exact W|]. pose proof (log10_le area globe Ha W). lra. }
  assert (NE : log10 globe <> log10 area). { intros Q. apply N. rewrite <- (pow10_log10 area Ha), <- (pow10_log10 globe Hg0). now rewrite Q. }
  assert (BY : match y_exceed y0 y1 globe with Some v => Rltb v y | None => false end = true <-> globe < area).
  { rewrite <- LG, YA. destruct (Rle_lt_dec (log10 globe) y1) as [W|W].
    - rewrite y_exceed_ok by lra. set (v := (log10 globe - y0) / (y1 - y0)). assert (V : log10 globe = y0 + v * (y1 - y0)) by (unfold v; field; lra).
      rewrite V. destruct (Rltb_spec v y) as [U|U]; split; intros Q; try reflexivity; try discriminate; [nra|exfalso; nra].
    - rewrite y_exceed_none by lra. split; [discriminate|]. intros Q. exfalso. nra. }
  assert (BX : match x_exceed a T with Some v => Rltb x v | None => false end = true <-> T < t).
  { destruct (Rle_lt_dec T (ta_max a)) as [W|W].
    - destruct (x_exceed_ok a T K) as (v & -> & PV & _); [lra|]. destruct (Rltb_spec x v) as [U|U]; split; intros Q; try reflexivity; try discriminate.
      + destruct (Rlt_le_dec T t) as [Z|Z]; [exact Z|]. destruct (Rle_lt_or_eq_dec _ _ Z) as [Z'|Z'].
        * pose proof (placed_monotone a t x T v K Ht ltac:(lra) P PV Z'). lra.
        * subst t. pose proof (placed_unique a T x v K Ht P PV). lra.
      + exfalso. pose proof (placed_monotone a T v t x K ltac:(lra) Ht PV P Q). lra.
    - rewrite x_exceed_beyond by assumption. split; [discriminate|]. intros Q. exfalso. lra. }
  rewrite shaded_ok; [|exact Hx|exact Hyy| |].
  - rewrite orb_true_iff, BX, BY. reflexivity.
  - intros v Ev. destruct (Rle_lt_dec T (ta_max a)) as [W|W].
    + destruct (x_exceed_ok a T K) as (v' & E' & _ & B); [lra|]. rewrite E' in Ev. injection Ev as <-. exact B.
    + rewrite x_exceed_beyond in Ev by assumption. discriminate.
  - intros v Ev. destruct (Rle_lt_dec (log10 globe) y1) as [W|W].
    + rewrite y_exceed_ok in Ev by lra. injection Ev as <-. assert (V : log10 globe = y0 + (log10 globe - y0) / (y1 - y0) * (y1 - y0)) by (field; lra).
      set (v := (log10 globe - y0) / (y1 - y0)) in *. split; [split|].
      * destruct (Rlt_le_dec 0 v) as [Z|Z]; [exact Z|]. exfalso. nra.
      * destruct (Rle_lt_dec v 1) as [Z|Z]; [exact Z|]. exfalso. nra.
      * intros ->. apply NE. now rewrite YA.
    + rewrite y_exceed_none in Ev by lra. discriminate.
Qed.
(** without an equilibrium function only the globe limits *)
Theorem C85_covered_without_equilibrium :
  forall y0 y1 globe x area, y0 < y1 -> y0 < log10 globe -> 0 < globe -> let y := (log10 area - y0) / (y1 - y0) in
    0 < x < 1 -> 0 < area -> 0 < y < 1 -> area <> globe ->
    (shaded (y_exceed y0 y1 globe) None (x, y) = true <-> globe < area).
Proof.
  intros y0 y1 globe x area Hy Hg Hg0 y Hx Ha Hyy N.
  assert (YA : log10 area = y0 + y * (y1 - y0)) by (unfold y; field; lra).
  assert (LG : log10 globe < log10 area <-> globe < area).
  { split; intros Q; [|now apply log10_lt]. destruct (Rlt_le_dec globe area) as [W|W]; [exact W|]. pose proof (log10_le area globe Ha W). lra. }
  assert (NE : log10 globe <> log10 area). { intros Q. apply N. rewrite <- (pow10_log10 area Ha), <- (pow10_log10 globe Hg0). now rewrite Q. }
  destruct (Rle_lt_dec (log10 globe) y1) as [W|W].
  - rewrite y_exceed_ok by lra. set (v := (log10 globe - y0) / (y1 - y0)). assert (V : log10 globe = y0 + v * (y1 - y0)) by (unfold v; field; lra).
    rewrite shaded_ok; [|exact Hx|exact Hyy|discriminate|].
    + cbn [orb]. rewrite <- LG, YA, V. destruct (Rltb_spec v y) as [U|U]; split; intros Q; try reflexivity; try discriminate; [nra|exfalso; nra].
    + intros v' Ev. injection Ev as <-. split; [split|].
      * destruct (Rlt_le_dec 0 v) as [Z|Z]; [exact Z|]. exfalso. nra.
      * destruct (Rle_lt_dec v 1) as [Z|Z]; [exact Z|]. exfalso. nra.
      * intros Q. apply NE. rewrite YA, V. now rewrite Q.
  - rewrite y_exceed_none by lra. unfold shaded, covered. split; [discriminate|]. intros Q. exfalso. apply LG in Q. nra.
Qed.
(** the age T used for equilibrium: the production function of that age meets the equilibrium function at dmin *)
Theorem C85_equilibrium_age :
  forall pf cf ef_dmin c_dmin c_1 dmin a0 a t, built pf -> positive_coefficients cf -> table_age t ->
    0 < c_dmin -> 0 < c_1 ->
    pf_value pf "cumulative" dmin a0 = Ok (Some c_dmin) -> pf_value pf "cumulative" 1 a0 = Ok (Some c_1) ->
    pf_value pf "cumulative" 1 a = Ok (Some (N1 cf t)) -> pf_value pf "cumulative" dmin a = Ok (Some ef_dmin) ->
    equilibrium_age cf ef_dmin c_dmin c_1 = t.
Proof.
  intros pf cf ef c c1 dmin a0 a t B Hc Ht P P1 V0 V1 V2 V3. unfold equilibrium_age.
  pose proof (value_scale pf "cumulative" dmin a0 (a - a0) c B V0) as S0. pose proof (value_scale pf "cumulative" 1 a0 (a - a0) c1 B V1) as S1.
  replace (a0 + (a - a0)) with a in S0, S1 by ring. rewrite V3 in S0. rewrite V2 in S1. injection S0 as ->. injection S1 as S1.
  replace (pow10 (a - a0) * c * c1 / c) with (N1 cf t) by (rewrite S1; field; lra). now apply C18_exact_at_table_ages.
Qed.
(** an equilibrium age below the axis leaves the plot uncovered, although all of it is older *)
Theorem C85_older_than_the_axis_refuted :
  exists fuel x0 x1 a, time_axis_params fuel x0 x1 = Some (Ok a) /\
    exists T t x, T < ta_min a /\ ta_min a <= t <= ta_max a /\ placed a t x /\ 0 < x < 1 /\ forall y, shaded None (x_exceed a T) (x, y) = false.
Proof.
  destruct (C60_time_axis 2 4) as (fuel & a & E & _). specialize (E fuel (le_n _)). exists fuel, 2, 4, a. split; [exact E|].
  destruct (axis_min fuel 2 4 a E) as (K & M1 & M2). { rewrite Rmin_left; lra. }
  assert (X2 : ta_max a = 4). { rewrite M2. unfold clip. rewrite (Rmax_right 2 4), Rmax_left, Rmin_left; lra. }
  assert (X1 : ta_min a = 2). { rewrite M1. rewrite <- M2, X2. unfold clip. rewrite (Rmin_left 2 4), Rmax_left, Rmin_left; lra. }
  destruct K as (K1 & K2 & K3 & K4 & K5). exists 1, 3, (1 / 2). split; [lra|]. split; [lra|]. split.
  - apply placed_linear; unfold linear_part; rewrite K2, X1, X2; destruct (Rltb_spec 2 4); try lra; cbn [t_left t_right]; [lra|].
    unfold along. cbn [x_left x_right]. rewrite K3. field.
  - split; [lra|]. intros y. rewrite x_exceed_below by lra. reflexivity.
Qed.
(** so does a globe smaller than the smallest area shown *)
Theorem C85_globe_below_the_axis_refuted :
  exists y0 y1 globe area, y0 < y1 /\ 0 < globe < area /\ y0 < log10 area < y1 /\ forall p, shaded (y_exceed y0 y1 globe) None p = false.
Proof.
  exists 1, 3, 1, (pow10 2). pose proof log10_1 as L1. split; [lra|]. split.
  - split; [lra|]. rewrite <- pow10_0. apply pow10_lt. lra.
  - rewrite log10_pow10. split; [lra|]. intros p. rewrite y_exceed_none by lra. reflexivity.
Qed.
Example C85_hypotheses_met :
  exists fuel a, time_axis_params fuel 2 4 = Some (Ok a) /\ ta_min a < 3 /\ 2 < log10 (pow10 8) /\ placed a 3 (1 / 2).
Proof.
  destruct (C60_time_axis 2 4) as (fuel & a & E & _). specialize (E fuel (le_n _)). exists fuel, a. split; [exact E|].
  destruct (axis_min fuel 2 4 a E) as (K & M1 & M2). { rewrite Rmin_left; lra. }
  assert (X2 : ta_max a = 4). { rewrite M2. unfold clip. rewrite (Rmax_right 2 4), Rmax_left, Rmin_left; lra. }
  assert (X1 : ta_min a = 2). { rewrite M1. rewrite <- M2, X2. unfold clip. rewrite (Rmin_left 2 4), Rmax_left, Rmin_left; lra. }
  destruct K as (K1 & K2 & K3 & K4 & K5). split; [lra|]. rewrite log10_pow10. split; [lra|].
  apply placed_linear; unfold linear_part; rewrite K2, X1, X2; destruct (Rltb_spec 2 4); try lra; cbn [t_left t_right]; [lra|].
  unfold along. cbn [x_left x_right]. rewrite K3. field.
Qed.

(** ** C86: a count has the colour beside its label, 7 standing for more *)
Theorem C86_colours_of_counts : forall k, colour_index 8 0 8 (shown_k k) = colour_index 8 0 8 (label_value (Nat.min k 7)).
Proof.
  intros k. unfold colour_index. destruct (Reqb_spec 0 8); [lra|]. unfold shown_k, label_value.
  replace ((INR (Nat.min k 8) - 0) / (8 - 0) * 8) with (IZR (Z.of_nat (Nat.min k 8))) by (rewrite <- INR_IZR_INZ; field).
  rewrite Rfloor_IZR. replace ((INR (Nat.min k 7) + 1 / 2 - 0) / (8 - 0) * 8) with (IZR (Z.of_nat (Nat.min k 7)) + 1 / 2) by (rewrite <- INR_IZR_INZ; field).
  rewrite (Rfloor_unique _ (Z.of_nat (Nat.min k 7))) by lra. lia.
Qed.
(** the colours of different labels differ *)
Theorem C86_labels_differ : forall j k, (j <= 7)%nat -> (k <= 7)%nat ->
  colour_index 8 0 8 (label_value j) = colour_index 8 0 8 (label_value k) -> j = k.
Proof.
  intros j k Hj Hk. unfold colour_index. destruct (Reqb_spec 0 8); [lra|]. unfold label_value.
  replace ((INR j + 1 / 2 - 0) / (8 - 0) * 8) with (IZR (Z.of_nat j) + 1 / 2) by (rewrite <- INR_IZR_INZ; field).
  replace ((INR k + 1 / 2 - 0) / (8 - 0) * 8) with (IZR (Z.of_nat k) + 1 / 2) by (rewrite <- INR_IZR_INZ; field).
  rewrite (Rfloor_unique _ (Z.of_nat j)) by lra. rewrite (Rfloor_unique _ (Z.of_nat k)) by lra. lia.
Qed.
(** but the colours are stretched over the counts that occur: with none above 4, the single craters have the colour beside 0 or 2 *)
Theorem C86_stretched_colours_refuted :
  exists counts : list nat, In 0%nat counts /\ In 4%nat counts /\ (forall k, In k counts -> (k <= 4)%nat) /\ In 1%nat counts /\
    colour_index 8 (shown_k 0) (shown_k 4) (shown_k 1) <> colour_index 8 (shown_k 0) (shown_k 4) (label_value 1).
Proof.
  exists [0; 1; 4]%nat. split; [cbn; auto|]. split; [cbn; auto|]. split; [intros k [<-|[<-|[<-|[]]]]; lia|]. split; [cbn; auto|].
  unfold colour_index, shown_k, label_value. cbn [Nat.min INR]. destruct (Reqb_spec 0 (1 + 1 + 1 + 1)); [lra|].
  rewrite (Rfloor_unique _ 2) by lra. rewrite (Rfloor_unique ((1 + 1 / 2 - 0) / (1 + 1 + 1 + 1 - 0) * 8) 3) by lra. lia.
Qed.
(** the smallest diameter is given to three digits, in metres below 1 km; there its parenthesis is closed *)
Theorem C86_text_metres : forall dmin, dmin < 1 -> exists u, diameter_text dmin = L " ($d > " ++ u ++ L "$ m)" /\ shows 3 (dmin * 1000) u.
Proof. intros d H. unfold diameter_text. destruct (Rleb_spec 1 d); [lra|]. eexists. split; [reflexivity|]. apply shows_g. lia. Qed.
Theorem C86_text_kilometres_not_closed_refuted : forall dmin, 1 <= dmin -> exists u, diameter_text dmin = L " ($d > " ++ u ++ L "$ km" /\ shows 3 dmin u.
Proof. intros d H. unfold diameter_text. destruct (Rleb_spec 1 d); [|lra]. eexists. split; [reflexivity|]. apply shows_g. lia. Qed.
Example C86_hypotheses_met : colour_index 8 0 8 (shown_k 3) = 3%Z /\ (1 / 10 < 1).
Proof.
  split; [|lra]. rewrite C86_colours_of_counts. unfold colour_index, label_value. destruct (Reqb_spec 0 8); [lra|]. cbn [Nat.min INR].
  rewrite (Rfloor_unique _ 3) by lra. reflexivity.
Qed.

Print Assumptions C84_columns_at_their_ages.
Print Assumptions C84_rows_at_their_areas.
Print Assumptions C84_grid_is_fine_enough.
Print Assumptions C84_expected_number.
Print Assumptions C84_cell.
Print Assumptions C85_covered.
Print Assumptions C85_covered_without_equilibrium.
Print Assumptions C85_equilibrium_age.
Print Assumptions C85_older_than_the_axis_refuted.
Print Assumptions C85_globe_below_the_axis_refuted.
Print Assumptions C86_colours_of_counts.
Print Assumptions C86_labels_differ.
Print Assumptions C86_stretched_colours_refuted.
Print Assumptions C86_text_metres.
Print Assumptions C86_text_kilometres_not_closed_refuted.
