From Coq Require Import String Ascii List ZArith Reals Lra Lia Bool Sorting.Sorted.
From Verif Require Import Base NumModel NumLemmas InterpProofs ChronModel ChronSpec ChronProofs ProdModel ProdSpec ProdProofs3
  PdfModel PdfSpec PdfProofs PdfProps AgeProofs2 StrModel FmtModel FmtProofs PlotModel AaModel AaSpec AaProofs.
Import ListNotations.
Local Open Scope R_scope.

Lemma axis_min fuel x0 x1 a : time_axis_params fuel x0 x1 = Some (Ok a) -> 1 <= Rmin x0 x1 ->
  linear_axis a /\ ta_min a = clip 0 (clip 3 (9 / 2) (Rmax x0 x1) - 1 / 10) (Rmin x0 x1) /\ ta_max a = clip 3 (9 / 2) (Rmax x0 x1).
Proof.
  intros E H. destruct (axis_kinds _ _ _ _ E) as [K|K].
  - exfalso. revert E. unfold time_axis_params. set (tmax := clip 3 (9 / 2) (Rmax x0 x1)). set (tmin := clip 0 (tmax - 1 / 10) (Rmin x0 x1)).
    assert (M : 3 <= tmax). { unfold tmax, clip. apply Rmin_glb; [apply Rmax_r|lra]. }
    assert (m : 1 <= tmin). { unfold tmin, clip. apply Rmin_glb; [|lra]. apply Rle_trans with (Rmin x0 x1); [exact H|apply Rmax_l]. }
    destruct (Rltb_spec tmin 1); [lra|]. cbn [andb].
    destruct (ticks fuel [tmin; tmax] (Some 6%Z) (Some 12%Z)) as [[[t minor]|x]|]; try discriminate. cbn [bind].
    destruct minor as [k|]; try discriminate. cbn [bind]. destruct (time_labels _) as [labels|]; try discriminate. cbn [bind].
    unfold divide_units. destruct (Reqb_spec (1 + 0) 0); try lra. cbn [bind]. intros E. injection E as E. destruct K as (K & _). rewrite <- E in K. discriminate K.
  - split; [exact K|]. revert E. unfold time_axis_params. set (tmax := clip 3 (9 / 2) (Rmax x0 x1)). set (tmin := clip 0 (tmax - 1 / 10) (Rmin x0 x1)).
    assert (M : 3 <= tmax). { unfold tmax, clip. apply Rmin_glb; [apply Rmax_r|lra]. }
    assert (m : 1 <= tmin). { unfold tmin, clip. apply Rmin_glb; [|lra]. apply Rle_trans with (Rmin x0 x1); [exact H|apply Rmax_l]. }
    destruct (Rltb_spec tmin 1); [lra|]. cbn [andb].
    destruct (ticks fuel [tmin; tmax] (Some 6%Z) (Some 12%Z)) as [[[t minor]|x]|]; try discriminate. cbn [bind].
    destruct minor as [k|]; try discriminate. cbn [bind]. destruct (time_labels _) as [labels|]; try discriminate. cbn [bind].
    unfold divide_units. destruct (Reqb_spec (1 + 0) 0); try lra. cbn [bind]. intros E. injection E as <-. split; reflexivity.
Qed.

(** ** Positions of ages *)
(** the two formulas, with the sides swapped so that they are easy to compare *)
Lemma placed_cases a t x : split_axis a \/ linear_axis a -> ta_min a <= t <= ta_max a -> placed a t x ->
  (ta_switch a <= t /\ ta_switch a < ta_max a /\ 0 < ta_linear a /\ x * (ta_max a - ta_switch a) = ta_linear a * (ta_max a - t)) \/
  (ta_switch a = t /\ t = ta_max a /\ ta_linear a = 0 /\ x = 0) \/
  (split_axis a /\ t <= ta_switch a /\ (x - ta_linear a) * (log10 (ta_switch a) - log10 (ta_min a)) = (1 - ta_linear a) * (log10 (ta_switch a) - log10 t)).
Proof.
  intros K Ht [p H ->|p E H ->].
  - revert H. unfold p, linear_part. destruct (Rltb_spec (ta_switch a) (ta_max a)) as [Q|Q]; cbn [t_left t_right]; intros H.
    + left. split; [lra|]. split; [exact Q|]. split.
      * destruct K as [(_ & _ & K1 & K2 & _ & K3 & K4)|(_ & _ & -> & _)]; [|lra]. destruct (Req_dec (ta_linear a) 0) as [N|N]; [|lra].
        rewrite (proj2 K4 N) in Q. lra.
      * unfold along. cbn [x_left x_right]. field. lra.
    + right. left. destruct K as [(_ & _ & K1 & K2 & _ & K3 & K4)|(_ & K1 & _ & K2 & _)]; [|lra].
      assert (ta_max a = 3) by lra. split; [lra|]. split; [lra|]. split; [now apply K4|]. unfold along. cbn [x_left x_right].
      rewrite (proj1 K4 H0). ring.
  - right. right. unfold log_part in E. destruct (ta_log_min a) as [l|] eqn:El; [|discriminate]. destruct (ta_crossover a) eqn:Ec; [|discriminate].
    injection E as <-. cbn [t_left t_right] in H. destruct K as [K|(K & _)]; [|congruence].
    split; [exact K|]. destruct K as (_ & K1 & K2 & _ & K3 & _). split; [lra|]. rewrite El in K3. injection K3 as ->.
    unfold along. cbn [x_left x_right t_left t_right]. rewrite log10_pow10.
    assert (log10 (ta_min a) < log10 (ta_switch a)) by (rewrite K2; apply log10_lt; lra). field. lra.
Qed.
Lemma log10_le_inv x y : 0 < x -> 0 < y -> log10 x <= log10 y -> x <= y.
Proof. intros X Y H. destruct (Rle_lt_dec x y) as [Q|Q]; [exact Q|]. pose proof (log10_lt y x Y Q). lra. Qed.
Lemma placed_monotone a t x t' x' : split_axis a \/ linear_axis a -> ta_min a <= t <= ta_max a -> ta_min a <= t' <= ta_max a ->
  placed a t x -> placed a t' x' -> t < t' -> x' < x.
Proof.
  intros K H H' P P' L. apply placed_cases in P; auto. apply placed_cases in P'; auto.
  destruct P as [(A1 & A2 & A3 & A4)|[(A1 & A2 & A3 & A4)|(A1 & A2 & A3)]]; destruct P' as [(B1 & B2 & B3 & B4)|[(B1 & B2 & B3 & B4)|(B1 & B2 & B3)]]; try lra.
  - nra.
  - destruct A1 as (_ & K1 & K2 & _ & _ & K3 & _). assert (Q : log10 (ta_min a) < log10 (ta_switch a)) by (rewrite K2; apply log10_lt; lra).
    assert (X : ta_linear a <= x). { assert (log10 t <= log10 (ta_switch a)) by (apply log10_le; lra). nra. }
    destruct (Req_dec t (ta_switch a)) as [->|N].
    + assert (x' < ta_linear a) by nra. lra.
    + assert (log10 t < log10 (ta_switch a)) by (apply log10_lt; lra). assert (ta_linear a < x) by nra. assert (x' <= ta_linear a) by nra. lra.
  - destruct A1 as (_ & K1 & K2 & _ & _ & K3 & _). assert (Q : log10 (ta_min a) < log10 (ta_switch a)) by (rewrite K2; apply log10_lt; lra).
    assert (log10 t < log10 (ta_switch a)) by (apply log10_lt; lra). assert (ta_linear a < x) by nra. lra.
  - destruct A1 as (_ & K1 & K2 & _ & _ & K3 & _). assert (Q : log10 (ta_min a) < log10 (ta_switch a)) by (rewrite K2; apply log10_lt; lra).
    assert (log10 t < log10 t') by (apply log10_lt; lra). nra.
Qed.
Lemma placed_unique a t x x' : split_axis a \/ linear_axis a -> ta_min a <= t <= ta_max a -> placed a t x -> placed a t x' -> x = x'.
Proof.
  intros K H P P'. apply placed_cases in P; auto. apply placed_cases in P'; auto.
  assert (G : split_axis a -> log10 (ta_min a) < log10 (ta_switch a)) by (intros (_ & K1 & K2 & _); rewrite K2; apply log10_lt; lra).
  destruct P as [(A1 & A2 & A3 & A4)|[(A1 & A2 & A3 & A4)|(A1 & A2 & A3)]]; destruct P' as [(B1 & B2 & B3 & B4)|[(B1 & B2 & B3 & B4)|(B1 & B2 & B3)]]; try lra.
  - nra.
  - pose proof (G B1). assert (t = ta_switch a) by lra. subst t. assert (x = ta_linear a) by nra. assert (x' = ta_linear a) by nra. lra.
  - pose proof (G B1). assert (t = ta_switch a) by lra. rewrite H1 in B3. assert (x' = ta_linear a) by nra. lra.
  - pose proof (G A1). assert (t = ta_switch a) by lra. subst t. assert (x = ta_linear a) by nra. assert (x' = ta_linear a) by nra. lra.
  - pose proof (G A1). assert (t = ta_switch a) by lra. rewrite H1 in A3. assert (x = ta_linear a) by nra. lra.
  - pose proof (G A1). nra.
Qed.
Lemma x_exceed_ok a T : split_axis a \/ linear_axis a -> ta_min a < T <= ta_max a -> exists x, x_exceed a T = Some x /\ placed a T x /\ 0 <= x < 1.
Proof.
  intros K H. unfold x_exceed. cbn [searchsorted]. destruct (Rltb_spec (ta_min a) T); [|lra].
  destruct (Rltb_spec (ta_max a) T); [lra|]. destruct (Rltb_spec (ta_switch a) T) as [Q|Q].
  - exists (ta_linear a * (ta_max a - T) / (ta_max a - ta_switch a)). split; [reflexivity|]. split.
    + apply placed_linear; unfold linear_part; destruct (Rltb_spec (ta_switch a) (ta_max a)); try lra; cbn [t_left t_right]; [lra|].
      unfold along. cbn [x_left x_right]. field. lra.
    + pose proof (linear_le1 a K). assert (0 <= (ta_max a - T) / (ta_max a - ta_switch a) < 1).
      { split; [apply Rmult_le_pos; [lra|left; apply Rinv_0_lt_compat; lra]|].
        apply (Rmult_lt_reg_r (ta_max a - ta_switch a)); [lra|]. unfold Rdiv. rewrite Rmult_assoc, Rinv_l by lra. lra. }
      unfold Rdiv. rewrite Rmult_assoc. change ((ta_max a - T) * / (ta_max a - ta_switch a)) with ((ta_max a - T) / (ta_max a - ta_switch a)). nra.
  - destruct K as [K|(_ & K & _)]; [|lra]. destruct K as (K0 & K1 & K2 & _ & K3 & K4 & _).
    assert (G : log10 (ta_min a) < log10 T <= log10 (ta_switch a)) by (split; [apply log10_lt; lra|apply log10_le; lra]).
    exists (ta_linear a + (1 - ta_linear a) * (log10 (ta_switch a) - log10 T) / (log10 (ta_switch a) - log10 (ta_min a))). split; [reflexivity|]. split.
    + apply (placed_log a _ _ (mkPart (ta_linear a) 1 (ta_switch a) (pow10 (log10 (ta_min a))))).
      * unfold log_part. rewrite K3, K0. reflexivity.
      * cbn [t_right t_left]. rewrite pow10_log10 by lra. lra.
      * unfold along. cbn [x_left x_right t_left t_right]. rewrite log10_pow10. field. lra.
    + set (u := (log10 (ta_switch a) - log10 T) / (log10 (ta_switch a) - log10 (ta_min a))).
      assert (0 <= u < 1).
      { unfold u. split; [apply Rmult_le_pos; [lra|left; apply Rinv_0_lt_compat; lra]|].
        apply (Rmult_lt_reg_r (log10 (ta_switch a) - log10 (ta_min a))); [lra|]. unfold Rdiv. rewrite Rmult_assoc, Rinv_l by lra. lra. }
      replace ((1 - ta_linear a) * (log10 (ta_switch a) - log10 T) / (log10 (ta_switch a) - log10 (ta_min a))) with ((1 - ta_linear a) * u) by (unfold u; field; lra). nra.
Qed.
Lemma switch_le_max a : split_axis a \/ linear_axis a -> ta_switch a <= ta_max a.
Proof. intros [(_ & _ & -> & H & _)|(_ & -> & _ & H & _)]; lra. Qed.
Lemma x_exceed_beyond a T : split_axis a \/ linear_axis a -> ta_max a < T -> x_exceed a T = None.
Proof.
  intros K H. unfold x_exceed. cbn [searchsorted]. pose proof (switch_le_max a K).
  assert (ta_min a < T) by (destruct K as [(_ & K1 & _ & K2 & _)|(_ & _ & _ & K1 & _)]; lra).
  destruct (Rltb_spec (ta_min a) T); [|lra]. destruct (Rltb_spec (ta_switch a) T); [|lra]. destruct (Rltb_spec (ta_max a) T); [|lra]. reflexivity.
Qed.
Lemma x_exceed_below a T : T <= ta_min a -> x_exceed a T = None.
Proof. intros H. unfold x_exceed. cbn [searchsorted]. destruct (Rltb_spec (ta_min a) T); [lra|]. reflexivity. Qed.
Lemma y_exceed_ok y0 y1 m : y0 < y1 -> y0 < log10 m <= y1 -> y_exceed y0 y1 m = Some ((log10 m - y0) / (y1 - y0)).
Proof.
  intros H Hm. unfold y_exceed. cbn [searchsorted]. destruct (Rltb_spec y0 (log10 m)); [|lra]. destruct (Rltb_spec y1 (log10 m)); [lra|].
  cbn. rewrite Rabs_right by lra. reflexivity.
Qed.
Lemma y_exceed_none y0 y1 m : y0 < y1 -> log10 m <= y0 \/ y1 < log10 m -> y_exceed y0 y1 m = None.
Proof.
  intros H Hm. unfold y_exceed. cbn [searchsorted]. destruct (Rltb_spec y0 (log10 m)); [|reflexivity]. destruct (Rltb_spec y1 (log10 m)); [reflexivity|lra].
Qed.

(** ** Polygons *)
Lemma cross_flat px py q r : fst q <> fst r -> crosses (px, py) q r = false.
Proof. intros H. unfold crosses. destruct (Req_EM_T (fst q) (fst r)); [contradiction|reflexivity]. Qed.
Lemma cross_up px py x y1 y2 : y1 <= y2 -> crosses (px, py) (x, y1) (x, y2) = Rltb px x && (Rltb y1 py && Rltb py y2).
Proof.
  intros H. unfold crosses. cbn [fst snd]. destruct (Req_EM_T x x) as [_|N]; [|now contradiction N]. rewrite Rmin_left, Rmax_right by exact H.
  destruct (Rlt_dec px x); destruct (Rltb_spec px x); try lra; try reflexivity.
  destruct (Rlt_dec y1 py); destruct (Rltb_spec y1 py); try lra; try reflexivity.
Qed.
Lemma cross_down px py x y1 y2 : y1 <= y2 -> crosses (px, py) (x, y2) (x, y1) = Rltb px x && (Rltb y1 py && Rltb py y2).
Proof.
  intros H. rewrite <- (cross_up px py x y1 y2 H). unfold crosses. cbn [fst snd]. rewrite (Rmin_comm y2 y1), (Rmax_comm y2 y1). reflexivity.
Qed.
Ltac decide_lt := repeat match goal with |- context [Rltb ?u ?v] => destruct (Rltb_spec u v) end; try lra.
Lemma truth_pos x : 0 < x -> truth (Some x) = true.
Proof. intros H. unfold truth. destruct (Reqb_spec x 0); [lra|reflexivity]. Qed.
Lemma truth_zero : truth (Some 0) = false.
Proof. unfold truth. destruct (Reqb_spec 0 0); [reflexivity|lra]. Qed.
Lemma inside_left px py x : 0 < px < 1 -> 0 < py < 1 -> 0 < x -> inside (px, py) [(0, 0); (x, 0); (x, 1); (0, 1)] = Rltb px x.
Proof.
  intros Hx Hy H. unfold inside. cbn [crossings]. rewrite (cross_flat _ _ (0, 0) (x, 0)), (cross_flat _ _ (x, 1) (0, 1)) by (cbn; lra).
  rewrite cross_up, cross_down by lra. decide_lt; reflexivity.
Qed.
Lemma inside_top px py y : 0 < px < 1 -> 0 < py < 1 -> y <= 1 -> inside (px, py) [(0, y); (1, y); (1, 1); (0, 1)] = Rltb y py.
Proof.
  intros Hx Hy H. unfold inside. cbn [crossings]. rewrite (cross_flat _ _ (0, y) (1, y)), (cross_flat _ _ (1, 1) (0, 1)) by (cbn; lra).
  rewrite cross_up, cross_down by lra. decide_lt; reflexivity.
Qed.
Lemma inside_both px py x y : 0 < px < 1 -> 0 < py < 1 -> 0 < x < 1 -> 0 < y <= 1 -> py <> y ->
  inside (px, py) [(0, 0); (x, 0); (x, y); (1, y); (1, 1); (0, 1)] = Rltb px x || Rltb y py.
Proof.
  intros Hx Hy H H' N. unfold inside. cbn [crossings].
  rewrite (cross_flat _ _ (0, 0) (x, 0)), (cross_flat _ _ (x, y) (1, y)), (cross_flat _ _ (1, 1) (0, 1)) by (cbn; lra).
  rewrite (cross_up _ _ x 0 y), (cross_up _ _ 1 y 1), cross_down by lra. decide_lt; reflexivity.
Qed.
(** the region, whatever part of it is in the plot *)
Lemma shaded_ok px py xe ye : 0 < px < 1 -> 0 < py < 1 ->
  (forall x, xe = Some x -> 0 <= x < 1) -> (forall y, ye = Some y -> 0 < y <= 1 /\ py <> y) ->
  shaded ye xe (px, py) = match xe with Some x => Rltb px x | None => false end || match ye with Some y => Rltb y py | None => false end.
Proof.
  intros Hx Hy HX HY. unfold shaded, covered. destruct ye as [y|].
  - destruct (HY y eq_refl) as (Y & N). rewrite (truth_pos y) by lra. destruct xe as [x|].
    + pose proof (HX x eq_refl) as X. destruct (Req_dec x 0) as [->|Q].
      * rewrite truth_zero. cbn [andb]. rewrite inside_top by lra. destruct (Rltb_spec px 0); [lra|]. reflexivity.
      * rewrite (truth_pos x) by lra. cbn [andb]. apply inside_both; try lra.
    + cbn [orb]. apply inside_top; lra.
  - rewrite orb_false_r. destruct xe as [x|]; [|reflexivity]. pose proof (HX x eq_refl) as X. destruct (Req_dec x 0) as [->|Q].
    + rewrite truth_zero. destruct (Rltb_spec px 0); [lra|]. reflexivity.
    + rewrite (truth_pos x) by lra. apply inside_left; lra.
Qed.
