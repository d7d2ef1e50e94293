(** C111: the chart of the deviations of an analysis. *)
From Coq Require Import String Ascii List ZArith Reals Bool Lia Lra Sorted.
From Verif Require Import Base NumModel NumLemmas StrModel StrSpec StrProofs StrProofs2 FmtModel FmtSpec FmtProofs TsModel IoModel IoProofs SccModel SccProofs3 RaModel RaProofs3 RaFileModel
  SetModel SetSpec SetProofs SetProps2 SetProps3 StripModel StripSpec StripProofs StripProps ChartModel.
Import ListNotations.
Local Open Scope R_scope.

(** how far the measured value of a bin is from the mean of its trials, in standard deviations, counted towards separated craters: their
    distances are larger, their areas vary less *)
Definition towards_separated (measure : str) (s : stats) (v : R) : Prop :=
  (measure = L "m2cnd" /\ v = (s_m0 s - s_mn s) / s_sd s) \/ (measure = L "sdaa" /\ v = (s_mn s - s_m0 s) / s_sd s).
(** the point of a bin *)
Definition point_of (measure : str) (z : Z) (s : stats) (p : R * sigma) : Prop :=
  fst p = log10 (sqrt (edge z * edge (z + 1))) /\
  (0 < s_sd s -> exists v, towards_separated measure s v /\ snd p = SNum (level v)) /\
  (s_sd s = 0 -> forall h, snd p <> SNum h).

Lemma margin : log10 (Rpower 2 (251 / 1000)) = 251 / 1000 * log10 2.
Proof. unfold log10, Rpower. rewrite ln_exp. unfold Rdiv. ring. Qed.
Lemma slack e a b : log10 (edge a) - log10 2 / 1000 <= log10 (edge e) <= log10 (edge b) + log10 2 / 1000 <-> (a <= e <= b)%Z.
Proof.
  rewrite !log10_edge. pose proof log10_2_pos as P. split.
  - intros [H1 H2]. assert (A : IZR a - 2 / 1000 <= IZR e) by (apply (Rmult_le_reg_r (log10 2)); nra). assert (B : IZR e <= IZR b + 2 / 1000) by (apply (Rmult_le_reg_r (log10 2)); nra).
    split; apply Znot_gt_le; intros G.
    + assert (K : (e + 1 <= a)%Z) by lia. apply IZR_le in K. rewrite plus_IZR in K. lra.
    + assert (K : (b + 1 <= e)%Z) by lia. apply IZR_le in K. rewrite plus_IZR in K. lra.
  - intros [H1 H2]. apply IZR_le in H1, H2. nra.
Qed.
Lemma deviation_spec s : 0 < s_sd s -> deviation s = SNum ((s_m0 s - s_mn s) / s_sd s).
Proof. intros H. unfold deviation. destruct (Reqb_spec (s_sd s) 0); [lra|reflexivity]. Qed.
Lemma point_spec measure style z s : line_style measure = Ok style ->
  point_of measure z s (centre z, if seqb measure (L "sdaa") then flip_sigma (scale_sigma (deviation s)) else scale_sigma (deviation s)).
Proof.
  intros E. split; [apply log10_centre|]. cbn [snd]. assert (M : measure = L "m2cnd" \/ measure = L "sdaa").
  { unfold line_style in E. destruct (seqb_spec measure (L "m2cnd")); [now left|]. destruct (seqb_spec measure (L "sdaa")); [now right|discriminate]. }
  split.
  - intros H. rewrite deviation_spec by exact H. destruct M as [-> | ->].
    + change (seqb (L "m2cnd") (L "sdaa")) with false. cbv iota. exists ((s_m0 s - s_mn s) / s_sd s). split; [now left|]. cbn [scale_sigma]. now rewrite level_scaling.
    + change (seqb (L "sdaa") (L "sdaa")) with true. cbv iota. exists ((s_mn s - s_m0 s) / s_sd s). split; [now right|]. cbn [scale_sigma flip_sigma]. f_equal.
      replace ((s_mn s - s_m0 s) / s_sd s) with (- ((s_m0 s - s_mn s) / s_sd s)) by (field; lra). rewrite level_opp, level_scaling. ring.
  - intros H h. unfold deviation. destruct (Reqb_spec (s_sd s) 0); [|lra]. destruct (Reqb_spec (s_m0 s) (s_mn s)), (seqb measure (L "sdaa")); cbn; discriminate.
Qed.
(** everything up to the ticks *)
Lemma chart_made measure n z zs st : Forall (fun z => (Z.abs z < 200)%Z) (z :: zs) -> StronglySorted Z.lt (z :: zs) ->
  let xr := (log10 (edge z) - log10 2 / 1000, log10 (edge (last (z :: zs) 0%Z + 1)) + log10 2 / 1000) in
  n_sigma_chart measure n (map (fun z => (bin_label z, st z)) (z :: zs)) =
  do! style <- line_style measure;
  do! g <- Hartmann_bins xr;
  let '(major, labels, _, minor) := g in
  Ok (mkChart (map (fun z => (centre z, if seqb measure (L "sdaa") then flip_sigma (scale_sigma (deviation (st z))) else scale_sigma (deviation (st z)))) (z :: zs)) style xr
              (n_sigma_scaling (-3), n_sigma_scaling 3) bands
              [(L "clustered", ((fst xr + snd xr) / 2, n_sigma_scaling (-6))); (L "separated", ((fst xr + snd xr) / 2, n_sigma_scaling 7))]
              (map (fun k => (n_sigma_scaling (IZR k) + - (8 / 100), pad_left 2 (int_str (Z.abs k)))) [-3; -1; 0; 1; 3]%Z)
              (measure ++ nl :: int_str n ++ L " trials") major labels minor).
Proof.
  intros B SO xr. unfold n_sigma_chart. rewrite mapM_map. rewrite (mapM_ok _ centre).
  2:{ intros y I. cbn [fst]. rewrite label_value by exact (proj1 (Forall_forall _ _) B y I). reflexivity. }
  cbn [bind]. rewrite (sorted_min z zs SO). cbn [bind]. rewrite (sorted_max zs z SO). cbn [bind].
  assert (X : (centre z - log10 (Rpower 2 (251 / 1000)), centre (last (z :: zs) 0%Z) + log10 (Rpower 2 (251 / 1000))) = xr).
  { unfold xr. rewrite margin, !centre_eq, !log10_edge, plus_IZR. f_equal; field. }
  rewrite X. rewrite !map_map. cbn [snd].
  assert (C : forall (f : Z -> sigma) l, combine (map centre l) (map f l) = map (fun z => (centre z, f z)) l) by (intros f; induction l as [|a l IH]; [reflexivity|]; cbn [map combine]; now rewrite IH).
  rewrite C. reflexivity.
Qed.

(** The bins are those from edge z to edge z+1 for the numbers zs.  Each has its point in the middle of its diameters, as high as its deviation;
    the axis goes from the lower edge of the first bin to the upper edge of the last and a thousandth of a factor of two beyond; "clustered" stands
    below and "separated" above the axes; there is a line for every edge of a bin from the first to the last. *)
Theorem C111_chart :
  forall measure n zs st c, zs <> [] -> Forall (fun z => (Z.abs z < 200)%Z) zs -> StronglySorted Z.lt zs ->
    n_sigma_chart measure n (map (fun z => (bin_label z, st z)) zs) = Ok c ->
    Forall2 (fun z p => point_of measure z (st z) p) zs (ct_points c) /\
    ct_x c = (log10 (edge (hd 0%Z zs)) - log10 2 / 1000, log10 (edge (last zs 0%Z + 1)) + log10 2 / 1000) /\
    ct_y c = (- level 3, level 3) /\
    ct_bands c = [(- level 3, level 3); (- level 2, level 2); (- level 1, level 1)] /\
    (exists x, fst (ct_x c) < x < snd (ct_x c) /\ x - fst (ct_x c) = snd (ct_x c) - x /\ ct_words c = [(L "clustered", (x, - level 6)); (L "separated", (x, level 7))]) /\
    Forall2 (fun k p => fst p = level (IZR k) - 8 / 100 /\ exists d, snd p = [" "%char; d] /\ [d] = int_str (Z.abs k)) [-3; -1; 0; 1; 3]%Z (ct_scale c) /\
    ct_text c = measure ++ nl :: int_str n ++ L " trials" /\
    length (ct_labels c) = length (ct_major c) /\
    (forall e, (-10 <= e <= 10)%Z -> In (log10 (powerRZ 2 e)) (ct_major c) <-> (hd 0 zs <= 2 * e <= last zs 0 + 1)%Z) /\
    ((-21 <= hd 0 zs)%Z -> (last zs 0 + 1 <= 21)%Z -> forall v, In v (ct_major c ++ ct_minor c) <-> exists z, (hd 0 zs <= z <= last zs 0 + 1)%Z /\ v = log10 (edge z)).
Proof.
  intros measure n zs st c NE B SO. destruct zs as [|z zs]; [contradiction|]. rewrite chart_made by assumption. cbv zeta. cbn [hd].
  set (b := (last (z :: zs) 0 + 1)%Z). set (xr := (log10 (edge z) - log10 2 / 1000, log10 (edge b) + log10 2 / 1000)).
  destruct (line_style measure) as [style|] eqn:ES; [|discriminate]. cbn [bind].
  destruct (Hartmann_bins xr) as [[[[major labels] xm] minor]|] eqn:EH; [|discriminate]. cbn [bind].
  intros E. match type of E with Ok ?q = _ => assert (Q : c = q) by congruence end. clear E. subst c. cbn [ct_points ct_x ct_y ct_bands ct_words ct_scale ct_text ct_labels ct_major ct_minor].
  destruct C77_scale as (O & _). assert (P := log10_2_pos).
  assert (LB : forall l y, StronglySorted Z.lt (y :: l) -> (y <= last (y :: l) 0)%Z).
  { clear. induction l as [|x l IH]; intros y H; [cbn; lia|]. inversion H as [|? ? H1 H2]; subst. inversion H2; subst. specialize (IH x H1). change (last (y :: x :: l) 0%Z) with (last (x :: l) 0%Z). lia. }
  assert (BG : (z < b)%Z) by (unfold b; pose proof (LB zs z SO); lia).
  split; [|split; [reflexivity|split; [|split; [|split; [|split; [|split; [reflexivity|]]]]]]].
  - clear - ES. induction (z :: zs) as [|y l IH]; [constructor|]. cbn [map]. constructor; [|exact IH]. exact (point_spec measure style y (st y) ES).
  - rewrite level_scaling. f_equal. now rewrite <- O.
  - unfold bands. cbn [map]. rewrite !level_scaling, !O. reflexivity.
  - exists ((fst xr + snd xr) / 2). assert (LT : fst xr < snd xr). { unfold xr. cbn [fst snd]. rewrite !log10_edge. apply IZR_lt in BG. nra. }
    split; [lra|]. split; [lra|]. rewrite !level_scaling, <- O. reflexivity.
  - cbn [map]. repeat constructor; cbn [fst snd]; rewrite ?level_scaling; try lra; eexists; split; reflexivity.
  - destruct (C76_Hartmann_ticks _ _ _ _ _ _ EH) as (e0 & e1 & BD & HT & I & FL & _ & MI).
    assert (IN : forall e, (-10 <= e <= 10)%Z -> (z <= 2 * e <= b)%Z <-> (e0 <= e <= e1)%Z) by (intros e He; rewrite <- (I e He), tick_edge, slack; tauto).
    split; [|split].
    + rewrite HT, map_length. symmetry. clear - FL. induction FL; cbn; congruence.
    + intros e He. rewrite (IN e He), HT, in_map_iff. split.
      * intros (e' & T & J). apply zrange_in in J. assert (e' = e); [|subst; lia]. rewrite !tick_edge, !log10_edge in T.
        assert (T2 : IZR (2 * e') = IZR (2 * e)) by (apply (Rmult_eq_reg_r (log10 2)); [|lra]; lra). apply eq_IZR in T2. lia.
      * intros J. exists e. split; [reflexivity|]. apply zrange_in. lia.
    + intros A C v. pose proof (IN e0 ltac:(lia)) as I0. pose proof (IN e1 ltac:(lia)) as I1.
      assert (P0 : (e0 = -10 \/ 2 * (e0 - 1) < z)%Z) by (destruct (Z.eq_dec e0 (-10)); [left; assumption|right; pose proof (IN (e0 - 1)%Z ltac:(lia)); lia]).
      assert (P1 : (e1 = 10 \/ b < 2 * (e1 + 1))%Z) by (destruct (Z.eq_dec e1 10); [left; assumption|right; pose proof (IN (e1 + 1)%Z ltac:(lia)); lia]).
      rewrite in_app_iff, HT, in_map_iff, MI. split.
      * intros [(e & <- & Ie)|(L12 & e & Ie & ->)].
        -- apply zrange_in in Ie. rewrite tick_edge. exists (2 * e)%Z. split; [lia|reflexivity].
        -- rewrite half_edge in *. apply slack in L12. exists (2 * e + 1)%Z. split; [lia|reflexivity].
      * intros (y & Iy & ->). destruct (Z.Even_or_Odd y) as [[k ->]|[k ->]].
        -- left. exists k. rewrite tick_edge. split; [reflexivity|]. apply zrange_in. lia.
        -- right. split; [apply slack; lia|]. exists k. split; [lia|]. now rewrite half_edge.
Qed.
Print Assumptions C111_chart.

(** Reading the chart: a point is in the band of k standard deviations exactly if its deviation is at most k, above the middle exactly if the
    craters are more separated than the mean of the trials. *)
Theorem C111_reading :
  forall measure z s p h, point_of measure z s p -> 0 < s_sd s -> snd p = SNum h ->
    (forall k, 0 <= k -> - level k <= h <= level k <-> Rabs (s_m0 s - s_mn s) <= k * s_sd s) /\
    (0 < h <-> (measure = L "m2cnd" /\ s_mn s < s_m0 s) \/ (measure = L "sdaa" /\ s_m0 s < s_mn s)) /\
    (h = 0 <-> s_m0 s = s_mn s).
Proof.
  intros measure z s p h (_ & HP & _) SD E. destruct (HP SD) as (v & T & E'). rewrite E' in E. injection E as <-. clear HP E'.
  assert (PQ : forall q, 0 < q / s_sd s <-> 0 < q).
  { intros q. split; intros H; [|now apply Rdiv_lt_0_compat]. apply (Rmult_lt_compat_r (s_sd s)) in H; [|exact SD]. unfold Rdiv in H. rewrite Rmult_assoc, Rinv_l in H by lra. lra. }
  assert (ZQ : forall q, q / s_sd s = 0 <-> q = 0).
  { intros q. split; intros H; [|subst; unfold Rdiv; ring]. apply (f_equal (fun u => u * s_sd s)) in H. unfold Rdiv in H. rewrite Rmult_assoc, Rinv_l in H by lra. lra. }
  assert (AV : Rabs v = Rabs (s_m0 s - s_mn s) / s_sd s).
  { assert (U : forall q, Rabs (q / s_sd s) = Rabs q / s_sd s) by (intros q; unfold Rdiv; rewrite Rabs_mult, (Rabs_right (/ s_sd s)); [reflexivity|left; now apply Rinv_0_lt_compat]).
    destruct T as [(_ & ->)|(_ & ->)]; rewrite U; [reflexivity|]. now rewrite Rabs_minus_sym. }
  split; [|split].
  - intros k K. rewrite <- level_opp, !level_le.
    transitivity (Rabs v <= k). { unfold Rabs. destruct (Rcase_abs v); lra. }
    rewrite AV. set (a := Rabs (s_m0 s - s_mn s)). split; intros H.
    + apply (Rmult_le_compat_r (s_sd s)) in H; [|lra]. unfold Rdiv in H. rewrite Rmult_assoc, Rinv_l in H by lra. lra.
    + apply (Rmult_le_reg_r (s_sd s)); [exact SD|]. unfold Rdiv. rewrite Rmult_assoc, Rinv_l by lra. lra.
  - transitivity (0 < v). { pose proof (level_le v 0) as G. rewrite level_0 in G. split; intros H; apply Rnot_le_lt; intros K; apply G in K; lra. }
    assert (ND : L "m2cnd" <> L "sdaa") by discriminate.
    destruct T as [(-> & ->)|(-> & ->)]; rewrite PQ; split; intros H.
    + left. split; [reflexivity|lra].
    + destruct H as [(_ & H)|(Q & _)]; [lra|contradiction].
    + right. split; [reflexivity|lra].
    + destruct H as [(Q & _)|(_ & H)]; [symmetry in Q; contradiction|lra].
  - transitivity (v = 0). { pose proof (level_le v 0) as G1. pose proof (level_le 0 v) as G2. rewrite level_0 in G1, G2. split; intros H; apply Rle_antisym; tauto || (apply G1; lra) || (apply G2; lra). }
    destruct T as [(_ & ->)|(_ & ->)]; rewrite ZQ; lra.
Qed.
Print Assumptions C111_reading.

(** The chart can be drawn exactly if two powers of two between 2^-10 and 2^10 km are edges of bins in it. *)
Theorem C111_possible :
  forall measure n zs st, (measure = L "m2cnd" \/ measure = L "sdaa") -> zs <> [] -> Forall (fun z => (Z.abs z < 200)%Z) zs -> StronglySorted Z.lt zs ->
    ((exists c, n_sigma_chart measure n (map (fun z => (bin_label z, st z)) zs) = Ok c) <->
     exists e, (-10 <= e < 10)%Z /\ (hd 0 zs <= 2 * e)%Z /\ (2 * e + 2 <= last zs 0 + 1)%Z).
Proof.
  intros measure n zs st M NE B SO. destruct zs as [|z zs]; [contradiction|]. rewrite chart_made by assumption. cbv zeta. cbn [hd].
  set (b := (last (z :: zs) 0 + 1)%Z). set (xr := (log10 (edge z) - log10 2 / 1000, log10 (edge b) + log10 2 / 1000)).
  assert (ES : exists style, line_style measure = Ok style) by (destruct M as [-> | ->]; eexists; reflexivity). destruct ES as (style & ->). cbn [bind]. split.
  - intros (c & E). destruct (Hartmann_bins xr) as [[[[major labels] xm] minor]|] eqn:EH; [|discriminate].
    destruct (C76_Hartmann_ticks _ _ _ _ _ _ EH) as (e0 & e1 & BD & _ & I & _). exists e0.
    assert (I0 : (z <= 2 * e0 <= b)%Z) by (pose proof (proj2 (I e0 ltac:(lia)) ltac:(lia)) as X; rewrite tick_edge in X; now apply slack in X).
    assert (I1 : (z <= 2 * e1 <= b)%Z) by (pose proof (proj2 (I e1 ltac:(lia)) ltac:(lia)) as X; rewrite tick_edge in X; now apply slack in X).
    lia.
  - intros (e & BE & H1 & H2). destruct (C76_needs_two_ticks (fst xr) (snd xr)) as (K & _). destruct K as (r & E).
    { exists e, (e + 1)%Z. split; [lia|]. split; [lia|]. rewrite !tick_edge. unfold xr. cbn [fst snd].
      pose proof (proj2 (slack (2 * e) z b) ltac:(lia)). pose proof (proj2 (slack (2 * (e + 1)) z b) ltac:(lia)). lra. }
    change (fst xr, snd xr) with xr in E. rewrite E. destruct r as [[[major labels] xm] minor]. eexists. reflexivity.
Qed.
Print Assumptions C111_possible.

(** An analysis of a single bin has no chart, nor one of two bins with the power of two between them. *)
Theorem C111_narrow_refuted :
  forall measure n z st, (measure = L "m2cnd" \/ measure = L "sdaa") -> (Z.abs z < 199)%Z ->
    (exists e, n_sigma_chart measure n [(bin_label z, st z)] = Err e) /\
    (Z.Odd z -> exists e, n_sigma_chart measure n [(bin_label z, st z); (bin_label (z + 1), st (z + 1)%Z)] = Err e).
Proof.
  intros measure n z st M H.
  assert (G : forall zs, zs <> [] -> Forall (fun z => (Z.abs z < 200)%Z) zs -> StronglySorted Z.lt zs -> ~ (exists e, (-10 <= e < 10)%Z /\ (hd 0 zs <= 2 * e)%Z /\ (2 * e + 2 <= last zs 0 + 1)%Z) ->
    exists e, n_sigma_chart measure n (map (fun z => (bin_label z, st z)) zs) = Err e).
  { intros zs NE B SO N. destruct (n_sigma_chart measure n (map (fun z => (bin_label z, st z)) zs)) as [c|e] eqn:E; [|now exists e].
    exfalso. apply N. apply (C111_possible measure n zs st M NE B SO). now exists c. }
  split.
  - apply (G [z]); [discriminate|repeat constructor; lia|repeat constructor|]. intros (e & _ & H1 & H2). cbn [hd last] in *. lia.
  - intros [k ->]. apply (G [2 * k + 1; 2 * k + 1 + 1]%Z); [discriminate|repeat constructor; lia|repeat constructor; lia|]. intros (e & _ & H1 & H2). cbn [hd last] in *. lia.
Qed.
Print Assumptions C111_narrow_refuted.

(** The box of the chart as a plot of its own lies in the page; as a panel it reaches a tenth of a panel out of it at the right. *)
Theorem C111_box :
  forall x0 y0 w h, 0 < w -> 0 < h ->
    (let '(x, y, a, b) := chart_box false x0 y0 w h in x = x0 /\ x + a = x0 + w /\ y0 < y /\ y + b < y0 + h /\ (y - y0) = (y0 + h) - (y + b)) /\
    (let '(x, y, a, b) := chart_box true x0 y0 w h in x0 < x /\ x + a = x0 + w + w / 10 /\ y0 < y /\ y + b < y0 + h).
Proof. intros. unfold chart_box. split; repeat split; lra. Qed.
Print Assumptions C111_box.

(** three bins from 1 km: 1-1.4, 1.4-2, 2-2.8 km *)
Example C111_hypotheses_met :
  exists c, n_sigma_chart (L "sdaa") 300 (map (fun z => (bin_label z, mkStats (IZR z) 1 2 None 50)) [0; 1; 2]%Z) = Ok c /\
  Forall (fun z => (Z.abs z < 200)%Z) [0; 1; 2]%Z /\ StronglySorted Z.lt [0; 1; 2]%Z.
Proof.
  assert (B : Forall (fun z => (Z.abs z < 200)%Z) [0; 1; 2]%Z) by (repeat constructor).
  assert (SO : StronglySorted Z.lt [0; 1; 2]%Z) by (repeat constructor; lia).
  destruct (C111_possible (L "sdaa") 300 [0; 1; 2]%Z (fun z => mkStats (IZR z) 1 2 None 50) (or_intror eq_refl) ltac:(discriminate) B SO) as (_ & K).
  destruct K as (c & E). { exists 0%Z. cbn [hd last]. lia. } exists c. now split.
Qed.
