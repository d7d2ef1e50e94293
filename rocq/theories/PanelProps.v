(** C112: a map with its histogram. *)
From Coq Require Import String Ascii List ZArith Reals Bool Lia Lra.
From Verif Require Import Base NumModel NumLemmas BinModel BinSpec BinProofs ApplyProofs StrModel FmtModel FmtSpec FmtProofs FmtProps IoModel RaModel RaProofs4 RaProps StripSpec StripProofs PanelModel.
Import ListNotations.
Local Open Scope R_scope.

(** ** Vocabulary: outlines and what lies inside them *)
Definition corner (mp : rings) (p : R * R) : Prop := exists ring, In ring mp /\ In p ring.
(** the rectangle with these sides *)
Definition rectangle (x0 y0 x1 y1 : R) : rings := [[(x1, y0); (x1, y1); (x0, y1); (x0, y0); (x1, y0)]].
Definition moved (sx dx dy : R) (mp : rings) : rings := map (map (fun p => (sx * fst p + dx, sx * snd p + dy))) mp.
(** What is inside outlines has corners on all four sides; a rectangle has its inside between its sides.  Two areas overlap if they share a part
    and each has a part of its own. *)
Definition geometry (inside : rings -> R * R -> Prop) (overlaps : rings -> rings -> bool) : Prop :=
  (forall mp q, inside mp q -> (exists p, corner mp p /\ fst p < fst q) /\ (exists p, corner mp p /\ fst q < fst p) /\
                               (exists p, corner mp p /\ snd p < snd q) /\ (exists p, corner mp p /\ snd q < snd p)) /\
  (forall x0 y0 x1 y1 q, x0 < x1 -> y0 < y1 -> inside (rectangle x0 y0 x1 y1) q <-> x0 < fst q < x1 /\ y0 < snd q < y1) /\
  (forall a b, overlaps a b = true <->
     (exists q, inside a q /\ inside b q) /\ (exists q, inside a q /\ ~ inside b q) /\ (exists q, inside b q /\ ~ inside a q)).
(** from 0 to w and from 0 to h *)
Definition spans (n : rings) (w h : R) : Prop :=
  (forall p, corner n p -> 0 <= fst p <= w /\ 0 <= snd p <= h) /\
  (exists p, corner n p /\ fst p = 0) /\ (exists p, corner n p /\ fst p = w) /\ (exists p, corner n p /\ snd p = 0) /\ (exists p, corner n p /\ snd p = h).
(** the lower right corner of the unit square that is kept for the histogram *)
Definition reserved : rings := rectangle (7 / 10) 0 1 (15 / 100).

(** ** Lemmas *)
Lemma concat_corner mp p : In p (concat mp) <-> corner mp p.
Proof. unfold corner. rewrite in_concat. firstorder. Qed.
Lemma bounds_spec mp x0 y0 x1 y1 : bounds mp = Ok (x0, y0, x1, y1) <->
  (forall p, corner mp p -> x0 <= fst p <= x1 /\ y0 <= snd p <= y1) /\
  (exists p, corner mp p /\ fst p = x0) /\ (exists p, corner mp p /\ fst p = x1) /\ (exists p, corner mp p /\ snd p = y0) /\ (exists p, corner mp p /\ snd p = y1).
Proof.
  unfold bounds. assert (C := concat_corner mp). destruct (concat mp) as [|p r]; split; intros H.
  - discriminate.
  - destruct H as (_ & (p & K & _) & _). apply C in K. destruct K.
  - injection H as <- <- <- <-.
    assert (IM : forall (g : R * R -> R) q, In q (p :: r) -> In (g q) (g p :: map g r)) by (intros g q I; change (In (g q) (map g (p :: r))); now apply in_map).
    assert (MI : forall (g : R * R -> R) v, In v (g p :: map g r) -> exists q, corner mp q /\ g q = v).
    { intros g v I. change (In v (map g (p :: r))) in I. apply in_map_iff in I. destruct I as (q & E & I). exists q. split; [now apply C|exact E]. }
    split; [|repeat split; apply MI; first [apply list_min_in|apply list_max_in]].
    intros q K. apply C in K. split; split; first [apply list_min_le|apply list_max_ge]; now apply IM.
  - destruct H as (B & (p0 & K0 & <-) & (p1 & K1 & <-) & (p2 & K2 & <-) & (p3 & K3 & <-)). apply C in K0, K1, K2, K3.
    assert (B' : forall q, In q (p :: r) -> fst p0 <= fst q <= fst p1 /\ snd p2 <= snd q <= snd p3) by (intros q I; apply B; now apply C).
    assert (IM : forall (g : R * R -> R) q, In q (p :: r) -> In (g q) (g p :: map g r)) by (intros g q I; change (In (g q) (map g (p :: r))); now apply in_map).
    assert (MI : forall (g : R * R -> R) (P : R -> Prop), (forall q, In q (p :: r) -> P (g q)) -> forall v, In v (g p :: map g r) -> P v).
    { intros g P H v I. change (In v (map g (p :: r))) in I. apply in_map_iff in I. destruct I as (q & <- & I). auto. }
    f_equal. f_equal; [f_equal; [f_equal|]|].
    + apply list_min_unique; [now apply IM|]. apply MI. intros q I. apply B' in I. lra.
    + apply list_min_unique; [now apply IM|]. apply MI. intros q I. apply B' in I. lra.
    + apply list_max_unique; [now apply IM|]. apply MI. intros q I. apply B' in I. lra.
    + apply list_max_unique; [now apply IM|]. apply MI. intros q I. apply B' in I. lra.
Qed.
Lemma corner_each g mp p : corner (each g mp) p <-> exists q, corner mp q /\ p = g q.
Proof.
  unfold corner, each. split.
  - intros (ring & I & J). apply in_map_iff in I. destruct I as (ring' & <- & I). apply in_map_iff in J. destruct J as (q & <- & J). eauto.
  - intros (q & (ring & I & J) & ->). exists (map g ring). split; now apply in_map.
Qed.
Lemma bounds_each s dx dy mp x0 y0 x1 y1 : 0 <= s -> bounds mp = Ok (x0, y0, x1, y1) ->
  bounds (each (fun p => (s * fst p + dx, s * snd p + dy)) mp) = Ok (s * x0 + dx, s * y0 + dy, s * x1 + dx, s * y1 + dy).
Proof.
  intros P B. apply bounds_spec in B. destruct B as (B & (p0 & K0 & <-) & (p1 & K1 & <-) & (p2 & K2 & <-) & (p3 & K3 & <-)). apply bounds_spec. split.
  - intros p K. apply corner_each in K. destruct K as (q & K & ->). cbn [fst snd]. apply B in K. destruct K as ((A1 & A2) & A3 & A4). repeat split; apply Rplus_le_compat_r, Rmult_le_compat_l; assumption.
  - split; [|split; [|split]]; [exists (s * fst p0 + dx, s * snd p0 + dy)|exists (s * fst p1 + dx, s * snd p1 + dy)|exists (s * fst p2 + dx, s * snd p2 + dy)|exists (s * fst p3 + dx, s * snd p3 + dy)];
      (split; [apply corner_each; eauto|reflexivity]).
Qed.
Lemma each_ext g h mp : (forall p, g p = h p) -> each g mp = each h mp.
Proof. intros E. unfold each. apply map_ext. intros l. apply map_ext. exact E. Qed.
Lemma each_each g h mp : each g (each h mp) = each (fun p => g (h p)) mp.
Proof. unfold each. rewrite map_map. apply map_ext. intros l. apply map_map. Qed.
Lemma scale_eq f mp x0 y0 x1 y1 : bounds mp = Ok (x0, y0, x1, y1) -> scale f mp = Ok (moved f ((1 - f) * ((x1 + x0) / 2)) ((1 - f) * ((y1 + y0) / 2)) mp).
Proof. intros B. unfold scale. rewrite B. cbn [bind]. f_equal. apply each_ext. intros p. f_equal; ring. Qed.
Lemma normalise_eq mp x0 y0 x1 y1 : bounds mp = Ok (x0, y0, x1, y1) -> 0 < Rmax (x1 - x0) (y1 - y0) ->
  let s := / Rmax (x1 - x0) (y1 - y0) in normalise mp = Ok (moved s (- (s * x0)) (- (s * y0)) mp) /\ spans (moved s (- (s * x0)) (- (s * y0)) mp) (s * (x1 - x0)) (s * (y1 - y0)).
Proof.
  intros B M s. assert (PS : 0 < s) by now apply Rinv_0_lt_compat.
  assert (BN := bounds_each s (- (s * x0)) (- (s * y0)) mp x0 y0 x1 y1 ltac:(lra) B). split.
  - unfold normalise. rewrite B. cbn [bind]. destruct (Reqb_spec (Rmax (x1 - x0) (y1 - y0)) 0); [lra|]. replace (1 / Rmax (x1 - x0) (y1 - y0)) with s by (unfold s; field; lra).
    rewrite (scale_eq s mp _ _ _ _ B). cbn [bind]. unfold moved. fold (each (fun p => (s * fst p + (1 - s) * ((x1 + x0) / 2), s * snd p + (1 - s) * ((y1 + y0) / 2))) mp).
    rewrite (bounds_each _ _ _ _ _ _ _ _ (Rlt_le _ _ PS) B). cbn [bind]. rewrite each_each. f_equal. apply each_ext. intros p. cbn [fst snd]. f_equal; ring.
  - apply bounds_spec in BN. unfold spans, moved. fold (each (fun p => (s * fst p + - (s * x0), s * snd p + - (s * y0))) mp).
    replace (s * x0 + - (s * x0)) with 0 in BN by ring. replace (s * y0 + - (s * y0)) with 0 in BN by ring.
    replace (s * x1 + - (s * x0)) with (s * (x1 - x0)) in BN by ring. replace (s * y1 + - (s * y0)) with (s * (y1 - y0)) in BN by ring. exact BN.
Qed.
Lemma spans_bounds n w h : spans n w h -> bounds n = Ok (0, 0, w, h).
Proof. intros H. apply bounds_spec. exact H. Qed.
Lemma hist_box_eq : hist_box = reserved.
Proof. unfold hist_box, reserved, rectangle. cbv zeta. replace (3 / 10 * (5 / 10)) with (15 / 100) by lra. replace (1 - 3 / 10) with (7 / 10) by lra. reflexivity. Qed.
(** reduced to less than two fifths it does not reach the box *)
Lemma small_free inside overlaps n w h f : geometry inside overlaps -> spans n w h -> 0 <= w <= 1 -> 0 < f <= 4 / 10 -> overlaps (moved f ((1 - f) * (w / 2)) ((1 - f) * (h / 2)) n) reserved = false.
Proof.
  intros (G1 & G2 & G3) SP W F. destruct (overlaps _ reserved) eqn:E; [|reflexivity]. exfalso. apply G3 in E. destruct E as ((q & I1 & I2) & _).
  apply G2 in I2; [|lra|lra]. apply G1 in I1. destruct I1 as (_ & (p & K & H) & _). unfold moved in K. fold (each (fun p => (f * fst p + (1 - f) * (w / 2), f * snd p + (1 - f) * (h / 2))) n) in K.
  apply corner_each in K. destruct K as (p' & K & ->). apply (proj1 SP) in K. cbn [fst] in H. nra.
Qed.

(** The map is reduced by hundredths, to more than 39 %, until it no longer overlaps the part reserved for the histogram, and no further.  [n] is
    the area brought to the unit square: the longer side 1, the lower left corner of its extent at the origin. *)
Theorem C112_reduction :
  forall inside overlaps mp, geometry inside overlaps ->
    (exists p q, corner mp p /\ corner mp q /\ p <> q) ->
    exists s dx dy w h n, 0 < s /\ n = moved s dx dy mp /\ spans n w h /\ Rmax w h = 1 /\
    let reduced f := moved f ((1 - f) * (w / 2)) ((1 - f) * (h / 2)) n in
    exists k f, f = (98 / 100) ^ k /\ 392 / 1000 < f <= 1 /\
      (forall fuel, (50 <= fuel)%nat -> reduction_factor overlaps fuel mp = Some (Ok f)) /\
      overlaps (reduced f) reserved = false /\
      (forall j, (j < k)%nat -> overlaps (reduced ((98 / 100) ^ j)) reserved = true).
Proof.
  intros inside overlaps mp G (p & q & Kp & Kq & D).
  destruct (bounds mp) as [[[[x0 y0] x1] y1]|] eqn:B.
  2:{ exfalso. unfold bounds in B. assert (C := proj2 (concat_corner mp p) Kp). destruct (concat mp); [destruct C|discriminate]. }
  assert (M : 0 < Rmax (x1 - x0) (y1 - y0)).
  { apply bounds_spec in B. destruct B as (B & _). apply B in Kp as (Hp & Hp'). apply B in Kq as (Hq & Hq'). destruct p as [a b], q as [c d]. cbn [fst snd] in *.
    destruct (Rlt_dec 0 (Rmax (x1 - x0) (y1 - y0))) as [|N]; [assumption|]. exfalso. pose proof (Rmax_l (x1 - x0) (y1 - y0)). pose proof (Rmax_r (x1 - x0) (y1 - y0)). apply D. f_equal; lra. }
  destruct (normalise_eq mp x0 y0 x1 y1 B M) as (EN & SP). set (s := / Rmax (x1 - x0) (y1 - y0)) in *. set (n := moved s (- (s * x0)) (- (s * y0)) mp) in *.
  assert (PS : 0 < s) by now apply Rinv_0_lt_compat.
  assert (ML := Rmax_l (x1 - x0) (y1 - y0)). assert (MR := Rmax_r (x1 - x0) (y1 - y0)).
  exists s, (- (s * x0)), (- (s * y0)), (s * (x1 - x0)), (s * (y1 - y0)), n. split; [exact PS|]. split; [reflexivity|]. split; [exact SP|]. split.
  { rewrite RmaxRmult by lra. unfold s. field. lra. }
  cbv zeta. set (w := s * (x1 - x0)) in *. set (h := s * (y1 - y0)) in *.
  assert (W : 0 <= w <= 1).
  { split; [destruct SP as (BD & (p0 & K0 & E0) & _); apply BD in K0; lra|]. unfold w. apply (Rmult_le_reg_l (Rmax (x1 - x0) (y1 - y0))); [exact M|]. unfold s. rewrite <- Rmult_assoc, Rinv_r by lra. lra. }
  set (reduced f := moved f ((1 - f) * (w / 2)) ((1 - f) * (h / 2)) n).
  assert (SC : forall f, scale f n = Ok (reduced f)). { intros f. rewrite (scale_eq f n _ _ _ _ (spans_bounds n w h SP)). unfold reduced. now rewrite !Rplus_0_r. }
  assert (L46 : (98 / 100) ^ 46 <= 4 / 10) by (cbn [pow]; lra).
  assert (PP : forall j, 0 < (98 / 100) ^ j) by (intros j; apply pow_lt; lra).
  assert (ST : forall m j, (j + m = 46)%nat -> (forall i, (i < j)%nat -> overlaps (reduced ((98 / 100) ^ i)) reserved = true) ->
    exists k, (j <= k <= 46)%nat /\ (forall fuel, (50 <= fuel)%nat -> shrink overlaps (fuel - j) ((98 / 100) ^ j) n = Some (Ok ((98 / 100) ^ k))) /\
      overlaps (reduced ((98 / 100) ^ k)) reserved = false /\ (forall i, (i < k)%nat -> overlaps (reduced ((98 / 100) ^ i)) reserved = true)).
  { induction m as [|m IH]; intros j J BF.
    - exists j. split; [lia|]. assert (FR : overlaps (reduced ((98 / 100) ^ j)) reserved = false).
      { apply (small_free inside); [exact G|exact SP|exact W|]. replace j with 46%nat by lia. split; [apply PP|exact L46]. }
      split; [|split; [exact FR|exact BF]]. intros fuel F. destruct (fuel - j)%nat as [|r] eqn:E; [lia|]. cbn [shrink]. rewrite SC, hist_box_eq, FR. reflexivity.
    - destruct (overlaps (reduced ((98 / 100) ^ j)) reserved) eqn:O.
      + destruct (IH (S j) ltac:(lia)) as (k & K1 & K2 & K3 & K4). { intros i I. destruct (Nat.eq_dec i j) as [->|]; [exact O|apply BF; lia]. }
        exists k. split; [lia|]. split; [|split; assumption]. intros fuel F. specialize (K2 fuel F). destruct (fuel - j)%nat as [|r] eqn:E; [lia|]. cbn [shrink]. rewrite SC, hist_box_eq, O.
        replace ((98 / 100) ^ j * (98 / 100)) with ((98 / 100) ^ S j) by (cbn [pow]; ring). replace r with (fuel - S j)%nat by lia. exact K2.
      + exists j. split; [lia|]. split; [|split; assumption]. intros fuel F. destruct (fuel - j)%nat as [|r] eqn:E; [lia|]. cbn [shrink]. rewrite SC, hist_box_eq, O. reflexivity. }
  destruct (ST 46%nat 0%nat eq_refl) as (k & K1 & K2 & K3 & K4); [intros i I; lia|].
  exists k, ((98 / 100) ^ k). split; [reflexivity|]. split.
  - assert (MO : (98 / 100) ^ 46 <= (98 / 100) ^ k <= 1).
    { replace 46%nat with (k + (46 - k))%nat by lia. rewrite pow_add. assert (U : forall i, 0 < (98 / 100) ^ i <= 1). { intros i. split; [apply PP|]. rewrite <- (pow1 i). apply pow_incr. lra. }
      pose proof (U k). pose proof (U (46 - k)%nat). nra. }
    assert (392 / 1000 < (98 / 100) ^ 46) by (cbn [pow]; lra). lra.
  - split; [|split; assumption]. intros fuel F. unfold reduction_factor. rewrite EN. specialize (K2 fuel F). rewrite Nat.sub_0_r in K2. exact K2.
Qed.
Print Assumptions C112_reduction.

(** The boxes: the map keeps the upper left corner of the panel and its proportions, the histogram is at the right side; both are in the panel,
    and apart from each other exactly if the map is reduced to 72.25 % or less. *)
Theorem C112_boxes :
  forall mf x0 y0 w h, 0 < mf <= 1 -> 0 < w -> 0 < h ->
    let '((mx, my, mw, mh), (hx, hy, hw, hh)) := panel_boxes mf x0 y0 w h in
    mx = x0 /\ my + mh = y0 + h /\ mw = mf * w /\ mh = mf * h /\ y0 <= my /\
    hx + hw = x0 + w /\ hw = 3 / 10 * w /\ hh = 15 / 100 * h /\ y0 < hy /\ hy + hh < y0 + h /\
    ((forall x y, ~ ((mx < x < mx + mw /\ my < y < my + mh) /\ (hx < x < hx + hw /\ hy < y < hy + hh))) <-> mf <= 7225 / 10000).
Proof.
  intros mf x0 y0 w h M W H. unfold panel_boxes. cbv zeta.
  repeat (split; [nra|]). split.
  - intros D. destruct (Rle_dec mf (7225 / 10000)) as [|N]; [assumption|]. exfalso.
    apply (D (x0 + (mf + 7 / 10) / 2 * w) (y0 + ((1 - mf) + 2775 / 10000) / 2 * h)) . repeat split; nra.
  - intros N x y (((A1 & A2) & (A3 & A4)) & ((B1 & B2) & (B3 & B4))).
    assert (y - y0 < 2775 / 10000 * h) by nra. assert (2775 / 10000 * h <= (1 - mf) * h) by (apply Rmult_le_compat_r; lra). lra.
Qed.
Print Assumptions C112_boxes.

(** An area that fills its square is not reduced at all: it holds the reserved part wholly, which does not count as overlapping.  The histogram
    is then drawn on the map. *)
Theorem C112_square_refuted :
  forall inside overlaps x y a, geometry inside overlaps -> 0 < a ->
    (forall fuel, (50 <= fuel)%nat -> reduction_factor overlaps fuel (rectangle x y (x + a) (y + a)) = Some (Ok 1)) /\
    forall x0 y0 w h, 0 < w -> 0 < h ->
      let '((mx, my, mw, mh), (hx, hy, hw, hh)) := panel_boxes 1 x0 y0 w h in
      mx <= hx /\ hx + hw <= mx + mw /\ my <= hy /\ hy + hh <= my + mh.
Proof.
  intros inside overlaps x y a G A. split.
  - destruct (bounds (rectangle x y (x + a) (y + a))) as [[[[x0 y0] x1] y1]|] eqn:B; [|discriminate].
    assert (B' : bounds (rectangle x y (x + a) (y + a)) = Ok (x, y, x + a, y + a)).
    { apply bounds_spec. unfold corner, rectangle. split.
      - intros p (ring & [<-|[]] & I). cbn [In] in I. destruct I as [<-|[<-|[<-|[<-|[<-|[]]]]]]; cbn [fst snd]; lra.
      - repeat split; eexists (_, _); (split; [eexists; split; [left; reflexivity|]|reflexivity]); cbn [In fst snd]; auto 6. }
    rewrite B' in B. injection B as <- <- <- <-.
    assert (MX : Rmax (x + a - x) (y + a - y) = a) by (replace (x + a - x) with a by ring; replace (y + a - y) with a by ring; now rewrite Rmax_left by lra).
    destruct (normalise_eq _ _ _ _ _ B' ltac:(lra)) as (EN & SP). cbv zeta in *. rewrite MX in *.
    replace (/ a * (x + a - x)) with 1 in SP by (field; lra). replace (/ a * (y + a - y)) with 1 in SP by (field; lra).
    set (n := moved (/ a) (- (/ a * x)) (- (/ a * y)) (rectangle x y (x + a) (y + a))) in *.
    assert (N1 : n = rectangle 0 0 1 1). { unfold n, moved, rectangle. cbn [map fst snd]. repeat f_equal; field; lra. }
    intros fuel F. unfold reduction_factor. rewrite EN. destruct fuel as [|fuel]; [lia|]. cbn [shrink]. rewrite (scale_eq 1 n _ _ _ _ (spans_bounds _ _ _ SP)), hist_box_eq.
    assert (N2 : moved 1 ((1 - 1) * ((1 + 0) / 2)) ((1 - 1) * ((1 + 0) / 2)) n = rectangle 0 0 1 1). { rewrite N1. unfold moved, rectangle. cbn [map fst snd]. repeat f_equal; field. }
    rewrite N2. destruct (overlaps (rectangle 0 0 1 1) reserved) eqn:O; [|reflexivity]. exfalso. destruct G as (_ & G2 & G3). apply G3 in O. destruct O as (_ & _ & (q & I1 & I2)).
    apply I2. apply G2; [lra|lra|]. apply G2 in I1; lra.
  - intros x0 y0 w h W H. unfold panel_boxes. cbv zeta. repeat split; nra.
Qed.
Print Assumptions C112_square_refuted.

(** The text of a panel: the diameters of the bin to two figures, in kilometres exactly if the bin begins at 1 km or more, and the number of
    craters with diameters in the bin. *)
Theorem C112_text :
  forall A craters bd idx (items : list A) i,
    craters <> [] -> Forall (fun c => / 2 ^ 99 <= fst c <= 2 ^ 99) craters -> length items = length craters ->
    apply_binning craters "root-2" 0 = Ok (bd, Some idx) -> (i < length (b_dmin bd))%nat ->
    let lo := nth i (b_dmin bd) 0 in
    let hi := lo * Rpower 2 (499 / 1000) in
    let number := length (filter (fun c => Rleb lo (fst c) && Rltb (fst c) (nth i (b_dmax bd) 0)) craters) in
    exists a b ya yb, numeral a ya /\ numeral b yb /\
      ((1 <= lo /\ significant 2 lo ya /\ significant 2 hi yb /\
        panel_text bd idx items (bin_key lo) = Ok (a ++ en_dash ++ b ++ L " km" ++ nl :: L "n = " ++ int_str (Z.of_nat number))) \/
       (lo < 1 /\ significant 2 (1000 * lo) ya /\ significant 2 (1000 * hi) yb /\
        panel_text bd idx items (bin_key lo) = Ok (a ++ en_dash ++ b ++ L " m" ++ nl :: L "n = " ++ int_str (Z.of_nat number)))).
Proof.
  intros A craters bd idx items i NE F LN E I lo hi number. pose proof (conj NE F : ordinary craters) as O.
  destruct (ordinary_bins _ _ _ O E) as (z0 & n & EG & Z1 & Z2).
  assert (HL : exists z, (Z.abs z < 200)%Z /\ lo = Rpower 2 (IZR z / 2)).
  { exists (z0 + Z.of_nat i)%Z. rewrite EG in I. unfold grid_points in I. rewrite map_length, seq_length in I. split; [lia|]. unfold lo. rewrite EG, <- root2.
    unfold grid_points. rewrite (nth_indep _ 0 (grid "root-2" 0 (z0 + Z.of_nat 0))) by (now rewrite map_length, seq_length). rewrite (map_nth (fun k => grid "root-2" 0 (z0 + Z.of_nat k))). now rewrite seq_nth. }
  destruct HL as (z & ZB & EL).
  assert (KY : bin_key lo = bin_label z) by (rewrite EL, <- root2; apply bin_key_grid).
  assert (CR := bin_craters_spec craters bd idx items i O E I). fold lo in CR.
  assert (NB : length (map snd (filter (fun p => in_range lo (nth i (b_dmax bd) 0) (fst p)) (combine craters items))) = number).
  { rewrite map_length. unfold number. clear - LN. revert items LN. induction craters as [|c cs IH]; intros [|x items] LN; try discriminate; [reflexivity|].
    cbn [combine filter fst]. unfold in_range at 1. destruct (Rleb lo (fst c) && Rltb (fst c) (nth i (b_dmax bd) 0)); cbn [length]; rewrite IH by (now injection LN); reflexivity. }
  unfold panel_text. rewrite CR. cbn [bind]. rewrite NB, KY, (label_value z ZB). cbn [bind]. rewrite <- EL. fold hi.
  assert (UN : 1 <= hi <-> 1 <= lo).
  { unfold hi. rewrite EL, <- Rpower_plus. assert (P0 : Rpower 2 0 = 1) by (apply Rpower_O; lra). rewrite <- P0. split; intros H.
    - apply Rpower2_le_inv in H. apply Rle_Rpower; [lra|]. assert (Q : IZR z > -1) by lra. apply lt_IZR in Q. assert (Q' : (0 <= z)%Z) by lia. apply IZR_le in Q'. lra.
    - apply Rpower2_le_inv in H. apply Rle_Rpower; lra. }
  destruct (C63_range lo hi 2 ltac:(lia)) as (a & b & ya & yb & N1 & N2 & [(H & S1 & S2 & ->)|(H & S1 & S2 & ->)]); exists a, b, ya, yb; split; [exact N1| |exact N1|]; (split; [exact N2|]); cbn [bind].
  - left. split; [tauto|]. split; [exact S1|]. split; [exact S2|]. now rewrite <- !app_assoc.
  - right. split; [apply Rnot_le_lt; intros K; apply UN in K; lra|]. split; [exact S1|]. split; [exact S2|]. now rewrite <- !app_assoc.
Qed.
Print Assumptions C112_text.

(** such a geometry exists: here every area is taken for the rectangle around it *)
Definition around (mp : rings) (q : R * R) : Prop :=
  (exists p, corner mp p /\ fst p < fst q) /\ (exists p, corner mp p /\ fst q < fst p) /\ (exists p, corner mp p /\ snd p < snd q) /\ (exists p, corner mp p /\ snd q < snd p).
Definition part (b c : R * R * R * R) : bool :=
  let '(x0, y0, x1, y1) := b in let '(u0, v0, u1, v1) := c in
  Rltb x0 x1 && Rltb y0 y1 && negb (Rleb u0 x0 && Rleb x1 u1 && Rleb v0 y0 && Rleb y1 v1).
Definition meet (b c : R * R * R * R) : bool :=
  let '(x0, y0, x1, y1) := b in let '(u0, v0, u1, v1) := c in
  Rltb (Rmax x0 u0) (Rmin x1 u1) && Rltb (Rmax y0 v0) (Rmin y1 v1).
Definition around_overlaps (a b : rings) : bool :=
  match bounds a, bounds b with Ok u, Ok v => meet u v && part u v && part v u | _, _ => false end.
Definition in_box (b : R * R * R * R) (q : R * R) : Prop := let '(x0, y0, x1, y1) := b in x0 < fst q < x1 /\ y0 < snd q < y1.
Lemma around_box a b : bounds a = Ok b -> forall q, around a q <-> in_box b q.
Proof.
  destruct b as [[[x0 y0] x1] y1]. intros B q. apply bounds_spec in B. destruct B as (B & (p0 & K0 & <-) & (p1 & K1 & <-) & (p2 & K2 & <-) & (p3 & K3 & <-)). unfold around, in_box. split.
  - intros ((p & K & H) & (p' & K' & H') & (r & J & G) & (r' & J' & G')). apply B in K, K', J, J'. lra.
  - intros ((H1 & H2) & (H3 & H4)). repeat split; [exists p0|exists p1|exists p2|exists p3]; auto.
Qed.
Lemma around_none a e : bounds a = Err e -> forall q, ~ around a q.
Proof. intros B q ((p & K & _) & _). apply concat_corner in K. unfold bounds in B. destruct (concat a); [destruct K|discriminate]. Qed.
Lemma meet_spec b c : meet b c = true <-> exists q, in_box b q /\ in_box c q.
Proof.
  destruct b as [[[x0 y0] x1] y1], c as [[[u0 v0] u1] v1]. unfold meet, in_box. rewrite andb_true_iff.
  assert (RM : forall a b c d, Rltb (Rmax a b) (Rmin c d) = true <-> a < c /\ a < d /\ b < c /\ b < d).
  { intros a b c d. destruct (Rltb_spec (Rmax a b) (Rmin c d)) as [H|H]; split; intros K; try reflexivity; try discriminate; unfold Rmax, Rmin in *; destruct (Rle_dec a b), (Rle_dec c d); lra. }
  rewrite !RM. split.
  - intros ((A & B & C & D) & (E & F & G & H)). exists ((Rmax x0 u0 + Rmin x1 u1) / 2, (Rmax y0 v0 + Rmin y1 v1) / 2). cbn [fst snd].
    unfold Rmax, Rmin. destruct (Rle_dec x0 u0), (Rle_dec x1 u1), (Rle_dec y0 v0), (Rle_dec y1 v1); lra.
  - intros ((u & v) & H & K). cbn [fst snd] in *. lra.
Qed.
Lemma part_spec b c : part b c = true <-> exists q, in_box b q /\ ~ in_box c q.
Proof.
  destruct b as [[[x0 y0] x1] y1], c as [[[u0 v0] u1] v1]. unfold part, in_box. rewrite !andb_true_iff, negb_true_iff. split.
  - intros ((A & B) & N). destruct (Rltb_spec x0 x1) as [X|]; [|discriminate]. destruct (Rltb_spec y0 y1) as [Y|]; [|discriminate]. clear A B.
    assert (MN : forall a b, a < Rmin a b -> False) by (intros a b; unfold Rmin; destruct (Rle_dec a b); lra).
    destruct (Rleb_spec u0 x0) as [H1|H1]; [|exists ((x0 + Rmin x1 u0) / 2, (y0 + y1) / 2); cbn [fst snd]; unfold Rmin; destruct (Rle_dec x1 u0); lra].
    destruct (Rleb_spec x1 u1) as [H2|H2]; [|exists ((Rmax x0 u1 + x1) / 2, (y0 + y1) / 2); cbn [fst snd]; unfold Rmax; destruct (Rle_dec x0 u1); lra].
    destruct (Rleb_spec v0 y0) as [H3|H3]; [|exists ((x0 + x1) / 2, (y0 + Rmin y1 v0) / 2); cbn [fst snd]; unfold Rmin; destruct (Rle_dec y1 v0); lra].
    destruct (Rleb_spec y1 v1) as [H4|H4]; [discriminate|exists ((x0 + x1) / 2, (Rmax y0 v1 + y1) / 2); cbn [fst snd]; unfold Rmax; destruct (Rle_dec y0 v1); lra].
  - intros ((u & v) & H & K). cbn [fst snd] in *. destruct (Rltb_spec x0 x1); [|lra]. destruct (Rltb_spec y0 y1); [|lra]. split; [split; reflexivity|].
    destruct (Rleb_spec u0 x0), (Rleb_spec x1 u1), (Rleb_spec v0 y0), (Rleb_spec y1 v1); try reflexivity. lra.
Qed.
Example C112_hypotheses_met :
  geometry around around_overlaps /\ (exists p q, corner (rectangle 0 0 2 1) p /\ corner (rectangle 0 0 2 1) q /\ p <> q).
Proof.
  split.
  - split; [unfold around; tauto|]. split.
    + intros x0 y0 x1 y1 q X Y. rewrite (around_box _ (x0, y0, x1, y1)); [reflexivity|]. apply bounds_spec. unfold corner, rectangle. split.
      * intros p (ring & [<-|[]] & I). cbn [In] in I. destruct I as [<-|[<-|[<-|[<-|[<-|[]]]]]]; cbn [fst snd]; lra.
      * repeat split; eexists (_, _); (split; [eexists; split; [left; reflexivity|]|reflexivity]); cbn [In fst snd]; auto 6.
    + intros a b. unfold around_overlaps. destruct (bounds a) as [u|e] eqn:EA; [destruct (bounds b) as [v|e] eqn:EB|].
      * rewrite !andb_true_iff, meet_spec, !part_spec. assert (A := around_box a u EA). assert (B := around_box b v EB).
        split; [intros (((q1 & H1 & H1') & (q2 & H2 & H2')) & (q3 & H3 & H3'))|intros ((q1 & H1 & H1') & (q2 & H2 & H2') & (q3 & H3 & H3'))].
        -- split; [exists q1; now rewrite A, B|]. split; [exists q2; now rewrite A, B|exists q3; now rewrite A, B].
        -- rewrite A, B in *. split; [split|]; eauto.
      * split; [discriminate|]. intros ((q & _ & H) & _). now apply (around_none b e EB) in H.
      * split; [discriminate|]. intros ((q & H & _) & _). now apply (around_none a e EA) in H.
  - exists (2, 0), (0, 1). split; [|split]; [eexists; split; [left; reflexivity|cbn; auto 6]|eexists; split; [left; reflexivity|cbn; auto 6]|]. intros E. apply (f_equal fst) in E. cbn in E. lra.
Qed.
