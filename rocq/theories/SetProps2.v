(** C74, C75: the size of a crater plot on the page and its natural tick labels. *)
From Coq Require Import String List Ascii ZArith Reals Lra Lia Bool Sorted.
Import ListNotations.
From Verif Require Import Base StrModel NumModel NumLemmas FmtModel FmtSpec IoModel SccProofs3 IoProofs3 SetModel SetSpec SetProofs.
Local Open Scope R_scope.

(** * C74 *)
Lemma decades_ge r : 1 <= decades r.
Proof. unfold decades. apply Rmax_r. Qed.
Lemma decades_of a b : a <= b - 1 -> decades (a, b) = b - a.
Proof. intros H. unfold decades, mag. cbn [fst snd]. rewrite (Rmax_right a b), (Rmin_left a b), Rmax_left by lra. reflexivity. Qed.
Definition axes_width (l : layout) : R := snd (fst (l_axes l)).
Definition axes_height (l : layout) : R := snd (l_axes l).

(** every x decade has the same length, whatever the ranges, and every y decade the same length divided by the aspect
    of the presentation; around the axes is a margin of a fifth of the point size on every side *)
Theorem C74_decade_length : forall p xr yr dims pt l, 0 < pt -> Forall (fun v => 0 < v) dims ->
  plot_layout p xr yr dims pt false = Ok l ->
  0 < l_scale l /\
  axes_width l = decades xr * l_scale l /\
  axes_height l * (match p with Differential => 2 | Hartmann | Chronology | Rate => decades yr / decades xr | _ => 1 end) = decades yr * l_scale l /\
  fst (l_page l) = axes_width l + 2 * (pt / 5) /\ snd (l_page l) = axes_height l + 2 * (pt / 5) /\
  l_norm l = ((pt / 5) / fst (l_page l), (pt / 5) / snd (l_page l), axes_width l / fst (l_page l), axes_height l / snd (l_page l)).
Proof.
  intros p xr yr dims pt l HP HD E. pose proof (decades_ge xr) as DX. pose proof (decades_ge yr) as DY. unfold plot_layout in E.
  set (dx := decades xr) in *. set (dy := decades yr) in *.
  set (aspect := match p with Differential => 2 | Hartmann | Chronology | Rate => dy / dx | _ => 1 end) in *.
  assert (AS : 0 < aspect) by (unfold aspect; destruct p; try lra; apply Rdiv_lt_0_compat; lra).
  set (sc := match dims with [] => _ | _ => _ end) in E. destruct sc as [scale|] eqn:SC; [|discriminate]. cbn [bind andb] in E.
  assert (S : 0 < scale).
  { unfold sc in SC. destruct dims as [|w r]; [discriminate|]. inversion HD as [|? ? W R]; subst. destruct r as [|h r].
    - injection SC as <-. pose proof (Rmax_r w 1). lra.
    - inversion R as [|? ? H R']; subst. destruct p, r; try discriminate; injection SC as <-;
        first [apply Rmin_glb_lt; apply Rdiv_lt_0_compat; try lra; [pose proof (Rmax_r w 1)|pose proof (Rmax_r (h * aspect) 1)]; lra|apply Rdiv_lt_0_compat; lra]. }
  injection E as <-. unfold axes_width, axes_height. cbn [l_axes l_page l_norm l_scale fst snd].
  split; [exact S|]. split; [field; lra|]. unfold aspect. assert (P4 : forall a b c d a' b' c' d' : R, a = a' -> b = b' -> c = c' -> d = d' -> (a, b, c, d) = (a', b', c', d')) by (intros; subst; reflexivity).
  assert (N0 : 0 < dx * scale) by (apply Rmult_lt_0_compat; lra). assert (N1 : 0 < dy * scale) by (apply Rmult_lt_0_compat; lra).
  destruct p; (split; [field; lra|]); (split; [field; lra|]); (split; [field; lra|]); apply P4; field; repeat split; lra.
Qed.
Print Assumptions C74_decade_length.

(** the axes fit in the box that was asked for and touch it in one direction *)
Theorem C74_fits : forall p xr yr w h pt l, 0 < pt -> 1 <= w -> 1 <= h -> p <> Hartmann ->
  1 <= h * (decades yr / decades xr) \/ ~ (p = Chronology \/ p = Rate) ->
  plot_layout p xr yr [w; h] pt false = Ok l ->
  axes_width l <= w /\ axes_height l <= h /\ (axes_width l = w \/ axes_height l = h).
Proof.
  intros p xr yr w h pt l HP HW HH NP OK E.
  assert (D : Forall (fun v => 0 < v) [w; h]) by (repeat constructor; lra).
  destruct (C74_decade_length p xr yr [w; h] pt l HP D E) as (S & W & H & _).
  pose proof (decades_ge xr) as DX. pose proof (decades_ge yr) as DY. unfold plot_layout in E.
  set (dx := decades xr) in *. set (dy := decades yr) in *.
  set (aspect := match p with Differential => 2 | Hartmann | Chronology | Rate => dy / dx | _ => 1 end) in *.
  assert (AS : 0 < aspect) by (unfold aspect; destruct p; try lra; apply Rdiv_lt_0_compat; lra).
  assert (HA : 1 <= h * aspect). { unfold aspect. destruct p; try lra; try (destruct OK as [OK|OK]; [exact OK|exfalso; apply OK; auto]). now destruct NP. }
  set (s0 := Rmin (Rmax w 1 / dx) (Rmax (h * aspect) 1 / dy)).
  assert (SC : l_scale l = s0). { unfold s0. destruct p; try easy; injection E as <-; reflexivity. }
  unfold s0 in SC. rewrite !Rmax_left in SC by lra.
  assert (HE : axes_height l = dy * l_scale l / aspect) by (apply (Rmult_eq_reg_r aspect); [rewrite H; field; lra|lra]).
  rewrite W, HE. clear E H W HE. rewrite SC. unfold Rmin. destruct (Rle_dec _ _) as [L|L].
  - split; [right; field; lra|]. split; [|left; field; lra].
    apply (Rmult_le_reg_r (aspect / dy)); [apply Rdiv_lt_0_compat; lra|]. replace (dy * (w / dx) / aspect * (aspect / dy)) with (w / dx) by (field; lra).
    replace (h * (aspect / dy)) with (h * aspect / dy) by (field; lra). exact L.
  - apply Rnot_le_lt in L. split; [|split; [right; field; lra|right; field; lra]].
    apply (Rmult_le_reg_r (/ dx)); [apply Rinv_0_lt_compat; lra|]. replace (dx * (h * aspect / dy) * / dx) with (h * aspect / dy) by (field; lra). unfold Rdiv in *. lra.
Qed.
Print Assumptions C74_fits.
(** a single dimension is the length of an x decade, at least 1 cm *)
Theorem C74_one_dimension : forall p xr yr d pt l, plot_layout p xr yr [d] pt false = Ok l -> l_scale l = Rmax d 1.
Proof. intros p xr yr d pt l E. injection E as <-. reflexivity. Qed.
Print Assumptions C74_one_dimension.
(** the height asked for a Hartmann plot is ignored *)
Theorem C74_Hartmann_refuted : exists xr yr w h pt l, 0 < pt /\ 1 <= w /\ 1 <= h /\
  plot_layout Hartmann xr yr [w; h] pt false = Ok l /\ h < axes_height l.
Proof.
  exists (-3, 2), (-4, 1), 8, 4, 9. assert (D : Forall (fun v => 0 < v) [8; 4]) by (repeat constructor; lra).
  destruct (plot_layout Hartmann (-3, 2) (-4, 1) [8; 4] 9 false) as [l|] eqn:E; [|discriminate].
  exists l. repeat split; try lra. assert (DD : decades (-3, 2) = 5 /\ decades (-4, 1) = 5).
  { split; rewrite decades_of; lra. }
  injection E as <-. unfold axes_height. cbn [l_axes snd]. destruct DD as [-> _]. lra.
Qed.
Print Assumptions C74_Hartmann_refuted.
(** with the setting randomness the y decades are no longer in proportion to the x decades *)
Theorem C74_randomness_refuted : exists xr yr w h pt l, 0 < pt /\ 1 <= w /\ 1 <= h /\
  plot_layout Cumulative xr yr [w; h] pt true = Ok l /\ axes_height l / decades yr <> axes_width l / decades xr.
Proof.
  exists (-3, 2), (-4, 1), 10, 10, 5. destruct (plot_layout Cumulative (-3, 2) (-4, 1) [10; 10] 5 true) as [l|] eqn:E; [|discriminate].
  exists l. repeat split; try lra. assert (DD : decades (-3, 2) = 5 /\ decades (-4, 1) = 5).
  { split; rewrite decades_of; lra. }
  injection E as <-. unfold axes_height, axes_width. cbn [l_axes snd fst is_time negb andb]. destruct DD as [-> ->]. rewrite !(Rmax_left _ 1), Rmin_left by lra. lra.
Qed.
Print Assumptions C74_randomness_refuted.
Example C74_hypotheses_met : exists l, plot_layout Differential (-3, 2) (-5, 5) [15 / 2; 15 / 2] 9 false = Ok l /\ axes_width l = 15 / 2 /\ axes_height l = 15 / 2.
Proof.
  destruct (plot_layout Differential (-3, 2) (-5, 5) [15 / 2; 15 / 2] 9 false) as [l|] eqn:E; [|discriminate]. exists l. split; [reflexivity|].
  assert (DD : decades (-3, 2) = 5 /\ decades (-5, 5) = 10).
  { split; rewrite decades_of; lra. }
  injection E as <-. unfold axes_height, axes_width. cbn [l_axes snd fst andb]. destruct DD as [-> ->]. rewrite !(Rmax_left _ 1), Rmin_left by lra. lra.
Qed.

(** * C75 *)
Lemma zrange_in a b e : In e (zrange a b) <-> (a <= e < b)%Z.
Proof.
  unfold zrange. rewrite in_map_iff. split.
  - intros (k & <- & K). apply in_seq in K. lia.
  - intros H. exists (Z.to_nat (e - a)). split; [lia|]. apply in_seq. lia.
Qed.
Lemma seq_sorted n : forall k a, StronglySorted Z.lt (map (fun i => a + Z.of_nat i)%Z (seq k n)).
Proof.
  induction n as [|n IH]; intros k a; cbn; constructor; [apply IH|]. apply Forall_forall. intros z H. apply in_map_iff in H as (i & <- & I). apply in_seq in I. lia.
Qed.
Lemma zrange_sorted a b : StronglySorted Z.lt (zrange a b).
Proof. apply seq_sorted. Qed.
Lemma ten_read e : py_float (fmt_g 6 (ten e)) = Ok (powerRZ 10 e).
Proof.
  destruct (read_g_spec 6 (ten e)) as [E S]. rewrite E. f_equal. apply (significant_exact 6 (ten e) _ 1 e); [lia|exact S|unfold ten; lra|reflexivity].
Qed.
(** the ticks are the whole powers of ten within the range, in order; each is labelled with a numeral and a unit that
    together are exactly the diameter of the tick, in km from 1 km on and in m below *)
Theorem C75_natural_ticks : forall x0 x1,
  (forall e, In e (map fst (natural_ticks (x0, x1))) <-> x0 <= IZR e <= x1) /\
  StronglySorted Z.lt (map fst (natural_ticks (x0, x1))) /\
  forall e s, In (e, s) (natural_ticks (x0, x1)) -> exists num v,
    py_float num = Ok v /\
    if Z.ltb e 0 then s = num ++ L "$\,$m" /\ v / 1000 = powerRZ 10 e else s = num ++ L "$\,$km" /\ v = powerRZ 10 e.
Proof.
  intros x0 x1. unfold natural_ticks. cbn [fst snd].
  rewrite !map_map. cbn [fst]. rewrite !map_id. split; [|split].
  - intros e. rewrite zrange_in. pose proof (Rceil_spec x0). pose proof (Rfloor_spec x1). split.
    + intros [A B]. apply IZR_le in A. assert (B' : (e <= Rfloor x1)%Z) by lia. apply IZR_le in B'. lra.
    + intros [A B]. assert (Rceil x0 - 1 < e)%Z by (apply lt_IZR; rewrite minus_IZR; lra). assert (e < Rfloor x1 + 1)%Z by (apply lt_IZR; rewrite plus_IZR; lra). lia.
  - apply zrange_sorted.
  - intros e s H. apply in_map_iff in H as (e' & H & _). injection H as -> <-. destruct (Z.ltb_spec e 0) as [N|N].
    + rewrite (proj2 (Z.leb_gt 0 e)) by lia. exists (fmt_g 6 (ten (e + 3))), (powerRZ 10 (e + 3)). split; [apply ten_read|]. split; [reflexivity|].
      rewrite powerRZ_add by lra. change (powerRZ 10 3) with (10 ^ 3). field.
    + rewrite (proj2 (Z.leb_le 0 e)) by lia. exists (fmt_g 6 (ten e)), (powerRZ 10 e). split; [apply ten_read|]. split; reflexivity.
Qed.
Print Assumptions C75_natural_ticks.
Example C75_hypotheses_met : map fst (natural_ticks (-5 / 2, 3 / 2)) = [-2; -1; 0; 1]%Z.
Proof.
  unfold natural_ticks. cbn [fst snd]. rewrite map_map. cbn [fst]. rewrite map_id.
  rewrite (Rceil_unique (-5 / 2) (-2)), (Rfloor_unique (3 / 2) 1) by lra. reflexivity.
Qed.
