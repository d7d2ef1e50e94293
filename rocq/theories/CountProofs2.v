(** Proofs for C09-C11. *)
From Coq Require Import String List ZArith Reals Lra Lia Bool.
From Verif Require Import Base NumModel NumLemmas BinModel BinSpec BinProofs ApplyProofs CountModel CountSpec CountProofs.
Import ListNotations.
Local Open Scope R_scope.

(** ** the bin range of a requested range *)
Lemma pow10_small : pow10 (1 / 1000) < 1.01 /\ pow10 (2 / 1000) < 1.01.
Proof.
  assert (H : pow10 (2 / 1000) < 1.01).
  { apply pow10_lt_of with 500%nat; [lra|lia|].
    replace (2 / 1000 * INR 500) with 1 by (rewrite INR_IZR_INZ; change (Z.of_nat 500) with 500%Z; lra).
    rewrite pow10_1. change 500%nat with (10 * (5 * 10))%nat. rewrite !pow_mult.
    assert (H1 : 1.1 < 1.01 ^ 10) by lra. assert (H2 : 1.6 < 1.1 ^ 5) by lra. assert (H3 : 10 < 1.6 ^ 10) by lra.
    apply Rlt_trans with (1.6 ^ 10); [assumption|]. apply Rpow_lt; [lra| |lia].
    apply Rlt_trans with (1.1 ^ 5); [assumption|]. apply Rpow_lt; [lra|assumption|lia]. }
  split; [|assumption]. apply Rle_lt_trans with (2 := H). apply pow10_le. lra.
Qed.

Lemma generate_bins_between b off z1 z2 : In b real_binnings -> (z1 < z2)%Z ->
  generate_bins b [grid b off z1; grid b off z2] off false = Ok (map (grid b off) (zrange z1 (z2 + 1))).
Proof.
  intros Hb Hz. destruct pow10_small as [S1 S2].
  pose proof (grid_pos b off z1 Hb) as P1. pose proof (grid_pos b off z2 Hb) as P2.
  pose proof (g_le (grid b off) (fun z => grid_step b off z Hb)) as GLE.
  pose proof (g_lt_inv (grid b off) (fun z => grid_step b off z Hb)) as GLTI.
  assert (GR : grid b off z1 * 1.01 < grid b off z2).
  { pose proof (grid_ratio b off z1 Hb). pose proof (GLE (z1 + 1)%Z z2 ltac:(lia)). lra. }
  assert (HM : bins_r10 [grid b off z1; grid b off z2] false
               = (log10 (grid b off z1) + 1 / 1000, log10 (grid b off z2) - 1 / 1000)).
  { unfold bins_r10. rewrite (list_min_unique _ _ (grid b off z1)), (list_max_unique _ _ (grid b off z2)); [reflexivity| | | |];
    try (cbn; tauto); intros y [<-|[<-|[]]]; lra. }
  assert (E0 : pow10 (log10 (grid b off z1) + 1 / 1000) = grid b off z1 * pow10 (1 / 1000))
    by (rewrite pow10_plus, pow10_log10 by assumption; reflexivity).
  assert (E1 : pow10 (log10 (grid b off z2) - 1 / 1000) * pow10 (1 / 1000) = grid b off z2).
  { rewrite <- pow10_plus. replace (log10 (grid b off z2) - 1 / 1000 + 1 / 1000) with (log10 (grid b off z2)) by ring.
    apply pow10_log10. assumption. }
  assert (S0 : 1 < pow10 (1 / 1000)) by (rewrite <- pow10_0 at 1; apply pow10_lt; lra).
  assert (Hle : log10 (grid b off z1) + 1 / 1000 <= log10 (grid b off z2) - 1 / 1000).
  { apply pow10_le_inv. rewrite E0. apply Rmult_le_reg_r with (pow10 (1 / 1000)); [lra|]. rewrite E1.
    rewrite Rmult_assoc, <- pow10_plus. replace (1 / 1000 + 1 / 1000) with (2 / 1000) by lra. nra. }
  destruct (generate_bins_grid_gen b _ off false _ _ Hb HM Hle) as (y0 & y1 & Hy & HG & A1 & A2 & A3 & A4).
  rewrite HG. rewrite E0 in A1, A2.
  set (w := pow10 (log10 (grid b off z2) - 1 / 1000)) in *.
  assert (Hw : w < grid b off z2 /\ grid b off z2 < w * 1.01) by (split; nra).
  pose proof (grid_ratio b off z1 Hb) as R1. pose proof (grid_ratio b off (z2 - 1) Hb) as R2.
  replace (z2 - 1 + 1)%Z with z2 in R2 by lia.
  assert (y0 < z1 + 1)%Z by (apply GLTI; nra).
  assert (z1 < y0 + 1)%Z by (apply GLTI; nra).
  assert (y1 - 1 < z2)%Z by (apply GLTI; lra).
  assert (z2 - 1 < y1)%Z by (apply GLTI; lra).
  replace y0 with z1 by lia. replace y1 with z2 by lia. reflexivity.
Qed.

Lemma requested_range_between bd b z1 z2 : In b real_binnings -> (z1 < z2)%Z ->
  requested_bin_range bd (Some b) (grid b 0 z1) (Fin (grid b 0 z2)) (Some 0%Z) = Ok (grid b 0 z1, grid b 0 z2).
Proof.
  intros Hb Hz. unfold requested_bin_range. pose proof (grid_pos b 0 z1 Hb) as P1.
  destruct (Reqb_spec (grid b 0 z1) 0) as [|_]; [lra|]. cbn [bind].
  rewrite generate_bins_between by assumption. cbn [bind].
  rewrite zrange_grid_points by lia. set (n := Z.to_nat (z2 - z1)).
  rewrite pyindex_nth by (rewrite grid_points_length; lia). cbn [bind].
  rewrite pyindex_last by (intros E; apply (f_equal (@length R)) in E; rewrite grid_points_length in E; discriminate).
  cbn [bind]. rewrite grid_points_nth by lia. rewrite grid_points_last. f_equal. f_equal; f_equal; lia.
Qed.

(** ** points *)
Lemma data_presentation_cases pres : In pres data_presentations ->
  pres = "cumulative"%string \/ pres = "incremental"%string \/ pres = "Hartmann"%string \/
  pres = "differential"%string \/ pres = "R-plot"%string.
Proof. cbn. intuition congruence. Qed.
Lemma data_presentation_member pres : In pres data_presentations -> existsb (String.eqb pres) data_presentations = true.
Proof. intros H. destruct (data_presentation_cases pres H) as [->|[->|[->|[->| ->]]]]; reflexivity. Qed.

Lemma mapM_map {A B} (f : A -> res B) (g : A -> B) l : (forall x, In x l -> f x = Ok (g x)) -> mapM f l = Ok (map g l).
Proof.
  induction l as [|x l IH]; intros H; [reflexivity|]. cbn. rewrite (H x) by (left; reflexivity). cbn.
  rewrite IH by (intros; apply H; right; assumption). reflexivity.
Qed.
Lemma mapM_length {A B} (f : A -> res B) l r : mapM f l = Ok r -> length r = length l.
Proof.
  revert r. induction l as [|x l IH]; intros r; cbn; [intros [= <-]; reflexivity|].
  destruct (f x); cbn; [|discriminate]. destruct (mapM f l); cbn; [|discriminate].
  intros [= <-]. cbn. f_equal. apply IH. reflexivity.
Qed.

Lemma bias_arguments lo hi : 0 < lo -> lo < hi ->
  (sqrt (hi * lo) / lo) ^ 2 = hi / lo /\ sqrt (hi * lo) * sqrt (hi / lo) = hi /\ sqrt (hi * lo) / sqrt (hi / lo) = lo.
Proof.
  intros H1 H2. assert (Hq : 0 < hi / lo) by (apply Rdiv_lt_0_compat; lra).
  assert (Hs : sqrt (hi * lo) * sqrt (hi * lo) = hi * lo) by (apply sqrt_sqrt; nra).
  assert (Hp : 0 < sqrt (hi / lo)) by (apply sqrt_lt_R0; assumption).
  assert (E2 : sqrt (hi * lo) * sqrt (hi / lo) = hi).
  { rewrite <- sqrt_mult by nra. replace (hi * lo * (hi / lo)) with (hi * hi) by (field; lra). apply sqrt_square; lra. }
  split; [|split; [exact E2|]].
  - replace ((sqrt (hi * lo) / lo) ^ 2) with (sqrt (hi * lo) * sqrt (hi * lo) / (lo * lo)) by (field; lra).
    rewrite Hs. field; lra.
  - apply Rmult_eq_reg_r with (sqrt (hi / lo)); [|lra].
    unfold Rdiv at 1. rewrite Rmult_assoc, Rinv_l, Rmult_1_r by lra.
    replace lo with (sqrt (lo * lo)) at 2 by (apply sqrt_square; lra).
    rewrite <- sqrt_mult by nra. f_equal. field; lra.
Qed.

Section Points.
  Variables (craters : list (R * R)) (b : string) (off : R) (bd : binned) (ri : option (list nat)).
  Hypothesis Hb : In b real_binnings.
  Hypothesis Hne : craters <> [].
  Hypothesis Hpos : Forall (fun c => 0 < fst c) craters.
  Hypothesis HA : apply_binning craters b off = Ok (bd, ri).

  Lemma bin_values i : (i < length (b_dmin bd))%nat ->
    exists lo hi, nth i (b_dmin bd) 0 = lo /\ nth i (b_dmax bd) 0 = hi /\ 0 < lo /\ lo < hi /\
      nth i (b_width bd) 0 = hi - lo /\ nth i (b_dmean bd) 0 = sqrt (hi * lo) /\
      nth i (b_n bd) 0 = fraction_between lo hi craters /\
      nth i (b_nevent bd) 0 = INR (number_between lo hi craters) /\
      nth i (b_ncum bd) 0 = fraction_from lo craters /\
      nth i (b_ncum_event bd) 0 = INR (number_from lo craters).
  Proof.
    intros Hi. pose proof (apply_binning_good _ _ _ _ _ Hb Hne Hpos HA) as G.
    destruct (apply_binning_spec craters b off Hb Hne Hpos)
      as (z0 & n & bd' & ri' & HA' & HG & Hmin & Hmax & Hcov & Hw & Hm & Hn & He & Hc & Hce & Hri).
    rewrite HA in HA'. injection HA' as <- _.
    rewrite Hmin, grid_points_length in Hi.
    exists (grid b off (z0 + Z.of_nat i)), (grid b off (z0 + Z.of_nat i + 1)).
    rewrite Hmin, Hmax, Hw, Hm, Hn, He, Hc, Hce.
    rewrite !nth_map_seq, !grid_points_nth by assumption.
    pose proof (grid_pos b off (z0 + Z.of_nat i) Hb). pose proof (grid_step b off (z0 + Z.of_nat i) Hb).
    replace (z0 + 1 + Z.of_nat i)%Z with (z0 + Z.of_nat i + 1)%Z by lia.
    repeat split; try assumption; reflexivity.
  Qed.

  Lemma plot_point_expected area pf pres i : area <> 0 -> In pres data_presentations -> (i < length (b_dmin bd))%nat ->
    plot_point bd area 0 pf pres i
    = Ok (expected_point pres (pf_slope pf) craters area (nth i (b_dmin bd) 0) (nth i (b_dmax bd) 0)).
  Proof.
    intros Ha Hp Hi. destruct (bin_values i Hi) as (lo & hi & El & Eh & H1 & H2 & Ew & Em & En & Ee & Ec & Ece).
    unfold plot_point, expected_point.
    destruct (bias_arguments lo hi H1 H2) as (B1 & B2 & B3).
    assert (Hsw : sqrt (lo * hi) = sqrt (hi * lo)) by (f_equal; ring).
    destruct (data_presentation_cases pres Hp) as [->|[->|[->|[->| ->]]]]; cbn [String.eqb Ascii.eqb Bool.eqb];
    rewrite ?El, ?Eh, ?Ew, ?Em, ?En, ?Ee, ?Ec, ?Ece, ?Hsw, ?Rplus_0_r, ?B1, ?B2, ?B3; try reflexivity.
    - f_equal. f_equal; [|f_equal]; field; split; lra.
    - assert (E : pf_slope pf lo hi = match pf with
                 | Some p => log10 (pf_C p hi / pf_C p lo) / log10 (hi / lo) | None => -3 end) by reflexivity.
      rewrite <- E.
      assert (E2 : fraction_between lo hi craters / (hi - lo) / area = fraction_between lo hi craters / (area * (hi - lo)))
        by (field; split; lra).
      rewrite E2. reflexivity.
    - f_equal. f_equal; [|f_equal]; field; split; lra.
  Qed.

  Lemma where_pos_edges : map (fun i => (nth i (b_dmin bd) 0, nth i (b_dmax bd) 0)) (where_pos (b_n bd))
    = populated_bins craters (b_dmin bd) (b_dmax bd).
  Proof.
    pose proof (apply_binning_good _ _ _ _ _ Hb Hne Hpos HA) as G.
    pose proof (gb_len1 bd G) as L1. pose proof (gb_len3 bd G) as L3.
    assert (V : forall i, (i < length (b_dmin bd))%nat -> nth i (b_n bd) 0
                = fraction_between (nth i (b_dmin bd) 0) (nth i (b_dmax bd) 0) craters).
    { intros i Hi. destruct (bin_values i Hi) as (lo & hi & -> & -> & _ & _ & _ & _ & -> & _). reflexivity. }
    revert L1 L3 V. unfold populated_bins, where_pos.
    generalize (b_dmin bd) (b_dmax bd) (b_n bd). clear. intros dmin.
    enough (H : forall s dmax n, length dmax = length dmin -> length n = length dmin ->
      (forall i, (i < length dmin)%nat -> nth i n 0 = fraction_between (nth i dmin 0) (nth i dmax 0) craters) ->
      map (fun i => (nth (i - s) dmin 0, nth (i - s) dmax 0)) (where_pos_from s n)
      = filter (fun e => if Rlt_dec 0 (fraction_between (fst e) (snd e) craters) then true else false) (combine dmin dmax)).
    { intros dmax n L1 L3 V. rewrite <- (H 0%nat dmax n L1 L3 V). apply map_ext. intros. rewrite Nat.sub_0_r. reflexivity. }
    induction dmin as [|x dmin IH]; intros s [|y dmax] [|z n] L1 L3 V; try discriminate; [reflexivity|].
    cbn [combine filter fst snd where_pos_from]. pose proof (V O ltac:(cbn; lia)) as V0. cbn [nth] in V0.
    injection L1 as L1. injection L3 as L3.
    assert (V' : forall i, (i < length dmin)%nat -> nth i n 0 = fraction_between (nth i dmin 0) (nth i dmax 0) craters).
    { intros i Hi. apply (V (S i)). cbn; lia. }
    specialize (IH (S s) dmax n L1 L3 V').
    assert (E : map (fun i => (nth (i - s) (x :: dmin) 0, nth (i - s) (y :: dmax) 0)) (where_pos_from (S s) n)
      = map (fun i => (nth (i - S s) dmin 0, nth (i - S s) dmax 0)) (where_pos_from (S s) n)).
    { apply map_ext_in. intros i Hi. apply where_pos_from_In in Hi.
      replace (i - s)%nat with (S (i - S s)) by lia. reflexivity. }
    rewrite <- V0. unfold Rltb. destruct (Rlt_dec 0 z).
    - rewrite map_cons, E, IH, Nat.sub_diag. reflexivity.
    - rewrite E, IH. reflexivity.
  Qed.

  Lemma points_expected area pf pres : area <> 0 -> In pres data_presentations ->
    mapM (plot_point bd area 0 pf pres) (where_pos (b_n bd))
    = Ok (map (fun e => expected_point pres (pf_slope pf) craters area (fst e) (snd e))
            (populated_bins craters (b_dmin bd) (b_dmax bd))).
  Proof.
    intros Ha Hp. pose proof (apply_binning_good _ _ _ _ _ Hb Hne Hpos HA) as G.
    rewrite <- where_pos_edges, map_map. cbn [fst snd]. apply mapM_map.
    intros i Hi. apply plot_point_expected; [assumption|assumption|].
    apply where_pos_In in Hi. rewrite (gb_len3 bd G) in Hi. apply Hi.
  Qed.

  Lemma where_pos_nonempty : Forall (fun c => 0 < snd c) craters -> where_pos (b_n bd) <> [].
  Proof.
    intros Hfr E. pose proof (apply_binning_good _ _ _ _ _ Hb Hne Hpos HA) as G.
    destruct (binning_conserves craters b off bd ri Hb Hne Hpos HA) as (L1 & _ & _ & _ & S1 & _).
    assert (Z : Rsum (b_n bd) = 0).
    { apply Rsum_zero. apply Forall_forall. intros x Hx. apply In_nth with (d := 0) in Hx. destruct Hx as (i & Hi & <-).
      destruct (Rtotal_order (nth i (b_n bd) 0) 0) as [H|[H|H]]; [|assumption|].
      - rewrite L1 in Hi. destruct (bin_values i Hi) as (lo & hi & _ & _ & _ & _ & _ & _ & -> & _).
        pose proof (fraction_between_nonneg lo hi craters Hfr). 
        destruct (bin_values i Hi) as (lo' & hi' & A1 & A2 & _ & _ & _ & _ & A3 & _). rewrite A3 in H.
        pose proof (fraction_between_nonneg lo' hi' craters Hfr). lra.
      - exfalso. assert (In i (where_pos (b_n bd))) by (apply where_pos_In; split; assumption). rewrite E in H0. destruct H0. }
    rewrite S1 in Z. destruct craters as [|[d f] cs]; [congruence|].
    inversion Hfr as [|? ? Hf Hcs]; subst. cbn [total_fraction snd] in *.
    assert (0 <= total_fraction cs).
    { clear -Hcs. induction Hcs as [|[d f] cs Hf _ IH]; cbn [total_fraction snd] in *; lra. }
    lra.
  Qed.
End Points.

Lemma getplotdata_unfold craters area pres b range sa pf bd ri :
  apply_binning craters b 0 = Ok (bd, ri) ->
  fst (getplotdata (fresh craters area) pres b range (Some 0%Z) sa pf)
  = plotdata_of bd area (Some b) pres 0 range (Some 0%Z) sa pf.
Proof.
  intros HA. unfold getplotdata, ensure_binning, fresh, do_apply. cbn [cc_prebinned cc_binning cc_craters].
  rewrite HA. reflexivity.
Qed.

(** ** C10 *)
Theorem plotted_points craters area b pres pf sa :
  In b real_binnings -> craters <> [] -> Forall (fun c => 0 < fst c) craters -> Forall (fun c => 0 < snd c) craters ->
  area <> 0 -> In pres data_presentations ->
  exists bd ri pd, apply_binning craters b 0 = Ok (bd, ri) /\
    fst (getplotdata (fresh craters area) pres b None (Some 0%Z) sa pf) = Ok pd /\
    pd_points pd = map (fun e => expected_point pres (pf_slope pf) craters area (fst e) (snd e))
                     (populated_bins craters (b_dmin bd) (b_dmax bd)).
Proof.
  intros Hb Hne Hpos Hfr Ha Hp.
  destruct (apply_binning_spec craters b 0 Hb Hne Hpos) as (z0 & n & bd & ri & HA & _).
  exists bd, (Some ri). rewrite (getplotdata_unfold _ _ _ _ _ _ _ _ _ HA). unfold plotdata_of.
  pose proof (where_pos_nonempty _ _ _ _ _ Hb Hne Hpos HA Hfr) as Hq.
  rewrite (points_expected _ _ _ _ _ Hb Hne Hpos HA) by assumption.
  rewrite data_presentation_member by assumption. cbn [negb].
  assert (L : (0 < length (where_pos (b_n bd)))%nat) by (destruct (where_pos (b_n bd)); [congruence|cbn; lia]).
  assert (P : forall i, (0 <= i < Z.of_nat (length (where_pos (b_n bd))))%Z \/ i = (-1)%Z -> exists x, pyindex (where_pos (b_n bd)) i = Ok x).
  { intros i Hi. unfold pyindex. set (j := (if Z.ltb i 0 then _ else _)).
    assert (Hj : (0 <= j < Z.of_nat (length (where_pos (b_n bd))))%Z) by (unfold j; destruct (Z.ltb_spec i 0); lia).
    destruct (Z.ltb_spec j 0); [lia|]. destruct (nth_error (where_pos (b_n bd)) (Z.to_nat j)) eqn:E; [eexists; reflexivity|].
    apply nth_error_None in E. lia. }
  destruct (P 0%Z ltac:(lia)) as [x ->]. destruct (P (-1)%Z ltac:(lia)) as [y ->]. cbn [bind].
  eexists. split; [exact HA|]. split; [reflexivity|]. reflexivity.
Qed.

(** every plotted value and error scales as 1/area *)
Lemma expected_area pres slope craters area c lo hi : area <> 0 -> c <> 0 ->
  let p := expected_point pres slope craters area lo hi in
  let p' := expected_point pres slope craters (area * c) lo hi in
  pt_d p' = pt_d p /\ pt_y p' = pt_y p / c /\ pt_err p' = pt_err p / c.
Proof.
  intros Ha Hc. unfold expected_point.
  assert (E1 : forall x, x / (area * c) = x / area / c) by (intros; field; split; assumption).
  assert (E2 : forall x w, x / (area * c * w) = x / (area * w) / c).
  { intros. unfold Rdiv. replace (area * c * w) with (area * w * c) by ring.
    destruct (Req_dec w 0) as [->|Hw]; [|field; repeat split; assumption].
    rewrite Rmult_0_r, Rmult_0_l, Rinv_0. ring. }
  destruct (String.eqb pres "cumulative"); [|destruct (String.eqb pres "incremental");
    [|destruct (String.eqb pres "Hartmann"); [|destruct (String.eqb pres "differential")]]]; cbn [pt_d pt_y pt_err].
  all: rewrite ?E1, ?E2; unfold Rdiv; repeat split; ring.
Qed.

(** relative error of a point *)
Lemma expected_relative_error pres slope craters area lo hi :
  In pres data_presentations -> pres <> "differential"%string ->
  let p := expected_point pres slope craters area lo hi in
  pt_err p = pt_y p / sqrt (INR (if String.eqb pres "cumulative" then number_from lo craters else number_between lo hi craters)).
Proof.
  intros Hp Hd. unfold expected_point.
  destruct (data_presentation_cases pres Hp) as [->|[->|[->|[->| ->]]]]; try reflexivity. congruence.
Qed.

(** ** C09 *)
Theorem fit_counts craters area b pres pf bd ri lo hi :
  In b real_binnings -> craters <> [] -> Forall (fun c => 0 < fst c) craters -> Forall (fun c => 0 < snd c) craters ->
  area <> 0 -> In pres data_presentations ->
  apply_binning craters b 0 = Ok (bd, ri) -> In lo (b_dmin bd) -> In hi (b_dmax bd) -> lo < hi ->
  exists pd, fst (getplotdata (fresh craters area) pres b (Some (lo, Fin hi)) (Some 0%Z) false pf) = Ok pd /\
    pd_n pd = fraction_between lo hi craters /\ pd_nevent pd = INR (number_between lo hi craters) /\
    pd_bin_range pd = (lo, hi).
Proof.
  intros Hb Hne Hpos Hfr Ha Hp HA Hlo Hhi Hlt.
  rewrite (getplotdata_unfold _ _ _ _ _ _ _ _ _ HA). unfold plotdata_of.
  rewrite data_presentation_member by assumption. cbn [negb].
  pose proof (apply_binning_good _ _ _ _ _ Hb Hne Hpos HA) as G.
  pose proof (gb_len1 bd G) as L1. pose proof (gb_len3 bd G) as L3.
  apply In_nth with (d := 0) in Hlo. destruct Hlo as (i & Hi & <-).
  apply In_nth with (d := 0) in Hhi. destruct Hhi as (j & Hj & <-). rewrite L1 in Hj.
  assert (Hij : (i <= j)%nat).
  { destruct (Nat.le_gt_cases i j); [assumption|]. pose proof (hi_lo bd G j i ltac:(lia)). lra. }
  set (q1 := select_range _ _ _ _).
  destruct (mapM (plot_point bd area 0 pf pres) q1) as [pts|e] eqn:EP.
  2:{ exfalso. rewrite (mapM_map _ (fun i => expected_point pres (pf_slope pf) craters area (nth i (b_dmin bd) 0) (nth i (b_dmax bd) 0))) in EP; [discriminate|].
      intros k Hk. apply plot_point_expected with (b := b) (off := 0) (ri := ri); try assumption.
      unfold q1, select_range in Hk. apply filter_In in Hk. destruct Hk as [Hk _]. apply where_pos_In in Hk. lia. }
  cbn [bind].
  destruct (apply_binning_spec craters b 0 Hb Hne Hpos)
      as (z0 & n & bd' & ri' & HA' & HG & Hmin & Hmax & _).
  rewrite HA in HA'. injection HA' as <- _.
  assert (Hm : length (b_dmin bd) = S n) by (rewrite Hmin; apply grid_points_length).
  assert (Ei : nth i (b_dmin bd) 0 = grid b 0 (z0 + Z.of_nat i)) by (rewrite Hmin; apply grid_points_nth; lia).
  assert (Ej : nth j (b_dmax bd) 0 = grid b 0 (z0 + 1 + Z.of_nat j)) by (rewrite Hmax; apply grid_points_nth; lia).
  rewrite Ei, Ej. rewrite requested_range_between by (assumption || lia). cbn [bind].
  eexists. split; [reflexivity|]. cbn [pd_n pd_nevent pd_bin_range].
  destruct (selected_counts craters b 0 bd ri Hb Hne Hpos Hfr HA i j ltac:(lia)) as [S1 S2].
  rewrite <- Ei, <- Ej. split; [exact S1|]. split; [exact S2|]. reflexivity.
Qed.

(** ** C11 *)
Definition shx (x : R) : R := sinh x / x.

Lemma sinh_odd x : sinh (- x) = - sinh x.
Proof. unfold sinh. rewrite Ropp_involutive. field. Qed.
Lemma sinh_pos x : 0 < x -> 0 < sinh x.
Proof. intros. unfold sinh. pose proof (exp_increasing (- x) x ltac:(lra)). lra. Qed.

Lemma xcosh_sinh x : 0 < x -> sinh x < x * cosh x.
Proof.
  intros Hx.
  destruct (MVT_cor2 (fun y => y * cosh y - sinh y) (fun y => y * sinh y) 0 x Hx) as (c & E & Hc).
  - intros c _. replace (c * sinh c) with ((1 * cosh c + c * sinh c) - cosh c) by ring.
    apply (derivable_pt_lim_minus (fun y => y * cosh y) sinh).
    + apply (derivable_pt_lim_mult (fun y => y) cosh); [apply derivable_pt_lim_id|apply derivable_pt_lim_cosh].
    + apply derivable_pt_lim_sinh.
  - rewrite sinh_0 in E. pose proof (sinh_pos c ltac:(lra)).
    assert (0 < c * sinh c * (x - 0)) by (apply Rmult_lt_0_compat; [apply Rmult_lt_0_compat|]; lra). lra.
Qed.
Lemma shx_increasing x y : 0 < x -> x < y -> shx x < shx y.
Proof.
  intros Hx Hy.
  destruct (MVT_cor2 shx (fun c => (cosh c * c - 1 * sinh c) / c²) x y Hy) as (c & E & Hc).
  - intros c Hc. apply (derivable_pt_lim_div sinh (fun y => y)); [apply derivable_pt_lim_sinh|apply derivable_pt_lim_id|lra].
  - pose proof (xcosh_sinh c ltac:(lra)).
    assert (0 < (cosh c * c - 1 * sinh c) / c²) by (apply Rdiv_lt_0_compat; [lra|apply Rlt_0_sqr; lra]). nra.
Qed.

(** the correction in terms of sinh, with L = ln(beta)/2 *)
Lemma bias_sinh beta k : 1 < beta -> 1 / 100000 <= Rabs k ->
  bin_bias_correction beta k = sinh (k * (ln beta / 2)) / (k * sinh (ln beta / 2)).
Proof.
  intros Hb Hk. unfold bin_bias_correction. rewrite Rltb_false by assumption.
  assert (Hk0 : k <> 0) by (intros ->; rewrite Rabs_R0 in Hk; lra).
  assert (Hl : 0 < ln beta) by (rewrite <- ln_1; apply ln_increasing; lra).
  assert (S1 : sqrt beta = exp (ln beta / 2)).
  { rewrite <- (Rpower_sqrt beta) by lra. unfold Rpower. f_equal. lra. }
  assert (S2 : 1 / sqrt beta = exp (- (ln beta / 2))).
  { rewrite S1, exp_Ropp. unfold Rdiv. ring. }
  rewrite S2, S1. unfold Rpower, sinh.
  replace (k / 2 * ln beta) with (k * (ln beta / 2)) by field.
  replace (- k / 2 * ln beta) with (- (k * (ln beta / 2))) by field.
  set (L := ln beta / 2). assert (HL : 0 < L) by (unfold L; lra).
  pose proof (exp_increasing (- L) L ltac:(lra)). field. repeat split; (assumption || lra).
Qed.
Lemma bias_shx beta k : 1 < beta -> 1 / 100000 <= k ->
  bin_bias_correction beta k = shx (k * (ln beta / 2)) / shx (ln beta / 2).
Proof.
  intros Hb Hk. rewrite bias_sinh by (try assumption; rewrite Rabs_pos_eq; lra).
  assert (Hl : 0 < ln beta) by (rewrite <- ln_1; apply ln_increasing; lra).
  pose proof (sinh_pos (ln beta / 2) ltac:(lra)). unfold shx. field. lra.
Qed.
Theorem bias_even beta k : bin_bias_correction beta (- k) = bin_bias_correction beta k.
Proof.
  unfold bin_bias_correction. rewrite Rabs_Ropp. destruct (Rltb_spec (Rabs k) (1 / 100000)) as [|H]; [reflexivity|].
  assert (k <> 0) by (intros ->; rewrite Rabs_R0 in H; lra).
  replace (- - k / 2) with (k / 2) by field. unfold Rdiv. rewrite Rinv_mult, Rinv_mult, Rinv_opp. ring.
Qed.
Lemma bias_pos_order beta k : 1 < beta -> 1 / 100000 <= k ->
  (k < 1 -> bin_bias_correction beta k < 1) /\ (k = 1 -> bin_bias_correction beta k = 1) /\
  (1 < k -> 1 < bin_bias_correction beta k).
Proof.
  intros Hb Hk. rewrite bias_shx by assumption.
  assert (Hl : 0 < ln beta) by (rewrite <- ln_1; apply ln_increasing; lra).
  set (L := ln beta / 2). assert (HL : 0 < L) by (unfold L; lra).
  assert (HS : 0 < shx L) by (unfold shx; apply Rdiv_lt_0_compat; [apply sinh_pos|]; lra).
  assert (C : forall x, (x < shx L -> x / shx L < 1) /\ (shx L < x -> 1 < x / shx L)).
  { intros x. split; intros; apply Rmult_lt_reg_r with (shx L); try assumption;
    unfold Rdiv; rewrite Rmult_assoc, Rinv_l by lra; lra. }
  split; [|split].
  - intros. apply C. apply shx_increasing; nra.
  - intros ->. rewrite Rmult_1_l. field. lra.
  - intros. apply C. apply shx_increasing; nra.
Qed.
Theorem bias_order beta k : 1 < beta -> 1 / 100000 <= Rabs k ->
  (Rabs k < 1 -> bin_bias_correction beta k < 1) /\ (Rabs k = 1 -> bin_bias_correction beta k = 1) /\
  (1 < Rabs k -> 1 < bin_bias_correction beta k).
Proof.
  intros Hb Hk. replace (bin_bias_correction beta k) with (bin_bias_correction beta (Rabs k)).
  - apply bias_pos_order; assumption.
  - unfold Rabs. destruct (Rcase_abs k); [apply bias_even|reflexivity].
Qed.
Theorem bias_gap beta : 1 < beta -> exists gap, 0 < gap /\
  (forall k, Rabs k < 1 / 100000 -> bin_bias_correction beta k = 1) /\
  (forall k, 1 / 100000 <= Rabs k <= 1 / 2 -> bin_bias_correction beta k <= 1 - gap).
Proof.
  intros Hb. pose proof (bias_pos_order beta (1/2) Hb ltac:(lra)) as (H1 & _). specialize (H1 ltac:(lra)).
  exists (1 - bin_bias_correction beta (1 / 2)). split; [lra|]. split.
  - intros k Hk. unfold bin_bias_correction. rewrite Rltb_true by assumption. reflexivity.
  - intros k [Hk1 Hk2]. replace (bin_bias_correction beta k) with (bin_bias_correction beta (Rabs k)).
    2:{ unfold Rabs. destruct (Rcase_abs k); [apply bias_even|reflexivity]. }
    assert (Hl : 0 < ln beta) by (rewrite <- ln_1; apply ln_increasing; lra).
    set (L := ln beta / 2). assert (HL : 0 < L) by (unfold L; lra).
    assert (HS : 0 < shx L) by (unfold shx; apply Rdiv_lt_0_compat; [apply sinh_pos|]; lra).
    rewrite !bias_shx by lra. fold L. destruct (Req_dec (Rabs k) (1/2)) as [->|Hn]; [lra|].
    assert (shx (Rabs k * L) < shx (1 / 2 * L)) by (apply shx_increasing; nra).
    assert (shx (Rabs k * L) / shx L < shx (1 / 2 * L) / shx L).
    { apply Rmult_lt_compat_r; [apply Rinv_0_lt_compat; assumption|assumption]. }
    lra.
Qed.

(** exactness for power laws *)
Lemma Rpower_pos x y : 0 < Rpower x y.
Proof. apply exp_pos. Qed.
Theorem bias_exact c k lo hi :
  0 < lo -> lo < hi -> 1 / 100000 <= Rabs k ->
  let N D := c * Rpower D k in
  let D := sqrt (lo * hi) in
  let F := (N lo - N hi) / (hi - lo) / bin_bias_correction (hi / lo) k in
  derivable_pt_lim (fun x => - N x) D F.
Proof.
  intros H1 H2 Hk N D F.
  assert (Hk0 : k <> 0) by (intros ->; rewrite Rabs_R0 in Hk; lra).
  assert (HD : 0 < D) by (apply sqrt_lt_R0; nra).
  assert (EF : F = - (c * (k * Rpower D (k - 1)))).
  { unfold F, N. rewrite bias_sinh; [|apply Rmult_lt_reg_r with lo; [assumption|]; unfold Rdiv; rewrite Rmult_assoc, Rinv_l; lra|assumption].
    assert (Hln : ln (hi / lo) = ln hi - ln lo) by (unfold Rdiv; rewrite ln_mult, ln_Rinv; try lra; apply Rinv_0_lt_compat; lra).
    assert (HlD : ln D = (ln lo + ln hi) / 2).
    { unfold D. rewrite <- ln_mult by lra. rewrite <- (Rpower_sqrt (lo * hi)) by nra. unfold Rpower. rewrite ln_exp. field. }
    set (M := (ln lo + ln hi) / 2) in *. set (L := ln (hi / lo) / 2).
    assert (El : ln lo = M - L) by (unfold M, L; lra). assert (Eh : ln hi = M + L) by (unfold M, L; lra).
    assert (HL : 0 < L) by (pose proof (ln_increasing lo hi H1 H2); lra).
    unfold Rpower. rewrite HlD, El, Eh.
    replace hi with (exp (M + L)) by (rewrite <- Eh; apply exp_ln; lra).
    replace lo with (exp (M - L)) by (rewrite <- El; apply exp_ln; lra).
    replace (k * (M - L)) with (k * M + - (k * L)) by ring. replace (k * (M + L)) with (k * M + k * L) by ring.
    replace ((k - 1) * M) with (k * M + - M) by ring. replace (M - L) with (M + - L) by ring.
    rewrite !exp_plus, (exp_Ropp M). unfold sinh.
    pose proof (exp_pos M). pose proof (exp_increasing (- L) L ltac:(lra)).
    assert (exp (k * L) <> exp (- (k * L))) by (intros E; apply exp_inv in E; assert (k * L = 0) by lra;
      apply Rmult_integral in H3; lra).
    field. repeat split; try lra. nra. }
  rewrite EF. apply derivable_pt_lim_opp. apply derivable_pt_lim_scal.
  apply derivable_pt_lim_power. assumption.
Qed.

(** the slope found from a power-law production function is its exponent *)
Lemma pf_slope_power p c k lo hi : 0 < c -> 0 < lo -> lo < hi -> (forall D, 0 < D -> pf_C p D = c * Rpower D k) ->
  pf_slope (Some p) lo hi = k.
Proof.
  intros Hc H1 H2 Hp. unfold pf_slope. rewrite !Hp by lra.
  replace (c * Rpower hi k / (c * Rpower lo k)) with (Rpower hi k / Rpower lo k)
    by (field; split; [apply Rgt_not_eq; apply Rpower_pos|lra]).
  rewrite (log10_div (Rpower hi k)) by apply Rpower_pos. rewrite log10_div by lra. unfold log10, Rpower. rewrite !ln_exp.
  pose proof (ln_increasing lo hi H1 H2). pose proof ln10_pos. field. split; lra.
Qed.

(** ** refutations *)
(** C06: the cache does not remember the bin offset *)
Lemma x2_grid off z : grid "x2" off z = Rpower 2 (IZR z - off).
Proof. reflexivity. Qed.
Lemma x2_point_d off lo hi bd ri pf area e :
  apply_binning [(1.2, 1)] "x2" off = Ok (bd, ri) ->
  In e (populated_bins [(1.2, 1)] (b_dmin bd) (b_dmax bd)) ->
  lo = fst e -> hi = snd e ->
  exists z, pt_d (expected_point "incremental" (pf_slope pf) [(1.2, 1)] area lo hi) = Rpower 2 (IZR z - off + 1 / 2).
Proof.
  intros HA He -> ->.
  assert (Hb : In "x2"%string real_binnings) by (cbn; tauto).
  destruct (apply_binning_spec [(1.2, 1)] "x2" off Hb ltac:(discriminate)) as (z0 & n & bd' & ri' & HA' & _ & Hmin & Hmax & _).
  { repeat constructor; cbn; lra. }
  rewrite HA in HA'. injection HA' as <- _.
  unfold populated_bins in He. apply filter_In in He. destruct He as [He _].
  rewrite Hmin, Hmax in He.
  apply In_nth with (d := (0, 0)) in He. destruct He as (i & Hi & <-).
  rewrite combine_length, !grid_points_length in Hi.
  rewrite combine_nth by (rewrite !grid_points_length; reflexivity).
  rewrite !grid_points_nth by lia. cbn [fst snd].
  exists (z0 + Z.of_nat i)%Z. unfold expected_point. cbn [String.eqb Ascii.eqb Bool.eqb pt_d].
  rewrite !x2_grid. replace (z0 + 1 + Z.of_nat i)%Z with (z0 + Z.of_nat i + 1)%Z by lia.
  rewrite (plus_IZR (z0 + Z.of_nat i) 1). set (t := IZR (z0 + Z.of_nat i)). unfold Rpower. rewrite <- exp_plus.
  replace ((t - off) * ln 2 + (t + 1 - off) * ln 2) with ((t - off + 1/2) * ln 2 + (t - off + 1/2) * ln 2) by field.
  rewrite exp_plus. apply sqrt_square. left. apply exp_pos.
Qed.

Theorem history_offset_matters :
  exists craters area h pres b pd pd',
    craters <> [] /\ Forall (fun c => 0 < fst c) craters /\ In b real_binnings /\ In pres data_presentations /\
    fst (getplotdata (after_calls (fresh craters area) h) pres b None (Some 0%Z) false None) = Ok pd /\
    fst (getplotdata (fresh craters area) pres b None (Some 0%Z) false None) = Ok pd' /\
    map pt_d (pd_points pd) <> map pt_d (pd_points pd').
Proof.
  exists [(1.2, 1)], 1, [CApply "x2" (1 / 2)], "incremental"%string, "x2"%string.
  assert (Hb : In "x2"%string real_binnings) by (cbn; tauto).
  assert (Hp : Forall (fun c : R * R => 0 < fst c) [(1.2, 1)]) by (repeat constructor; cbn; lra).
  assert (Hf : Forall (fun c : R * R => 0 < snd c) [(1.2, 1)]) by (repeat constructor; cbn; lra).
  assert (Hne : [(1.2, 1)] <> @nil (R * R)) by discriminate.
  assert (Hpr : In "incremental"%string data_presentations) by (cbn; tauto).
  destruct (plotted_points _ 1 _ "incremental" None false Hb Hne Hp Hf ltac:(lra) Hpr) as (bd & ri & pd & HA & HG & HP).
  destruct (apply_binning_spec [(1.2, 1)] "x2" (1 / 2) Hb Hne Hp) as (z0 & n & bd1 & ri1 & HA1 & _).
  pose proof (points_expected _ _ _ _ _ Hb Hne Hp HA1 1 None "incremental" ltac:(lra) Hpr) as HP1.
  pose proof (where_pos_nonempty _ _ _ _ _ Hb Hne Hp HA1 Hf) as HW1.
  pose proof (where_pos_nonempty _ _ _ _ _ Hb Hne Hp HA Hf) as HW.
  pose proof (where_pos_edges _ _ _ _ _ Hb Hne Hp HA1) as HE1.
  pose proof (where_pos_edges _ _ _ _ _ Hb Hne Hp HA) as HE.
  assert (G1 : fst (getplotdata (after_calls (fresh [(1.2, 1)] 1) [CApply "x2" (1 / 2)]) "incremental" "x2" None (Some 0%Z) false None)
       = plotdata_of bd1 1 (Some "x2"%string) "incremental" 0 None (Some 0%Z) false None).
  { cbn [after_calls fold_left after_call]. unfold do_apply, fresh. cbn [cc_craters]. rewrite HA1. cbn [snd].
    unfold getplotdata, ensure_binning. cbn [cc_prebinned cc_binning]. rewrite String.eqb_refl. reflexivity. }
  assert (G2 : exists pd1, plotdata_of bd1 1 (Some "x2"%string) "incremental" 0 None (Some 0%Z) false None = Ok pd1 /\
     pd_points pd1 = map (fun e => expected_point "incremental" (pf_slope None) [(1.2, 1)] 1 (fst e) (snd e))
            (populated_bins [(1.2, 1)] (b_dmin bd1) (b_dmax bd1))).
  { unfold plotdata_of. rewrite HP1. destruct (where_pos (b_n bd1)) as [|w ws] eqn:EW; [congruence|].
    destruct (pyindex (w :: ws) (-1)) as [y|e] eqn:Ey.
    - cbn. eexists. split; reflexivity.
    - exfalso. unfold pyindex in Ey. replace (Z.ltb (-1) 0) with true in Ey by reflexivity.
      destruct (Z.ltb_spec (-1 + Z.of_nat (length (w :: ws))) 0); [cbn [length] in *; lia|].
      destruct (nth_error (w :: ws) (Z.to_nat (-1 + Z.of_nat (length (w :: ws))))) eqn:En; [discriminate|].
      apply nth_error_None in En. cbn [length] in *. lia. }
  destruct G2 as (pd1 & G2 & P1).
  exists pd1, pd. repeat split; try assumption; [rewrite G1; exact G2|].
  rewrite P1, HP. intros E.
  destruct (populated_bins [(1.2, 1)] (b_dmin bd1) (b_dmax bd1)) as [|e1 es1] eqn:B1.
  { destruct (where_pos (b_n bd1)); [congruence|discriminate]. }
  destruct (populated_bins [(1.2, 1)] (b_dmin bd) (b_dmax bd)) as [|e2 es2] eqn:B2.
  { destruct (where_pos (b_n bd)); [congruence|discriminate]. }
  cbn [map] in E. apply (f_equal (hd 0)) in E. cbn [hd] in E.
  destruct (x2_point_d _ _ _ _ _ None 1 e1 HA1 ltac:(rewrite B1; left; reflexivity) eq_refl eq_refl) as (z1 & Z1).
  destruct (x2_point_d _ _ _ _ _ None 1 e2 HA ltac:(rewrite B2; left; reflexivity) eq_refl eq_refl) as (z2 & Z2).
  rewrite Z1, Z2 in E. unfold Rpower in E. apply exp_inv in E.
  assert (L2 : 0 < ln 2) by (rewrite <- ln_1; apply ln_increasing; lra).
  assert (E' : IZR z1 - 1 / 2 = IZR z2) by (apply Rmult_eq_reg_r with (ln 2); lra).
  assert (E2 : IZR (2 * z1 - 1) = IZR (2 * z2)) by (rewrite minus_IZR, !mult_IZR; lra).
  apply eq_IZR in E2. lia.
Qed.

(** C10: a root-2 bin does not show its own density in the Hartmann presentation *)
Lemma fourth_root : Rpower 2 (1 / 4) * Rpower 2 (1 / 4) = sqrt 2.
Proof. rewrite <- Rpower_plus. replace (1/4 + 1/4) with (/ 2) by lra. apply Rpower_sqrt. lra. Qed.
Theorem hartmann_root2 slope craters area lo : 0 < lo -> area <> 0 ->
  pt_y (expected_point "Hartmann" slope craters area lo (lo * sqrt 2))
  = Rpower 2 (1 / 4) * pt_y (expected_point "incremental" slope craters area lo (lo * sqrt 2)).
Proof.
  intros Hlo Ha. unfold expected_point. cbn [String.eqb Ascii.eqb Bool.eqb pt_y].
  assert (S1 : 1 < sqrt 2) by (rewrite <- sqrt_1; apply sqrt_lt_1; lra).
  assert (E : sqrt (lo * (lo * sqrt 2)) = lo * Rpower 2 (1 / 4)).
  { rewrite <- fourth_root. replace (lo * (lo * (Rpower 2 (1/4) * Rpower 2 (1/4)))) with ((lo * Rpower 2 (1/4)) * (lo * Rpower 2 (1/4))) by ring.
    apply sqrt_square. apply Rmult_le_pos; [lra|left; apply Rpower_pos]. }
  rewrite E. field. repeat split; try assumption. nra.
Qed.
(** C10: error bars of the differential presentation *)
Theorem differential_relative_error slope craters area lo hi :
  0 < lo -> lo < hi -> area <> 0 -> 1 / 100000 <= Rabs (slope lo hi) ->
  let p := expected_point "differential" slope craters area lo hi in
  pt_err p = bin_bias_correction (hi / lo) (slope lo hi) * pt_y p / sqrt (INR (number_between lo hi craters)).
Proof.
  intros H1 H2 Ha Hk. unfold expected_point. cbn [String.eqb Ascii.eqb Bool.eqb pt_y pt_err].
  assert (Hb : 1 < hi / lo) by (apply Rmult_lt_reg_r with lo; [assumption|]; unfold Rdiv; rewrite Rmult_assoc, Rinv_l; lra).
  assert (bin_bias_correction (hi / lo) (slope lo hi) <> 0).
  { rewrite bias_sinh by assumption.
    assert (Hl : 0 < ln (hi / lo)) by (rewrite <- ln_1; apply ln_increasing; lra).
    assert (Hs : sinh (ln (hi / lo) / 2) > 0) by (apply sinh_pos; lra).
    assert (Hk0 : slope lo hi <> 0) by (intros E; rewrite E, Rabs_R0 in Hk; lra).
    assert (Hs2 : sinh (slope lo hi * (ln (hi / lo) / 2)) <> 0).
    { destruct (Rtotal_order (slope lo hi) 0) as [H|[H|H]]; [|contradiction|].
      - assert (0 < sinh (- (slope lo hi * (ln (hi / lo) / 2)))) by (apply sinh_pos; nra). rewrite sinh_odd in H0. lra.
      - assert (0 < sinh (slope lo hi * (ln (hi / lo) / 2))) by (apply sinh_pos; nra). lra. }
    apply Rmult_integral_contrapositive_currified; [assumption|]. apply Rinv_neq_0_compat.
    apply Rmult_integral_contrapositive_currified; [assumption|lra]. }
  set (f := bin_bias_correction _ _) in *. unfold Rdiv. f_equal.
  rewrite (Rmult_comm f), Rmult_assoc, Rinv_l by assumption. ring.
Qed.
