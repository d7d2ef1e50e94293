(** decode_range on a fresh crater count: statements used for C07 and C08. *)
From Coq Require Import String List ZArith Reals Lra Lia Bool.
From Verif Require Import Base NumModel NumLemmas BinModel BinSpec BinProofs ApplyProofs CountModel CountSpec CountProofs CountProofs2.
Import ListNotations.
Local Open Scope R_scope.

Lemma decode_unfold craters area lo hi b snap bd ri :
  apply_binning craters b 0 = Ok (bd, ri) ->
  fst (decode_range (fresh craters area) lo hi b snap) = decode_limits bd (Some b) lo hi snap.
Proof.
  intros HA. unfold decode_range, ensure_binning, fresh, do_apply. cbn [cc_prebinned cc_binning cc_craters].
  rewrite HA. reflexivity.
Qed.
Lemma real_not_none b : In b real_binnings -> Some b <> Some "none"%string.
Proof. cbn. intros H. intuition congruence. Qed.

Lemma first_dmax craters b bd ri : In b real_binnings -> craters <> [] ->
  Forall (fun c => 1 / 10000 <= fst c) craters -> apply_binning craters b 0 = Ok (bd, ri) ->
  Forall (fun c => 0 < fst c) craters /\ 1 / 10000 <= hd 0 (b_dmax bd).
Proof.
  intros Hb Hne Hbig HA.
  assert (Hpos : Forall (fun c => 0 < fst c) craters) by (eapply Forall_impl; [|exact Hbig]; cbn; intros; lra).
  split; [assumption|].
  destruct (apply_binning_spec craters b 0 Hb Hne Hpos) as (z0 & n & bd' & ri' & HA' & HG & Hmin & Hmax & _).
  rewrite HA in HA'. injection HA' as <- _.
  destruct (generate_bins_grid b (map fst craters) 0 Hb) as (z1 & n1 & HG' & _ & (x & Hx & Hxle) & _).
  { destruct craters; [congruence|discriminate]. }
  { apply Forall_map. exact Hpos. }
  rewrite HG in HG'. apply (f_equal (fun r => match r with Ok l => l | Err _ => [] end)) in HG'.
  assert (E : grid b 0 z0 = grid b 0 z1).
  { apply (f_equal (hd 0)) in HG'. unfold grid_points in HG'. cbn [seq map hd] in HG'.
    replace (z0 + Z.of_nat 0)%Z with z0 in HG' by lia. replace (z1 + Z.of_nat 0)%Z with z1 in HG' by lia. exact HG'. }
  assert (z0 = z1).
  { pose proof (g_le_inv (grid b 0) (fun z => grid_step b 0 z Hb)) as GI.
    apply Z.le_antisymm; apply GI; lra. }
  subst z1. apply in_map_iff in Hx. destruct Hx as (c & <- & Hc). rewrite Forall_forall in Hbig. specialize (Hbig c Hc).
  rewrite Hmax. unfold grid_points. cbn [seq map hd]. replace (z0 + 1 + Z.of_nat 0)%Z with (z0 + 1)%Z by lia. lra.
Qed.

Theorem decode_bins craters area b snap v w :
  In b real_binnings -> craters <> [] -> Forall (fun c => 1 / 10000 <= fst c) craters -> Forall (fun c => 0 < snd c) craters ->
  exists bd ri i j, apply_binning craters b 0 = Ok (bd, ri) /\
    is_populated_no (b_n bd) (bin_number (populated (b_n bd)) v) i /\
    is_populated_no (b_n bd) (bin_number (populated (b_n bd)) w) j /\
    fst (decode_range (fresh craters area) (LBin v) (LBin w) b snap)
    = Ok (Fin (nth i (b_dmin bd) 0), Fin (nth (Nat.max i j) (b_dmax bd) 0)).
Proof.
  intros Hb Hne Hbig Hfr.
  assert (Hpos : Forall (fun c => 0 < fst c) craters) by (eapply Forall_impl; [|exact Hbig]; cbn; intros; lra).
  destruct (apply_binning_spec craters b 0 Hb Hne Hpos) as (z0 & n & bd & ri & HA & _).
  destruct (first_dmax _ _ _ _ Hb Hne Hbig HA) as [_ Hd].
  pose proof (apply_binning_good _ _ _ _ _ Hb Hne Hpos HA) as G.
  pose proof (where_pos_nonempty _ _ _ _ _ Hb Hne Hpos HA Hfr) as Hw.
  assert (Hp : (0 < populated (b_n bd))%nat).
  { rewrite <- where_pos_length. destruct (where_pos (b_n bd)); [congruence|cbn; lia]. }
  destruct (decode_bin_numbers bd (Some b) snap v w G Hp Hd (real_not_none b Hb)) as (i & j & Hi & Hj & E).
  exists bd, (Some ri), i, j. repeat split; try assumption; try apply Hi; try apply Hj.
  rewrite (decode_unfold _ _ _ _ _ _ _ _ HA). exact E.
Qed.

Theorem decode_snap craters area b x y :
  In b real_binnings -> craters <> [] -> Forall (fun c => 0 < fst c) craters -> 0 < x -> x <= y ->
  exists bd ri l u, apply_binning craters b 0 = Ok (bd, ri) /\
    fst (decode_range (fresh craters area) (LNum (Fin x)) (LNum (Fin y)) b true) = Ok (Fin l, Fin u) /\
    In l (b_dmin bd) /\
    (l < x * 1.0000001 \/ l = hd 0 (b_dmin bd)) /\
    (forall e, In e (b_dmin bd) -> e < x * 1.0000001 -> e <= l) /\
    (last (b_dmax bd) 0 - 1/10000000 < y -> u = y) /\
    (y <= last (b_dmax bd) 0 - 1/10000000 ->
       In u (b_dmax bd) /\ y * 0.999999 <= u /\ (forall e, In e (b_dmax bd) -> y * 0.999999 <= e -> u <= e)).
Proof.
  intros Hb Hne Hpos Hx Hxy.
  destruct (apply_binning_spec craters b 0 Hb Hne Hpos) as (z0 & n & bd & ri & HA & _).
  pose proof (apply_binning_good _ _ _ _ _ Hb Hne Hpos HA) as G.
  rewrite (decode_unfold _ _ _ _ _ _ _ _ HA), (decode_snap_unfold bd (Some b) _ _ (real_not_none b Hb)).
  cbn [ext_ltb]. rewrite Rltb_false by assumption.
  destruct (snap_lower_spec bd G x Hx) as (l & El & L1 & L2 & L3).
  destruct (snap_upper_spec bd G y) as [U1 U2].
  destruct (Rlt_le_dec (last (b_dmax bd) 0 - 1/10000000) y) as [Hy|Hy].
  - exists bd, (Some ri), l, y. rewrite El, (U1 Hy). cbn [bind]. repeat split; try assumption; lra.
  - destruct (U2 Hy) as (u & Eu & V1 & V2 & V3). exists bd, (Some ri), l, u. rewrite El, Eu. cbn [bind].
    repeat split; try assumption. lra.
Qed.

Theorem decode_twice craters area area' b x y l u :
  In b real_binnings -> craters <> [] -> Forall (fun c => 1 / 10000 <= fst c) craters ->
  fst (decode_range (fresh craters area) (LNum (Fin x)) (LNum y) b true) = Ok (Fin l, u) ->
  fst (decode_range (fresh craters area') (LNum (Fin l)) (LNum u) b true) = Ok (Fin l, u).
Proof.
  intros Hb Hne Hbig.
  assert (Hpos : Forall (fun c => 0 < fst c) craters) by (eapply Forall_impl; [|exact Hbig]; cbn; intros; lra).
  destruct (apply_binning_spec craters b 0 Hb Hne Hpos) as (z0 & n & bd & ri & HA & _).
  destruct (first_dmax _ _ _ _ Hb Hne Hbig HA) as [_ Hd].
  pose proof (apply_binning_good _ _ _ _ _ Hb Hne Hpos HA) as G.
  rewrite !(decode_unfold _ _ _ _ _ _ _ _ HA).
  apply decode_idempotent; [assumption| |apply real_not_none; assumption].
  rewrite (last_hi bd G). replace (hd 0 (b_dmax bd)) with (nth 0 (b_dmax bd) 0) in Hd by (destruct (b_dmax bd); reflexivity).
  pose proof (hi_le bd G 0 (length (b_dmin bd) - 1)). pose proof (gb_ne bd G). specialize (H ltac:(lia)). lra.
Qed.

(** an unsnapped numeric range is only put in order *)
Theorem decode_plain craters area b x y :
  In b ("none"%string :: real_binnings) -> craters <> [] -> Forall (fun c => 0 < fst c) craters ->
  fst (decode_range (fresh craters area) (LNum (Fin x)) (LNum (Fin y)) b false) = Ok (Fin x, Fin (Rmax x y)).
Proof.
  intros Hb Hne Hpos.
  assert (HA : exists bd ri, apply_binning craters b 0 = Ok (bd, ri)).
  { destruct Hb as [<-|Hb].
    - destruct craters as [|c cs]; [congruence|]. eexists _, _. reflexivity.
    - destruct (apply_binning_spec craters b 0 Hb Hne Hpos) as (z0 & n & bd & ri & HA & _). eexists _, _. exact HA. }
  destruct HA as (bd & ri & HA). rewrite (decode_unfold _ _ _ _ _ _ _ _ HA).
  unfold decode_limits. cbn [limit_value bind].
  assert (E : (if ext_ltb (Fin y) (Fin x) then Fin x else Fin y) = Fin (Rmax x y)).
  { cbn [ext_ltb]. unfold Rmax. destruct (Rltb_spec y x), (Rle_dec x y); try lra; f_equal; lra. }
  rewrite E. destruct (String.eqb b "none"); reflexivity.
Qed.

(** ** C10 on the program's output *)
Lemma populated_edges craters b bd ri e : In b real_binnings -> craters <> [] -> Forall (fun c => 0 < fst c) craters ->
  apply_binning craters b 0 = Ok (bd, ri) -> In e (populated_bins craters (b_dmin bd) (b_dmax bd)) ->
  0 < fst e /\ fst e < snd e /\ 0 < fraction_between (fst e) (snd e) craters /\
  exists z, fst e = grid b 0 z /\ snd e = grid b 0 (z + 1).
Proof.
  intros Hb Hne Hpos HA He.
  destruct (apply_binning_spec craters b 0 Hb Hne Hpos) as (z0 & n & bd' & ri' & HA' & _ & Hmin & Hmax & _).
  rewrite HA in HA'. injection HA' as <- _.
  unfold populated_bins in He. apply filter_In in He. destruct He as [He Hf].
  destruct (Rlt_dec 0 (fraction_between (fst e) (snd e) craters)) as [Hf'|]; [|discriminate].
  rewrite Hmin, Hmax in He.
  apply In_nth with (d := (0, 0)) in He. destruct He as (i & Hi & <-).
  rewrite combine_length, !grid_points_length in Hi.
  rewrite combine_nth in * by (rewrite !grid_points_length; reflexivity).
  rewrite !grid_points_nth in * by lia. cbn [fst snd] in *.
  replace (z0 + 1 + Z.of_nat i)%Z with (z0 + Z.of_nat i + 1)%Z in * by lia.
  split; [apply grid_pos; assumption|]. split; [apply grid_step; assumption|]. split; [assumption|].
  exists (z0 + Z.of_nat i)%Z. split; reflexivity.
Qed.

Theorem plot_area_scaling craters area c b pres pf sa :
  In b real_binnings -> craters <> [] -> Forall (fun c => 0 < fst c) craters -> Forall (fun c => 0 < snd c) craters ->
  area <> 0 -> c <> 0 -> In pres data_presentations ->
  exists pd pd',
    fst (getplotdata (fresh craters area) pres b None (Some 0%Z) sa pf) = Ok pd /\
    fst (getplotdata (fresh craters (area * c)) pres b None (Some 0%Z) sa pf) = Ok pd' /\
    pd_points pd' = map (fun p => mkPt (pt_d p) (pt_y p / c) (pt_err p / c)) (pd_points pd).
Proof.
  intros Hb Hne Hpos Hfr Ha Hc Hp.
  destruct (plotted_points craters area b pres pf sa Hb Hne Hpos Hfr Ha Hp) as (bd & ri & pd & HA & HG & HP).
  destruct (plotted_points craters (area * c) b pres pf sa Hb Hne Hpos Hfr ltac:(apply Rmult_integral_contrapositive_currified; assumption) Hp)
    as (bd' & ri' & pd' & HA' & HG' & HP').
  rewrite HA in HA'. injection HA' as <- _.
  exists pd, pd'. split; [assumption|]. split; [assumption|]. rewrite HP, HP', map_map. apply map_ext. intros e.
  destruct (expected_area pres (pf_slope pf) craters area c (fst e) (snd e) Ha Hc) as (E1 & E2 & E3).
  destruct (expected_point pres (pf_slope pf) craters (area * c) (fst e) (snd e)) as [d y er]; cbn [pt_d pt_y pt_err] in *.
  subst. reflexivity.
Qed.

Theorem plot_relative_error craters area b pres pf sa :
  In b real_binnings -> craters <> [] -> Forall (fun c => 0 < fst c) craters -> Forall (fun c => 0 < snd c) craters ->
  area <> 0 -> In pres data_presentations -> pres <> "differential"%string ->
  exists pd, fst (getplotdata (fresh craters area) pres b None (Some 0%Z) sa pf) = Ok pd /\
    forall p, In p (pd_points pd) -> exists z,
      let lo := grid b 0 z in
      let hi := grid b 0 (z + 1) in
      pt_d p = (if String.eqb pres "cumulative" then lo else sqrt (lo * hi)) /\
      pt_err p = pt_y p / sqrt (INR (if String.eqb pres "cumulative" then number_from lo craters else number_between lo hi craters)).
Proof.
  intros Hb Hne Hpos Hfr Ha Hp Hd.
  destruct (plotted_points craters area b pres pf sa Hb Hne Hpos Hfr Ha Hp) as (bd & ri & pd & HA & HG & HP).
  exists pd. split; [assumption|]. intros p Hin. rewrite HP in Hin. apply in_map_iff in Hin. destruct Hin as (e & <- & He).
  destruct (populated_edges _ _ _ _ e Hb Hne Hpos HA He) as (_ & _ & _ & z & E1 & E2).
  exists z. rewrite <- E1, <- E2. cbn zeta. split; [|apply expected_relative_error; assumption].
  unfold expected_point. destruct (data_presentation_cases pres Hp) as [->|[->|[->|[->| ->]]]]; reflexivity || congruence.
Qed.

Theorem plot_hartmann craters area pf sa :
  craters <> [] -> Forall (fun c => 0 < fst c) craters -> Forall (fun c => 0 < snd c) craters -> area <> 0 ->
  exists inc har,
    fst (getplotdata (fresh craters area) "incremental" "root-2" None (Some 0%Z) sa pf) = Ok inc /\
    fst (getplotdata (fresh craters area) "Hartmann" "root-2" None (Some 0%Z) sa pf) = Ok har /\
    map pt_y (pd_points har) = map (fun p => Rpower 2 (1 / 4) * pt_y p) (pd_points inc).
Proof.
  intros Hne Hpos Hfr Ha. assert (Hb : In "root-2"%string real_binnings) by (cbn; tauto).
  destruct (plotted_points craters area _ "incremental" pf sa Hb Hne Hpos Hfr Ha ltac:(cbn; tauto)) as (bd & ri & pd & HA & HG & HP).
  destruct (plotted_points craters area _ "Hartmann" pf sa Hb Hne Hpos Hfr Ha ltac:(cbn; tauto)) as (bd' & ri' & pd' & HA' & HG' & HP').
  rewrite HA in HA'. injection HA' as <- _.
  exists pd, pd'. split; [assumption|]. split; [assumption|]. rewrite HP, HP', !map_map. apply map_ext_in. intros e He.
  destruct (populated_edges _ _ _ _ e Hb Hne Hpos HA He) as (P1 & P2 & _ & z & E1 & E2).
  assert (E : snd e = fst e * sqrt 2).
  { rewrite E1, E2. unfold grid. cbn [String.eqb Ascii.eqb Bool.eqb]. rewrite plus_IZR.
    rewrite <- (Rpower_sqrt 2) by lra. rewrite <- Rpower_plus. f_equal. lra. }
  rewrite E. apply hartmann_root2; assumption.
Qed.

Theorem plot_differential_error :
  exists craters area b pd p, craters <> [] /\ Forall (fun c => 0 < fst c) craters /\ Forall (fun c => snd c = 1) craters /\
    fst (getplotdata (fresh craters area) "differential" b None (Some 0%Z) false None) = Ok pd /\
    In p (pd_points pd) /\ pd_nevent pd = 1 /\ pt_err p <> pt_y p / sqrt 1.
Proof.
  assert (Hb : In "x2"%string real_binnings) by (cbn; tauto).
  assert (Hp : Forall (fun c : R * R => 0 < fst c) [(1.2, 1)]) by (repeat constructor; cbn; lra).
  assert (Hf : Forall (fun c : R * R => 0 < snd c) [(1.2, 1)]) by (repeat constructor; cbn; lra).
  assert (Hne : [(1.2, 1)] <> @nil (R * R)) by discriminate.
  assert (Hpr : In "differential"%string data_presentations) by (cbn; tauto).
  destruct (plotted_points [(1.2, 1)] 1 "x2" "differential" None false Hb Hne Hp Hf ltac:(lra) Hpr) as (bd & ri & pd & HA & HG & HP).
  pose proof (where_pos_nonempty _ _ _ _ _ Hb Hne Hp HA Hf) as HW.
  pose proof (where_pos_edges _ _ _ _ _ Hb Hne Hp HA) as HE.
  destruct (populated_bins [(1.2, 1)] (b_dmin bd) (b_dmax bd)) as [|e es] eqn:B.
  { destruct (where_pos (b_n bd)); [congruence|discriminate]. }
  destruct (populated_edges _ _ _ _ e Hb Hne Hp HA ltac:(rewrite B; left; reflexivity)) as (P1 & P2 & P3 & z & E1 & E2).
  exists [(1.2, 1)], 1, "x2"%string, pd, (expected_point "differential" (pf_slope None) [(1.2, 1)] 1 (fst e) (snd e)).
  split; [assumption|]. split; [assumption|]. split; [repeat constructor|]. split; [assumption|].
  split; [rewrite HP; left; reflexivity|].
  assert (FB : fraction_between (fst e) (snd e) [(1.2, 1)] = INR (number_between (fst e) (snd e) [(1.2, 1)])).
  { cbn [fraction_between number_between]. destruct (Rle_dec (fst e) 1.2); [destruct (Rlt_dec 1.2 (snd e))|]; cbn; lra. }
  assert (NB : number_between (fst e) (snd e) [(1.2, 1)] = 1%nat).
  { rewrite FB in P3. cbn [number_between] in *. destruct (Rle_dec (fst e) 1.2); [destruct (Rlt_dec 1.2 (snd e))|]; cbn in *; try lra; reflexivity. }
  split.
  - (* one crater in the plotted data *)
    rewrite (getplotdata_unfold _ _ _ _ _ _ _ _ _ HA) in HG. unfold plotdata_of in HG.
    destruct (pyindex (where_pos (b_n bd)) 0); [|discriminate]. destruct (pyindex (where_pos (b_n bd)) (-1)); [|discriminate].
    cbn [bind existsb data_presentations String.eqb Ascii.eqb Bool.eqb orb negb] in HG.
    destruct (mapM _ _); [|discriminate]. cbn [bind] in HG. injection HG as <-. cbn [pd_nevent].
    destruct (binning_conserves _ _ _ _ _ Hb Hne Hp HA) as (L1 & L2 & _ & V & _ & S1).
    pose proof (sum_selected (b_n bd) (b_nevent bd) (fun _ => true) 0 ltac:(lia)) as SS.
    assert (F : forall A (l : list A), filter (fun _ => true) l = l) by (induction l; cbn; congruence).
    rewrite F in SS. fold (where_pos (b_n bd)) in SS.
    rewrite (map_ext (fun i => nth i (b_nevent bd) 0) (fun i => nth (i - 0) (b_nevent bd) 0)) by (intros; rewrite Nat.sub_0_r; reflexivity).
    rewrite SS.
    + rewrite (map_ext (fun i => nth (i - 0) (b_nevent bd) 0) (fun i => nth i (b_nevent bd) 0)) by (intros; rewrite Nat.sub_0_r; reflexivity).
      rewrite L1, <- L2. transitivity (INR (length [(1.2, 1)])); [|reflexivity]. rewrite <- S1.
      f_equal. symmetry. clear. generalize (b_nevent bd). intros l. 
      apply nth_ext with (d := 0) (d' := 0); [rewrite map_length, seq_length; reflexivity|].
      intros k Hk. rewrite nth_map_seq by assumption. reflexivity.
    + intros i Hi Hz. rewrite L1 in Hi. destruct (V i Hi) as [V1 V2]. rewrite V1 in Hz. rewrite V2.
      rewrite number_zero_of_fraction by assumption. reflexivity.
  - rewrite differential_relative_error; [|assumption|assumption|lra|unfold pf_slope; rewrite Rabs_left; lra].
    rewrite NB. cbn [INR]. rewrite sqrt_1. unfold pf_slope.
    assert (HR : 1 < snd e / fst e) by (apply Rmult_lt_reg_r with (fst e); [assumption|]; unfold Rdiv; rewrite Rmult_assoc, Rinv_l; lra).
    destruct (bias_order (snd e / fst e) (-3) HR ltac:(rewrite Rabs_left; lra)) as (_ & _ & G). specialize (G ltac:(rewrite Rabs_left; lra)).
    assert (HY : 0 < pt_y (expected_point "differential" (pf_slope None) [(1.2, 1)] 1 (fst e) (snd e))).
    { unfold expected_point. cbn [String.eqb Ascii.eqb Bool.eqb pt_y pf_slope]. apply Rdiv_lt_0_compat; [|unfold pf_slope; lra].
      apply Rdiv_lt_0_compat; lra. }
    fold (pf_slope None (fst e) (snd e)) in G. change (fun _ _ : R => -3) with (pf_slope None) in *.
    clear - HY G. revert HY G. unfold pf_slope.
    generalize (pt_y (expected_point "differential" (fun _ _ => -3) [(1.2, 1)] 1 (fst e) (snd e))).
    generalize (bin_bias_correction (snd e / fst e) (-3)). intros f y HY G E.
    assert (f * y = y) by lra. assert (0 < (f - 1) * y) by (apply Rmult_lt_0_compat; lra). lra.
Qed.
