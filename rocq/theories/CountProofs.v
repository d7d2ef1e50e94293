(** Proofs about the Cratercount object. *)
From Coq Require Import String List ZArith Reals Lra Lia Bool Permutation.
From Verif Require Import Base NumModel NumLemmas BinModel BinSpec BinProofs ApplyProofs CountModel CountSpec.
Import ListNotations.
Local Open Scope R_scope.

(** ** C06: history independence *)
(** the cache, if present, is what binning afresh without offset would give *)
Definition cache_ok (craters : list (R * R)) (area : R) (s : cratercount) : Prop :=
  cc_craters s = craters /\ cc_area s = area /\ cc_prebinned s = false /\
  match cc_binning s with
  | None => True
  | Some b => exists ri, apply_binning craters b 0 = Ok (cc_binned s, ri)
  end.

Lemma fresh_ok craters area : cache_ok craters area (fresh craters area).
Proof. repeat split. Qed.

Lemma do_apply_ok craters area s b : cache_ok craters area s -> cache_ok craters area (snd (do_apply s b 0)).
Proof.
  intros (H1 & H2 & H3 & H4). unfold do_apply. rewrite H1.
  destruct (apply_binning craters b 0) as [[bd ri]|e] eqn:E; cbn; [|repeat split; assumption].
  repeat split; try assumption. exists ri. exact E.
Qed.
Lemma ensure_ok craters area s b : cache_ok craters area s -> cache_ok craters area (snd (ensure_binning s b)).
Proof.
  intros H. pose proof H as (H1 & H2 & H3 & H4). unfold ensure_binning. rewrite H3.
  destruct (cc_binning s) as [b'|] eqn:E.
  - destruct (String.eqb b' b); [exact H|]. apply do_apply_ok; assumption.
  - apply do_apply_ok; assumption.
Qed.
Lemma snd_decode s lo hi b snap : snd (decode_range s lo hi b snap) = snd (ensure_binning s b).
Proof. unfold decode_range. destruct (ensure_binning s b) as [[]]; reflexivity. Qed.
Lemma snd_getplot s p b r rs sa pf : snd (getplotdata s p b r rs sa pf) = snd (ensure_binning s b).
Proof. unfold getplotdata. destruct (ensure_binning s b) as [[]]; reflexivity. Qed.

Lemma after_call_ok craters area s c : (forall b off, c = CApply b off -> off = 0) ->
  cache_ok craters area s -> cache_ok craters area (after_call s c).
Proof.
  intros Hc H. destruct c; cbn [after_call].
  - rewrite (Hc _ _ eq_refl). apply do_apply_ok; assumption.
  - rewrite snd_decode. apply ensure_ok; assumption.
  - rewrite snd_getplot. apply ensure_ok; assumption.
  - apply ensure_ok; assumption.
Qed.
Lemma after_calls_ok craters area h s : (forall b off, In (CApply b off) h -> off = 0) ->
  cache_ok craters area s -> cache_ok craters area (after_calls s h).
Proof.
  revert s. induction h as [|c h IH]; intros s Hh H; cbn; [assumption|].
  apply IH; [intros; eapply Hh; right; eassumption|].
  apply after_call_ok; [|assumption]. intros b off ->. eapply Hh. left. reflexivity.
Qed.

(** what ensure_binning hands over is the same from any good cache *)
Lemma ensure_view craters area s b : cache_ok craters area s ->
  match apply_binning craters b 0 with
  | Err e => exists s', ensure_binning s b = (Err e, s')
  | Ok (bd, _) => exists s', ensure_binning s b = (Ok tt, s') /\ cc_binned s' = bd /\
                      cc_binning s' = Some b /\ cc_area s' = area
  end.
Proof.
  intros (H1 & H2 & H3 & H4). unfold ensure_binning. rewrite H3.
  assert (D : match apply_binning craters b 0 with
              | Err e => exists s', do_apply s b 0 = (Err e, s')
              | Ok (bd, _) => exists s', do_apply s b 0 = (Ok tt, s') /\ cc_binned s' = bd /\
                      cc_binning s' = Some b /\ cc_area s' = area
              end).
  { unfold do_apply. rewrite H1. destruct (apply_binning craters b 0) as [[bd ri]|e]; eexists; [|reflexivity].
    split; [reflexivity|]. repeat split; assumption. }
  destruct (cc_binning s) as [b'|] eqn:E; [|exact D].
  destruct (String.eqb_spec b' b) as [->|]; [|exact D].
  destruct H4 as [ri ->]. exists s. repeat split; assumption.
Qed.

Theorem getplotdata_history craters area h pres b range rs sa pf :
  (forall b off, In (CApply b off) h -> off = 0) ->
  fst (getplotdata (after_calls (fresh craters area) h) pres b range rs sa pf)
  = fst (getplotdata (fresh craters area) pres b range rs sa pf).
Proof.
  intros Hh. pose proof (ensure_view craters area _ b (after_calls_ok _ _ h _ Hh (fresh_ok craters area))) as V1.
  pose proof (ensure_view craters area _ b (fresh_ok craters area)) as V2.
  unfold getplotdata. destruct (apply_binning craters b 0) as [[bd ri]|e].
  - destruct V1 as (s1 & -> & A1 & A2 & A3), V2 as (s2 & -> & B1 & B2 & B3). cbn [fst].
    rewrite A1, A2, B1, B2, ?A3, ?B3. reflexivity.
  - destruct V1 as (s1 & ->), V2 as (s2 & ->). reflexivity.
Qed.
Theorem decode_range_history craters area h lo hi b snap :
  (forall b off, In (CApply b off) h -> off = 0) ->
  fst (decode_range (after_calls (fresh craters area) h) lo hi b snap)
  = fst (decode_range (fresh craters area) lo hi b snap).
Proof.
  intros Hh. pose proof (ensure_view craters area _ b (after_calls_ok _ _ h _ Hh (fresh_ok craters area))) as V1.
  pose proof (ensure_view craters area _ b (fresh_ok craters area)) as V2.
  unfold decode_range. destruct (apply_binning craters b 0) as [[bd ri]|e].
  - destruct V1 as (s1 & -> & A1 & A2 & A3), V2 as (s2 & -> & B1 & B2 & B3). cbn [fst].
    rewrite A1, A2, B1, B2, ?A3, ?B3. reflexivity.
  - destruct V1 as (s1 & ->), V2 as (s2 & ->). reflexivity.
Qed.

(** reading calls never change the data *)
Theorem calls_keep_data s h :
  cc_craters (after_calls s h) = cc_craters s /\ cc_area (after_calls s h) = cc_area s /\
  cc_prebinned (after_calls s h) = cc_prebinned s.
Proof.
  assert (E : forall s b, cc_craters (snd (ensure_binning s b)) = cc_craters s /\
     cc_area (snd (ensure_binning s b)) = cc_area s /\ cc_prebinned (snd (ensure_binning s b)) = cc_prebinned s).
  { intros t b. unfold ensure_binning, do_apply. destruct (cc_prebinned t) eqn:P; [repeat split; assumption|].
    destruct (cc_binning t) as [b'|]; [destruct (String.eqb b' b); [repeat split; assumption|]|];
    destruct (apply_binning (cc_craters t) b 0) as [[bd ri]|e]; repeat split; assumption. }
  revert s. induction h as [|c h IH]; intros s; [repeat split|].
  change (after_calls s (c :: h)) with (after_calls (after_call s c) h).
  destruct (IH (after_call s c)) as (-> & -> & ->).
  destruct c; cbn [after_call].
  - unfold do_apply. destruct (apply_binning (cc_craters s) binning offset) as [[bd ri]|e]; repeat split; reflexivity.
  - rewrite snd_decode. apply E.
  - rewrite snd_getplot. apply E.
  - apply E.
Qed.
(** a pre-binned count is immutable under everything but apply_binning *)
Theorem prebinned_immutable s h : cc_prebinned s = true ->
  (forall b off, ~ In (CApply b off) h) -> after_calls s h = s.
Proof.
  intros P. induction h as [|c h IH]; intros H; [reflexivity|].
  change (after_calls s (c :: h)) with (after_calls (after_call s c) h).
  assert (E : after_call s c = s).
  { destruct c; cbn [after_call].
    - exfalso. eapply H. left. reflexivity.
    - rewrite snd_decode. unfold ensure_binning. rewrite P. reflexivity.
    - rewrite snd_getplot. unfold ensure_binning. rewrite P. reflexivity.
    - unfold ensure_binning. rewrite P. reflexivity. }
  rewrite E. apply IH. intros b off Hin. eapply H. right. eassumption.
Qed.

(** ** minimal width of the grids *)
Lemma Rpow_lt a b n : 0 <= a -> a < b -> (0 < n)%nat -> a ^ n < b ^ n.
Proof.
  intros Ha Hb Hn. induction n; [lia|]. destruct n; [cbn; lra|].
  change (a * a ^ S n < b * b ^ S n). apply Rmult_ge_0_gt_0_lt_compat; try lra.
  - apply Rle_ge. apply pow_le. assumption.
  - apply IHn. lia.
Qed.
Lemma pow10_gt x c n : 0 <= c -> c ^ n < pow10 (x * INR n) -> c < pow10 x.
Proof.
  intros Hc H. destruct (Rlt_le_dec c (pow10 x)) as [|G]; [assumption|].
  rewrite pow10_mult_INR in H. assert (pow10 x ^ n <= c ^ n) by (apply pow_incr; pose proof (pow10_pos x); lra). lra.
Qed.
Lemma pow10_lt_of x c n : 0 <= c -> (0 < n)%nat -> pow10 (x * INR n) < c ^ n -> pow10 x < c.
Proof.
  intros Hc Hn H. destruct (Rlt_le_dec (pow10 x) c) as [|G]; [assumption|].
  rewrite pow10_mult_INR in H. assert (c ^ n <= pow10 x ^ n) by (apply pow_incr; lra). lra.
Qed.

Lemma grid_ratio b off z : In b real_binnings -> grid b off z * 1.01 < grid b off (z + 1).
Proof.
  intros H. destruct (real_binning_cases b H) as [->|(bpd & Hb & _ & _)].
  - rewrite !grid_pl_eq.
    rewrite (Z.div_mod z 18) by lia. set (q := (z / 18)%Z). set (r := (z mod 18)%Z).
    assert (Hr : (0 <= r < 18)%Z) by (apply Z.mod_pos_bound; lia).
    pose proof (pow10_pos (IZR q)) as Hp.
    destruct (Z.eq_dec r 17) as [E|E].
    + rewrite E. replace (18 * q + 17 + 1)%Z with (18 * (q + 1) + 0)%Z by lia.
      rewrite !pl_grid_qr by lia. rewrite plus_IZR, pow10_plus, pow10_1. cbn_nth. lra.
    + replace (18 * q + r + 1)%Z with (18 * q + (r + 1))%Z by lia.
      rewrite !pl_grid_qr by lia.
      assert (r = 0 \/ r = 1 \/ r = 2 \/ r = 3 \/ r = 4 \/ r = 5 \/ r = 6 \/ r = 7 \/ r = 8 \/
        r = 9 \/ r = 10 \/ r = 11 \/ r = 12 \/ r = 13 \/ r = 14 \/ r = 15 \/ r = 16)%Z as Hc by lia.
      repeat (destruct Hc as [Hc|Hc]; [rewrite Hc; cbn_nth; lra|]). rewrite Hc. cbn_nth; lra.
  - rewrite !(grid_log_eq b bpd) by assumption. rewrite plus_IZR.
    pose proof (bpd_pos _ _ Hb) as Hp.
    replace ((IZR z + 1 - off) / bpd) with ((IZR z - off) / bpd + 1 / bpd) by (field; lra).
    rewrite pow10_plus. apply Rmult_lt_compat_l; [apply pow10_pos|].
    assert (bpd <= 20).
    { revert Hb. unfold bins_per_decade. pose proof log10_2_pos as H2.
      assert (Hl : 1 < 4 * log10 2).
      { replace (4 * log10 2) with (log10 16).
        - rewrite <- log10_10. apply log10_lt; lra.
        - replace 16 with (2 * (2 * (2 * 2))) by ring. rewrite !log10_mult by lra. ring. }
      assert (D : forall c, 0 < c -> c <= 4 -> c / log10 2 <= 20).
      { intros c Hc Hc4. apply Rmult_le_reg_r with (log10 2); [assumption|].
        unfold Rdiv. rewrite Rmult_assoc, Rinv_l by lra. lra. }
      repeat (destruct (String.eqb _ _); [intros [= <-]; first [lra|apply D; lra]|]). discriminate. }
    apply Rlt_le_trans with (pow10 (1 / 20)).
    + apply pow10_gt with 20%nat; [lra|]. replace (1 / 20 * INR 20) with 1 by (cbn; field). rewrite pow10_1. lra.
    + apply pow10_le. apply Rmult_le_compat_l; [lra|]. apply Rinv_le_contravar; lra.
Qed.
Lemma grid_pos b off z : In b real_binnings -> 0 < grid b off z.
Proof.
  intros H. destruct (real_binning_cases b H) as [->|(bpd & Hb & _ & _)].
  - rewrite grid_pl_eq. rewrite (Z.div_mod z 18) by lia. set (q := (z / 18)%Z). set (r := (z mod 18)%Z).
    assert (Hr : (0 <= r < 18)%Z) by (apply Z.mod_pos_bound; lia). rewrite pl_grid_qr by assumption.
    apply Rmult_lt_0_compat; [|apply pow10_pos].
    assert (r = 0 \/ r = 1 \/ r = 2 \/ r = 3 \/ r = 4 \/ r = 5 \/ r = 6 \/ r = 7 \/ r = 8 \/
        r = 9 \/ r = 10 \/ r = 11 \/ r = 12 \/ r = 13 \/ r = 14 \/ r = 15 \/ r = 16 \/ r = 17)%Z as Hc by lia.
      repeat (destruct Hc as [Hc|Hc]; [rewrite Hc; cbn_nth; lra|]). rewrite Hc. cbn_nth; lra.
  - rewrite (grid_log_eq b bpd) by assumption. apply pow10_pos.
Qed.

Theorem apply_binning_good craters b off bd ri :
  In b real_binnings -> craters <> [] -> Forall (fun c => 0 < fst c) craters ->
  apply_binning craters b off = Ok (bd, ri) -> good_bins bd.
Proof.
  intros Hb Hne Hpos HA.
  destruct (apply_binning_spec craters b off Hb Hne Hpos)
    as (z0 & n & bd' & ri' & HA' & HG & Hmin & Hmax & Hcov & Hw & Hm & Hn & He & Hc & Hce & Hri).
  rewrite HA in HA'. injection HA' as <- ->.
  constructor; rewrite ?Hmin, ?Hmax, ?Hm, ?Hn, ?grid_points_length, ?map_length, ?seq_length; try reflexivity; try lia.
  - intros i Hi. rewrite grid_points_nth by assumption. apply grid_pos; assumption.
  - intros i Hi. rewrite !grid_points_nth by assumption. 
    replace (z0 + 1 + Z.of_nat i)%Z with (z0 + Z.of_nat i + 1)%Z by lia. apply grid_ratio; assumption.
  - intros i Hi. rewrite !grid_points_nth by lia. f_equal. lia.
  - intros i Hi. rewrite nth_map_seq by assumption. rewrite !grid_points_nth by assumption. f_equal. ring.
Qed.

(** ** consequences of good bins *)
Section Good.
  Variable bd : binned.
  Hypothesis G : good_bins bd.
  Notation m := (length (b_dmin bd)).
  Notation lo i := (nth i (b_dmin bd) 0).
  Notation hi i := (nth i (b_dmax bd) 0).
  Notation mean i := (nth i (b_dmean bd) 0).

  Lemma lo_step i : (S i < m)%nat -> lo i * 1.01 < lo (S i).
  Proof. intros. rewrite <- (gb_contig bd G) by assumption. apply (gb_ratio bd G). lia. Qed.
  Lemma lo_lt i j : (i < j < m)%nat -> lo i * 1.01 < lo j.
  Proof.
    intros [H1 H2]. induction j; [lia|]. destruct (Nat.eq_dec i j); [subst; apply lo_step; assumption|].
    assert (lo i * 1.01 < lo j) by (apply IHj; lia). assert (lo j * 1.01 < lo (S j)) by (apply lo_step; assumption).
    assert (0 < lo j) by (apply (gb_pos bd G); lia). lra.
  Qed.
  Lemma lo_le i j : (i <= j < m)%nat -> lo i <= lo j.
  Proof.
    intros. destruct (Nat.eq_dec i j); [subst; lra|]. assert (lo i * 1.01 < lo j) by (apply lo_lt; lia).
    assert (0 < lo i) by (apply (gb_pos bd G); lia). lra.
  Qed.
  Lemma hi_lo i j : (i < j < m)%nat -> hi i <= lo j.
  Proof. intros. rewrite (gb_contig bd G) by lia. apply lo_le. lia. Qed.
  Lemma lo_hi i : (i < m)%nat -> lo i * 1.01 < hi i.
  Proof. intros. apply (gb_ratio bd G). assumption. Qed.
  Lemma lo_pos i : (i < m)%nat -> 0 < lo i.
  Proof. intros. apply (gb_pos bd G). assumption. Qed.
  Lemma hi_lt i j : (i < j < m)%nat -> hi i * 1.01 < hi j.
  Proof.
    intros. pose proof (hi_lo i j H). pose proof (lo_hi j ltac:(lia)). pose proof (lo_pos j ltac:(lia)). lra.
  Qed.
  Lemma hi_le i j : (i <= j < m)%nat -> hi i <= hi j.
  Proof.
    intros. destruct (Nat.eq_dec i j); [subst; lra|]. pose proof (hi_lt i j ltac:(lia)).
    pose proof (lo_hi i ltac:(lia)). pose proof (lo_pos i ltac:(lia)). lra.
  Qed.
  (** the mean is well inside the bin *)
  Lemma mean_inside i : (i < m)%nat -> lo i * 1.004 < mean i /\ mean i * 1.004 < hi i.
  Proof.
    intros Hi. rewrite (gb_mean bd G) by assumption. pose proof (lo_pos i Hi) as Hp. pose proof (lo_hi i Hi) as Hr.
    set (a := lo i) in *. set (b := hi i) in *.
    assert (Ha : 0 <= a * 1.004) by lra.
    split.
    - replace (a * 1.004) with (sqrt ((a * 1.004) * (a * 1.004))) by (apply sqrt_square; assumption).
      apply sqrt_lt_1; nra.
    - replace b with (sqrt (b * b)) at 2 by (apply sqrt_square; lra).
      replace 1.004 with (sqrt (1.004 * 1.004)) by (apply sqrt_square; lra).
      rewrite <- sqrt_mult by nra. apply sqrt_lt_1; nra.
  Qed.

  Lemma pyindex_nth l i : (0 <= i < Z.of_nat (length l))%Z -> pyindex l i = Ok (nth (Z.to_nat i) l 0).
  Proof.
    intros. unfold pyindex. replace (Z.ltb i 0) with false by (symmetry; apply Z.ltb_ge; lia).
    replace (Z.ltb i 0) with false by (symmetry; apply Z.ltb_ge; lia).
    rewrite (nth_error_nth' l 0) by lia. reflexivity.
  Qed.
  Lemma pyindex_last (l : list R) : l <> [] -> pyindex l (-1) = Ok (last l 0).
  Proof.
    intros. unfold pyindex. cbn [Z.ltb]. replace (Z.ltb (-1) 0) with true by reflexivity.
    assert (0 < length l)%nat by (destruct l; [congruence|cbn; lia]).
    replace (Z.ltb (-1 + Z.of_nat (length l)) 0) with false by (symmetry; apply Z.ltb_ge; lia).
    rewrite (nth_error_nth' l 0) by lia. rewrite last_nth. f_equal. f_equal. lia.
  Qed.

  (** position of a value among the lower / upper edges *)
  Lemma ss_lo_exact i v : (i < m)%nat -> lo i < v -> ((S i < m)%nat -> v <= lo (S i)) ->
    searchsorted (b_dmin bd) v = S i.
  Proof.
    intros Hi H1 H2. apply searchsorted_unique; [lia| |assumption].
    intros j Hj. assert (lo j <= lo i) by (apply lo_le; lia). lra.
  Qed.
  Lemma ss_hi_exact i v : (i < m)%nat -> v <= hi i -> ((0 < i)%nat -> hi (i - 1) < v) ->
    searchsorted (b_dmax bd) v = i.
  Proof.
    intros Hi H1 H2. apply searchsorted_unique; rewrite ?(gb_len1 bd G); [lia| |intros; assumption].
    intros j Hj. assert (hi j <= hi (i - 1)) by (apply hi_le; lia). specialize (H2 ltac:(lia)). lra.
  Qed.

  Lemma snap_lower_exact i x : (i < m)%nat -> 0 < x -> lo i < x * 1.0000001 ->
    ((S i < m)%nat -> x * 1.0000001 <= lo (S i)) -> snap_lower bd (Fin x) = Ok (Fin (lo i)).
  Proof.
    intros Hi Hx H1 H2. unfold snap_lower, R_ltb_ext, ext_scale, searchsorted_ext. rewrite Rltb_true by assumption.
    replace (10000001 / 10000000) with 1.0000001 by lra.
    rewrite (ss_lo_exact i) by assumption. rewrite pyindex_nth by lia. cbn [bind].
    f_equal. f_equal. f_equal. lia.
  Qed.
  Lemma snap_lower_below x : 0 < x -> x * 1.0000001 <= lo 0 -> snap_lower bd (Fin x) = Ok (Fin (lo 0)).
  Proof.
    intros Hx H1. unfold snap_lower, R_ltb_ext, ext_scale, searchsorted_ext. rewrite Rltb_true by assumption.
    replace (10000001 / 10000000) with 1.0000001 by lra.
    pose proof (gb_ne bd G) as Hne.
    rewrite (searchsorted_unique (b_dmin bd) _ 0%nat); [|lia|intros; lia|intros; assumption].
    cbn [Z.of_nat]. replace (Z.max (0 - 1) 0) with 0%Z by reflexivity. rewrite pyindex_nth by lia. reflexivity.
  Qed.
  (** every positive x falls in one of the two cases *)
  Lemma lower_cases x : 0 < x -> x * 1.0000001 <= lo 0 \/
    exists i, (i < m)%nat /\ lo i < x * 1.0000001 /\ ((S i < m)%nat -> x * 1.0000001 <= lo (S i)).
  Proof.
    intros Hx. pose proof (gb_ne bd G) as Hne. set (v := x * 1.0000001).
    pose proof (searchsorted_le (b_dmin bd) v) as Hle.
    destruct (searchsorted (b_dmin bd) v) as [|k] eqn:E.
    - left. pose proof (searchsorted_above (b_dmin bd) v ltac:(lia)). rewrite E in H. assumption.
    - right. exists k. split; [lia|]. split.
      + apply searchsorted_below. rewrite E. lia.
      + intros. rewrite <- E. apply searchsorted_above. rewrite E. assumption.
  Qed.

  Lemma dmax_ne : b_dmax bd <> [].
  Proof. pose proof (gb_len1 bd G). pose proof (gb_ne bd G). destruct (b_dmax bd); [cbn in *; lia|discriminate]. Qed.
  Lemma last_hi : last (b_dmax bd) 0 = hi (m - 1).
  Proof. rewrite last_nth, (gb_len1 bd G). reflexivity. Qed.

  Lemma snap_upper_exact i x : (i < m)%nat -> x <= last (b_dmax bd) 0 - 1/10000000 -> x * 0.999999 <= hi i ->
    ((0 < i)%nat -> hi (i - 1) < x * 0.999999) -> snap_upper bd (Fin x) = Ok (Fin (hi i)).
  Proof.
    intros Hi Hx H1 H2. unfold snap_upper. rewrite pyindex_last by apply dmax_ne. cbn [bind].
    unfold ext_leb_R. rewrite Rleb_true by assumption. unfold ext_scale, searchsorted_ext.
    replace (999999 / 1000000) with 0.999999 by lra.
    rewrite (ss_hi_exact i) by assumption. rewrite pyindex_nth by (rewrite (gb_len1 bd G); lia). cbn [bind].
    rewrite Nat2Z.id. reflexivity.
  Qed.
  Lemma snap_upper_beyond x : last (b_dmax bd) 0 - 1/10000000 < x -> snap_upper bd (Fin x) = Ok (Fin x).
  Proof.
    intros Hx. unfold snap_upper. rewrite pyindex_last by apply dmax_ne. cbn [bind].
    unfold ext_leb_R. rewrite Rleb_false by assumption. reflexivity.
  Qed.
  Lemma snap_upper_inf : snap_upper bd Inf = Ok Inf.
  Proof. unfold snap_upper. rewrite pyindex_last by apply dmax_ne. reflexivity. Qed.
  Lemma upper_cases x : x <= last (b_dmax bd) 0 - 1/10000000 ->
    exists i, (i < m)%nat /\ x * 0.999999 <= hi i /\ ((0 < i)%nat -> hi (i - 1) < x * 0.999999).
  Proof.
    intros Hx. set (v := x * 0.999999). pose proof (gb_ne bd G) as Hne. pose proof (gb_len1 bd G) as Hl.
    rewrite last_hi in Hx.
    assert (Hpos : 0 < hi (m - 1)) by (pose proof (lo_hi (m - 1) ltac:(lia)); pose proof (lo_pos (m - 1) ltac:(lia)); lra).
    assert (Hv : v <= hi (m - 1)).
    { unfold v. destruct (Rle_lt_dec 0 x); nra. }
    exists (searchsorted (b_dmax bd) v).
    assert (Hk : (searchsorted (b_dmax bd) v < m)%nat).
    { destruct (Nat.lt_ge_cases (searchsorted (b_dmax bd) v) m); [assumption|].
      pose proof (searchsorted_below (b_dmax bd) v (m - 1) ltac:(lia)). lra. }
    split; [assumption|]. split.
    - apply searchsorted_above. lia.
    - intros. apply searchsorted_below. lia.
  Qed.

  (** ** C08 *)
  Theorem snap_lower_spec x : 0 < x -> exists l, snap_lower bd (Fin x) = Ok (Fin l) /\ In l (b_dmin bd) /\
    (l < x * 1.0000001 \/ l = hd 0 (b_dmin bd)) /\
    (forall y, In y (b_dmin bd) -> y < x * 1.0000001 -> y <= l).
  Proof.
    intros Hx. pose proof (gb_ne bd G) as Hne. destruct (lower_cases x Hx) as [H|(i & Hi & H1 & H2)].
    - exists (lo 0). split; [apply snap_lower_below; assumption|]. split; [apply nth_In; lia|]. split.
      + right. destruct (b_dmin bd); reflexivity.
      + intros y Hy Hlt. apply In_nth with (d := 0) in Hy. destruct Hy as (j & Hj & <-).
        assert (lo 0 <= lo j) by (apply lo_le; lia). lra.
    - exists (lo i). split; [apply snap_lower_exact; assumption|]. split; [apply nth_In; lia|]. split; [left; assumption|].
      intros y Hy Hlt. apply In_nth with (d := 0) in Hy. destruct Hy as (j & Hj & <-).
      destruct (Nat.le_gt_cases j i); [apply lo_le; lia|].
      assert (lo (S i) <= lo j) by (apply lo_le; lia). specialize (H2 ltac:(lia)). lra.
  Qed.
  Theorem snap_upper_spec x :
    (last (b_dmax bd) 0 - 1/10000000 < x -> snap_upper bd (Fin x) = Ok (Fin x)) /\
    (x <= last (b_dmax bd) 0 - 1/10000000 ->
     exists u, snap_upper bd (Fin x) = Ok (Fin u) /\ In u (b_dmax bd) /\ x * 0.999999 <= u /\
       (forall y, In y (b_dmax bd) -> x * 0.999999 <= y -> u <= y)).
  Proof.
    split; [apply snap_upper_beyond|]. intros Hx. destruct (upper_cases x Hx) as (i & Hi & H1 & H2).
    exists (hi i). split; [apply snap_upper_exact; assumption|].
    split; [apply nth_In; rewrite (gb_len1 bd G); assumption|]. split; [assumption|].
    intros y Hy Hge. apply In_nth with (d := 0) in Hy. destruct Hy as (j & Hj & <-).
    rewrite (gb_len1 bd G) in Hj.
    destruct (Nat.le_gt_cases i j); [apply hi_le; lia|].
    assert (hi j <= hi (i - 1)) by (apply hi_le; lia). specialize (H2 ltac:(lia)). lra.
  Qed.

  (** re-snapping an edge leaves it *)
  Lemma resnap_lower i : (i < m)%nat -> snap_lower bd (Fin (lo i)) = Ok (Fin (lo i)).
  Proof.
    intros Hi. pose proof (lo_pos i Hi). apply snap_lower_exact; [assumption|lra|lra|].
    intros. pose proof (lo_step i H0). lra.
  Qed.
  Lemma resnap_upper i : (i < m)%nat -> snap_upper bd (Fin (hi i)) = Ok (Fin (hi i)).
  Proof.
    intros Hi. pose proof (lo_pos i Hi). pose proof (lo_hi i Hi).
    destruct (Rle_lt_dec (hi i) (last (b_dmax bd) 0 - 1/10000000)); [|apply snap_upper_beyond; assumption].
    apply snap_upper_exact; [assumption|assumption|lra|].
    intros. pose proof (hi_lt (i - 1) i ltac:(lia)).
    pose proof (lo_hi (i - 1) ltac:(lia)). pose proof (lo_pos (i - 1) ltac:(lia)). lra.
  Qed.

  Lemma snapped_lower_cases x l : snap_lower bd (Fin x) = Ok l ->
    (x <= 0 /\ l = Fin x) \/ (0 < x /\ exists i, (i < m)%nat /\ l = Fin (lo i) /\
       ((i = 0%nat /\ x * 1.0000001 <= lo 0) \/ (lo i < x * 1.0000001 /\ ((S i < m)%nat -> x * 1.0000001 <= lo (S i))))).
  Proof.
    intros H. destruct (Rle_lt_dec x 0) as [Hx|Hx].
    - left. split; [assumption|]. unfold snap_lower, R_ltb_ext in H. rewrite Rltb_false in H by assumption.
      injection H as <-. reflexivity.
    - right. split; [assumption|]. destruct (lower_cases x Hx) as [H1|(i & Hi & H1 & H2)].
      + rewrite snap_lower_below in H by assumption. injection H as <-.
        exists O. split; [apply (gb_ne bd G)|]. split; [reflexivity|]. left. split; [reflexivity|assumption].
      + rewrite (snap_lower_exact i) in H by assumption. injection H as <-.
        exists i. split; [assumption|]. split; [reflexivity|]. right. split; assumption.
  Qed.
  Lemma snapped_upper_cases y u : snap_upper bd (Fin y) = Ok u ->
    (last (b_dmax bd) 0 - 1/10000000 < y /\ u = Fin y) \/
    (y <= last (b_dmax bd) 0 - 1/10000000 /\ exists i, (i < m)%nat /\ u = Fin (hi i) /\ y * 0.999999 <= hi i /\
       ((0 < i)%nat -> hi (i - 1) < y * 0.999999)).
  Proof.
    intros H. destruct (Rlt_le_dec (last (b_dmax bd) 0 - 1/10000000) y) as [Hy|Hy].
    - left. rewrite snap_upper_beyond in H by assumption. injection H as <-. split; [assumption|reflexivity].
    - right. split; [assumption|]. destruct (upper_cases y Hy) as (i & Hi & H1 & H2).
      rewrite (snap_upper_exact i) in H by assumption. injection H as <-. exists i. repeat split; assumption.
  Qed.

  (** snapping keeps the order of the limits *)
  Lemma snap_order x y l u : 1 / 10000 <= last (b_dmax bd) 0 -> x <= y ->
    snap_lower bd (Fin x) = Ok (Fin l) -> snap_upper bd (Fin y) = Ok (Fin u) -> l <= u.
  Proof.
    intros Hbig Hxy Hl Hu. rewrite last_hi in *. pose proof (gb_ne bd G) as Hne.
    pose proof (lo_hi (m - 1) ltac:(lia)) as Hlast. pose proof (lo_pos (m - 1) ltac:(lia)) as Hlp.
    apply snapped_lower_cases in Hl. apply snapped_upper_cases in Hu. rewrite last_hi in Hu.
    destruct Hl as [(Hx & El)|(Hx & i & Hi & El & Hl)]; injection El as ->.
    - destruct Hu as [(Hy & Eu)|(Hy & j & Hj & Eu & Hu1 & Hu2)]; injection Eu as ->; [lra|].
      pose proof (lo_hi j Hj). pose proof (lo_pos j Hj). lra.
    - destruct Hu as [(Hy & Eu)|(Hy & j & Hj & Eu & Hu1 & Hu2)]; injection Eu as ->.
      + assert (lo i <= lo (m - 1)) by (apply lo_le; lia). lra.
      + destruct (Nat.le_gt_cases i j).
        * assert (lo i <= lo j) by (apply lo_le; lia). pose proof (lo_hi j Hj). pose proof (lo_pos j Hj). lra.
        * destruct Hl as [(-> & _)|(Hl1 & Hl2)]; [lia|].
          (* lo i < y*(1+1e-7), hi j >= y*(1-1e-6), j < i : hi j and lo i are the same edge *)
          assert (hi j <= lo i) by (apply hi_lo; lia).
          destruct (Nat.eq_dec (S j) i) as [<-|].
          { rewrite (gb_contig bd G) by lia. lra. }
          assert (hi j * 1.01 < hi (i - 1)) by (apply hi_lt; lia).
          assert (hi (i - 1) <= lo i) by (apply hi_lo; lia).
          pose proof (lo_hi j Hj). pose proof (lo_pos j Hj). exfalso. nra.
  Qed.
End Good.

Lemma decode_snap_unfold bd b x y :
  b <> Some "none"%string ->
  decode_limits bd b (LNum (Fin x)) (LNum y) true
  = do! r0 <- snap_lower bd (Fin x); do! r1 <- snap_upper bd (if ext_ltb y (Fin x) then Fin x else y); Ok (r0, r1).
Proof.
  intros Hb. unfold decode_limits. cbn [limit_value bind].
  destruct b as [s|]; [|reflexivity].
  destruct (String.eqb_spec s "none") as [->|Hs]; [congruence|reflexivity].
Qed.

Theorem decode_idempotent bd b x y l u :
  good_bins bd -> 1 / 10000 <= last (b_dmax bd) 0 ->
  b <> Some "none"%string ->
  decode_limits bd b (LNum (Fin x)) (LNum y) true = Ok (Fin l, u) ->
  decode_limits bd b (LNum (Fin l)) (LNum u) true = Ok (Fin l, u).
Proof.
  intros G Hbig Hb. rewrite !decode_snap_unfold by assumption.
  set (y' := if ext_ltb y (Fin x) then Fin x else y).
  destruct (snap_lower bd (Fin x)) as [l'|e] eqn:El; cbn [bind]; [|discriminate].
  destruct (snap_upper bd y') as [u'|e] eqn:Eu; cbn [bind]; [|discriminate].
  intros E. injection E as -> ->.
  assert (Hl : snap_lower bd (Fin l) = Ok (Fin l)).
  { destruct (snapped_lower_cases bd G _ _ El) as [(Hx & E)|(Hx & i & Hi & E & _)]; injection E as ->.
    - exact El.
    - apply resnap_lower; assumption. }
  rewrite Hl. cbn [bind].
  destruct y' as [yv|] eqn:Ey.
  - assert (Hxy : x <= yv).
    { unfold y' in Ey. destruct y as [yy|]; cbn [ext_ltb] in Ey; [|discriminate].
      destruct (Rltb_spec yy x); injection Ey as <-; lra. }
    destruct (snapped_upper_cases bd G _ _ Eu) as [(Hy & ->)|(Hy & i & Hi & -> & _ & _)].
    + cbn [ext_ltb]. pose proof (snap_order bd G x yv l yv Hbig Hxy El Eu).
      rewrite Rltb_false by assumption. rewrite Eu. reflexivity.
    + cbn [ext_ltb]. pose proof (snap_order bd G x yv l _ Hbig Hxy El Eu).
      rewrite Rltb_false by assumption. rewrite (resnap_upper bd G) by assumption. reflexivity.
  - rewrite (snap_upper_inf bd G) in Eu. injection Eu as <-. cbn [ext_ltb].
    rewrite (snap_upper_inf bd G). reflexivity.
Qed.

(** ** C07 *)
Lemma where_pos_from_spec n s :
  length (where_pos_from s n) = populated n /\
  (forall k, (k < populated n)%nat -> exists i, nth_error (where_pos_from s n) k = Some (s + i)%nat /\ is_populated_no n k i).
Proof.
  revert s. induction n as [|x n IH]; intros s; [split; [reflexivity|intros; cbn in H; lia]|].
  cbn [where_pos_from populated]. unfold Rltb. destruct (Rlt_dec 0 x) as [Hx|Hx]; destruct (IH (S s)) as [IH1 IH2].
  - split; [cbn; lia|]. intros k Hk. destruct k.
    + exists O. split; [cbn; f_equal; lia|]. split; [cbn; lia|]. split; [assumption|reflexivity].
    + destruct (IH2 k ltac:(lia)) as (i & E & H1 & H2 & H3). exists (S i). split; [cbn; rewrite E; f_equal; lia|].
      split; [cbn; lia|]. split; [exact H2|]. cbn [firstn populated]. destruct (Rlt_dec 0 x); [|lra]. lia.
  - split; [cbn; lia|]. intros k Hk. destruct (IH2 k ltac:(lia)) as (i & E & H1 & H2 & H3). exists (S i).
    split; [rewrite E; f_equal; lia|].
    split; [cbn; lia|]. split; [exact H2|]. cbn [firstn populated]. destruct (Rlt_dec 0 x); [lra|]. lia.
Qed.
Lemma where_pos_length n : length (where_pos n) = populated n.
Proof. apply where_pos_from_spec. Qed.
Lemma where_pos_nth n k : (k < populated n)%nat ->
  exists i, nth_error (where_pos n) k = Some i /\ is_populated_no n k i.
Proof. intros. destruct (where_pos_from_spec n 0) as [_ H1]. destruct (H1 k H) as (i & E & Hi). exists i. split; assumption. Qed.
Lemma where_pos_from_In n s i : In i (where_pos_from s n) <-> (s <= i < s + length n)%nat /\ 0 < nth (i - s) n 0.
Proof.
  revert s. induction n as [|x n IH]; intros s.
  - cbn. split; [tauto|]. intros [? _]. lia.
  - cbn [where_pos_from length]. destruct (Rltb_spec 0 x) as [Hx|Hx].
    + cbn [In]. rewrite IH. split.
      * intros [<-|[H1 H2]]; [split; [lia|]; rewrite Nat.sub_diag; exact Hx|].
        split; [lia|]. replace (i - s)%nat with (S (i - S s)) by lia. exact H2.
      * intros [H1 H2]. destruct (Nat.eq_dec s i); [left; assumption|right].
        split; [lia|]. replace (i - s)%nat with (S (i - S s)) in H2 by lia. exact H2.
    + rewrite IH. split.
      * intros [H1 H2]. split; [lia|]. replace (i - s)%nat with (S (i - S s)) by lia. exact H2.
      * intros [H1 H2]. destruct (Nat.eq_dec s i); [subst; rewrite Nat.sub_diag in H2; cbn in H2; lra|].
        split; [lia|]. replace (i - s)%nat with (S (i - S s)) in H2 by lia. exact H2.
Qed.
Lemma where_pos_In n i : In i (where_pos n) <-> (i < length n)%nat /\ 0 < nth i n 0.
Proof. unfold where_pos. rewrite where_pos_from_In. rewrite Nat.sub_0_r. intuition lia. Qed.

Lemma limit_value_bin bd snap v : good_bins bd -> (0 < populated (b_n bd))%nat ->
  exists i, is_populated_no (b_n bd) (bin_number (populated (b_n bd)) v) i /\
    limit_value bd snap (LBin v) = Ok (Fin (nth i (b_dmean bd) 0), true).
Proof.
  intros G Hp. set (p := populated (b_n bd)) in *. set (q := where_pos (b_n bd)).
  assert (Hq : length q = p) by apply where_pos_length.
  assert (Hk : (bin_number p v < p)%nat).
  { unfold bin_number. destruct (Z.ltb_spec 0 v); [lia|]. destruct (Z.ltb_spec v 0); lia. }
  destruct (where_pos_nth (b_n bd) _ Hk) as (i & Ei & Hi).
  exists i. split; [exact Hi|]. cbn [limit_value]. fold q. rewrite Hq.
  assert (Hpy : pyindex q (if Z.ltb 0 (zclip v (- Z.of_nat p) (Z.of_nat p))
                            then zclip v (- Z.of_nat p) (Z.of_nat p) - 1
                            else zclip v (- Z.of_nat p) (Z.of_nat p))%Z = Ok i).
  { unfold pyindex. rewrite Hq. unfold zclip.
    set (w := if (0 <? Z.min (Z.max v (- Z.of_nat p)) (Z.of_nat p))%Z then _ else _).
    assert (Hw : (if Z.ltb w 0 then w + Z.of_nat p else w)%Z = Z.of_nat (bin_number p v)).
    { unfold w, bin_number. destruct (Z.ltb_spec 0 v).
      - destruct (Z.ltb_spec 0 (Z.min (Z.max v (- Z.of_nat p)) (Z.of_nat p))); [|lia].
        destruct (Z.ltb_spec (Z.min (Z.max v (- Z.of_nat p)) (Z.of_nat p) - 1) 0); lia.
      - destruct (Z.ltb_spec 0 (Z.min (Z.max v (- Z.of_nat p)) (Z.of_nat p))); [lia|].
        destruct (Z.ltb_spec (Z.min (Z.max v (- Z.of_nat p)) (Z.of_nat p)) 0); destruct (Z.ltb_spec v 0); lia. }
    rewrite Hw. replace (Z.ltb (Z.of_nat (bin_number p v)) 0) with false by (symmetry; apply Z.ltb_ge; lia).
    rewrite Nat2Z.id. fold q in Ei. rewrite Ei. reflexivity. }
  rewrite Hpy. cbn [bind]. destruct Hi as (Hi & _). rewrite (gb_len3 bd G) in Hi.
  rewrite pyindex_nth by (rewrite (gb_len2 bd G); lia). rewrite Nat2Z.id. reflexivity.
Qed.

Lemma snap_lower_mean bd i : good_bins bd -> (i < length (b_dmin bd))%nat ->
  snap_lower bd (Fin (nth i (b_dmean bd) 0)) = Ok (Fin (nth i (b_dmin bd) 0)).
Proof.
  intros G Hi. destruct (mean_inside bd G i Hi) as [H1 H2]. pose proof (lo_pos bd G i Hi).
  apply snap_lower_exact; try assumption; try lra.
  intros. rewrite <- (gb_contig bd G) by assumption. lra.
Qed.
Lemma snap_upper_mean bd i : good_bins bd -> (i < length (b_dmin bd))%nat -> 1 / 10000 <= nth i (b_dmax bd) 0 ->
  snap_upper bd (Fin (nth i (b_dmean bd) 0)) = Ok (Fin (nth i (b_dmax bd) 0)).
Proof.
  intros G Hi Hbig. destruct (mean_inside bd G i Hi) as [H1 H2]. pose proof (lo_pos bd G i Hi).
  assert (nth i (b_dmax bd) 0 <= last (b_dmax bd) 0).
  { rewrite last_hi by assumption. apply hi_le; [assumption|]. lia. }
  apply snap_upper_exact; try assumption; try lra.
  intros. pose proof (hi_lo bd G (i - 1) i ltac:(lia)). lra.
Qed.

Theorem decode_bin_numbers bd b snap v w :
  good_bins bd -> (0 < populated (b_n bd))%nat -> 1 / 10000 <= hd 0 (b_dmax bd) ->
  b <> Some "none"%string ->
  exists i j, is_populated_no (b_n bd) (bin_number (populated (b_n bd)) v) i /\
    is_populated_no (b_n bd) (bin_number (populated (b_n bd)) w) j /\
    decode_limits bd b (LBin v) (LBin w) snap
    = Ok (Fin (nth i (b_dmin bd) 0), Fin (nth (Nat.max i j) (b_dmax bd) 0)).
Proof.
  intros G Hp Hbig Hb.
  destruct (limit_value_bin bd snap v G Hp) as (i & Hi & Ei).
  destruct (limit_value_bin bd snap w G Hp) as (j & Hj & Ej).
  exists i, j. split; [assumption|]. split; [assumption|].
  unfold decode_limits. rewrite Ei, Ej. cbn [bind].
  destruct Hi as (Hi & _), Hj as (Hj & _). rewrite (gb_len3 bd G) in Hi, Hj.
  assert (Hmono : forall a c, (a < c < length (b_dmin bd))%nat -> nth a (b_dmean bd) 0 < nth c (b_dmean bd) 0).
  { intros a c Hac. destruct (mean_inside bd G a ltac:(lia)) as [A1 A2]. destruct (mean_inside bd G c ltac:(lia)) as [C1 C2].
    pose proof (hi_lo bd G a c Hac). pose proof (lo_pos bd G a ltac:(lia)). pose proof (lo_pos bd G c ltac:(lia)). lra. }
  assert (Hmax : (if ext_ltb (Fin (nth j (b_dmean bd) 0)) (Fin (nth i (b_dmean bd) 0))
                  then Fin (nth i (b_dmean bd) 0) else Fin (nth j (b_dmean bd) 0))
                 = Fin (nth (Nat.max i j) (b_dmean bd) 0)).
  { cbn [ext_ltb]. destruct (lt_eq_lt_dec i j) as [[H|H]|H].
    - rewrite Nat.max_r by lia. rewrite Rltb_false; [reflexivity|]. left. apply Hmono. lia.
    - subst. rewrite Nat.max_id. rewrite Rltb_false by lra. reflexivity.
    - rewrite Nat.max_l by lia. rewrite Rltb_true; [reflexivity|]. apply Hmono. lia. }
  rewrite Hmax.
  assert (Hfin : (do! r0' <- snap_lower bd (Fin (nth i (b_dmean bd) 0));
                  do! r1' <- snap_upper bd (Fin (nth (Nat.max i j) (b_dmean bd) 0)); Ok (r0', r1'))
                 = Ok (Fin (nth i (b_dmin bd) 0), Fin (nth (Nat.max i j) (b_dmax bd) 0))).
  { rewrite snap_lower_mean by assumption. cbn [bind]. rewrite snap_upper_mean; [reflexivity|assumption|lia|].
    replace (hd 0 (b_dmax bd)) with (nth 0 (b_dmax bd) 0) in Hbig by (destruct (b_dmax bd); reflexivity).
    pose proof (hi_le bd G 0 (Nat.max i j) ltac:(lia)). lra. }
  destruct b as [s|]; [|exact Hfin].
  destruct (String.eqb_spec s "none") as [->|Hs]; [congruence|exact Hfin].
Qed.

Theorem decode_bin_no_data bd b snap v hi :
  populated (b_n bd) = 0%nat -> decode_limits bd b (LBin v) hi snap = Err SysExit.
Proof.
  intros Hp. unfold decode_limits. cbn [limit_value].
  assert (Hq : where_pos (b_n bd) = []) by (apply length_zero_iff_nil; rewrite where_pos_length; assumption).
  rewrite Hq. cbn [length Z.of_nat]. unfold zclip.
  replace (Z.min (Z.max v (- 0)) 0) with 0%Z by lia. reflexivity.
Qed.

(** ** C09 *)
Lemma filter_none {A} (f : A -> bool) l : (forall x, In x l -> f x = false) -> filter f l = [].
Proof.
  induction l as [|x l IH]; intros H; [reflexivity|]. cbn. rewrite (H x) by (left; reflexivity).
  apply IH. intros; apply H; right; assumption.
Qed.
(** sum over selected populated bins = sum over all bins of the index range, for a per-bin
    quantity that vanishes on unpopulated bins *)
Lemma sum_selected (n w : list R) (P : nat -> bool) s :
  length w = length n -> (forall i, (i < length n)%nat -> ~ 0 < nth i n 0 -> nth i w 0 = 0) ->
  Rsum (map (fun i => nth (i - s) w 0) (filter P (where_pos_from s n)))
  = Rsum (map (fun i => if P i then nth (i - s) w 0 else 0) (seq s (length n))).
Proof.
  revert w s. induction n as [|x n IH]; intros w s Hl Hz; [reflexivity|].
  destruct w as [|y w]; [discriminate|]. cbn [where_pos_from length seq map Rsum].
  assert (IH' := IH w (S s) ltac:(cbn in Hl; lia)).
  assert (Hz' : forall i, (i < length n)%nat -> ~ 0 < nth i n 0 -> nth i w 0 = 0).
  { intros i Hi. apply (Hz (S i)). cbn; lia. }
  specialize (IH' Hz').
  assert (E : forall l, (forall i, In i l -> (s < i)%nat) ->
     map (fun i => nth (i - s) (y :: w) 0) l = map (fun i => nth (i - S s) w 0) l).
  { intros l Hl'. apply map_ext_in. intros i Hi. specialize (Hl' i Hi).
    replace (i - s)%nat with (S (i - S s)) by lia. reflexivity. }
  assert (E2 : map (fun i => if P i then nth (i - s) (y :: w) 0 else 0) (seq (S s) (length n))
             = map (fun i => if P i then nth (i - S s) w 0 else 0) (seq (S s) (length n))).
  { apply map_ext_in. intros i Hi. apply in_seq in Hi. replace (i - s)%nat with (S (i - S s)) by lia. reflexivity. }
  rewrite E2, <- IH'. rewrite Nat.sub_diag. change (nth 0 (y :: w) 0) with y.
  assert (Htail : map (fun i => nth (i - s) (y :: w) 0) (filter P (where_pos_from (S s) n))
     = map (fun i => nth (i - S s) w 0) (filter P (where_pos_from (S s) n))).
  { apply E. intros i Hi. apply filter_In in Hi. destruct Hi as [Hi _]. apply where_pos_from_In in Hi. lia. }
  destruct (Rltb_spec 0 x) as [Hx|Hx].
  - cbn [filter]. destruct (P s).
    + rewrite map_cons. cbn [Rsum]. rewrite Htail, Nat.sub_diag. reflexivity.
    + rewrite Htail. ring.
  - rewrite Htail. assert (y = 0) by (apply (Hz O); [cbn; lia|assumption]). subst. destruct (P s); ring.
Qed.

Lemma Rsum_map_seq_split (F : nat -> R) a n :
  Rsum (map F (seq a n)) = Rsum (map (fun i => F (a + i)%nat) (seq 0 n)).
Proof.
  f_equal. revert a. induction n; intros; [reflexivity|]. cbn [seq map]. f_equal; [f_equal; lia|].
  rewrite <- (seq_shift n 0), map_map. rewrite IHn. apply map_ext. intros. f_equal. lia.
Qed.

Lemma fraction_between_nonneg lo hi cs : Forall (fun c => 0 < snd c) cs -> 0 <= fraction_between lo hi cs.
Proof.
  induction 1 as [|[d f] cs Hf _ IH]; cbn [fraction_between snd] in *; [lra|].
  destruct (Rle_dec lo d); [destruct (Rlt_dec d hi)|]; lra.
Qed.
Lemma number_zero_of_fraction lo hi cs : Forall (fun c => 0 < snd c) cs ->
  ~ 0 < fraction_between lo hi cs -> number_between lo hi cs = O.
Proof.
  induction 1 as [|[d f] cs Hf Hcs IH]; [reflexivity|]. cbn [fraction_between number_between snd] in *.
  pose proof (fraction_between_nonneg lo hi cs Hcs) as H0.
  destruct (Rle_dec lo d); [destruct (Rlt_dec d hi)|]; intros H; try (apply IH; lra). lra.
Qed.

Section Selected.
  Variables (craters : list (R * R)) (b : string) (off : R) (bd : binned) (ri : option (list nat)).
  Hypothesis Hb : In b real_binnings.
  Hypothesis Hne : craters <> [].
  Hypothesis Hpos : Forall (fun c => 0 < fst c) craters.
  Hypothesis Hfr : Forall (fun c => 0 < snd c) craters.
  Hypothesis HA : apply_binning craters b off = Ok (bd, ri).

  Lemma select_edges i j k : (i <= j < length (b_dmin bd))%nat -> (k < length (b_dmin bd))%nat ->
    Rltb (nth i (b_dmin bd) 0) (nth k (b_dmean bd) 0) && R_ltb_ext (nth k (b_dmean bd) 0) (Fin (nth j (b_dmax bd) 0))
    = Nat.leb i k && Nat.leb k j.
  Proof.
    intros Hij Hk. pose proof (apply_binning_good _ _ _ _ _ Hb Hne Hpos HA) as G.
    destruct (mean_inside bd G k Hk) as [M1 M2]. pose proof (lo_pos bd G k Hk) as Hp.
    pose proof (lo_hi bd G k Hk) as Hlh.
    cbn [R_ltb_ext].
    assert (E1 : Rltb (nth i (b_dmin bd) 0) (nth k (b_dmean bd) 0) = Nat.leb i k).
    { destruct (Nat.leb_spec i k).
      - apply Rltb_true. pose proof (lo_le bd G i k ltac:(lia)). lra.
      - apply Rltb_false. pose proof (hi_lo bd G k i ltac:(lia)). lra. }
    assert (E2 : Rltb (nth k (b_dmean bd) 0) (nth j (b_dmax bd) 0) = Nat.leb k j).
    { destruct (Nat.leb_spec k j).
      - apply Rltb_true. pose proof (hi_le bd G k j ltac:(lia)). lra.
      - apply Rltb_false. pose proof (hi_lo bd G j k ltac:(lia)). lra. }
    rewrite E1, E2. reflexivity.
  Qed.

  Lemma sum_window (F : nat -> R) n i j : (i <= j < n)%nat ->
    Rsum (map (fun k => if Nat.leb i k && Nat.leb k j then F k else 0) (seq 0 n)) = Rsum (map F (seq i (S j - i))).
  Proof.
    intros Hij. replace n with (i + ((S j - i) + (n - S j)))%nat at 1 by lia.
    rewrite !seq_app, !map_app, !Rsum_app. cbn [Nat.add].
    rewrite (Rsum_zero (map _ (seq 0 i))).
    2:{ apply Forall_map, Forall_forall. intros k Hk. apply in_seq in Hk.
        destruct (Nat.leb_spec i k); [lia|reflexivity]. }
    rewrite (Rsum_zero (map _ (seq (i + (S j - i)) _))).
    2:{ apply Forall_map, Forall_forall. intros k Hk. apply in_seq in Hk.
        destruct (Nat.leb_spec i k); [|reflexivity]. destruct (Nat.leb_spec k j); [lia|reflexivity]. }
    rewrite Rplus_0_l, Rplus_0_r. f_equal. apply map_ext_in. intros k Hk. apply in_seq in Hk.
    destruct (Nat.leb_spec i k); [|lia]. destruct (Nat.leb_spec k j); [reflexivity|lia].
  Qed.

  Theorem selected_counts i j : (i <= j < length (b_dmin bd))%nat ->
    let lo := nth i (b_dmin bd) 0 in
    let hi := nth j (b_dmax bd) 0 in
    let q1 := select_range bd (where_pos (b_n bd)) lo (Fin hi) in
    Rsum (map (fun k => nth k (b_n bd) 0) q1) = fraction_between lo hi craters /\
    Rsum (map (fun k => nth k (b_nevent bd) 0) q1) = INR (number_between lo hi craters).
  Proof.
    intros Hij lo hi q1.
    destruct (apply_binning_spec craters b off Hb Hne Hpos)
      as (z0 & n & bd' & ri' & HA' & HG & Hmin & Hmax & Hcov & Hw & Hm & Hn & He & Hc & Hce & Hri).
    rewrite HA in HA'. injection HA' as <- _.
    assert (Hlen : length (b_dmin bd) = S n) by (rewrite Hmin; apply grid_points_length).
    assert (Hlenn : length (b_n bd) = S n) by (rewrite Hn, map_length, seq_length; reflexivity).
    assert (Hlene : length (b_nevent bd) = S n) by (rewrite He, map_length, seq_length; reflexivity).
    rewrite Hlen in Hij.
    assert (Gn : forall k, (k < S n)%nat -> nth k (b_n bd) 0 =
       fraction_between (grid b off (z0 + Z.of_nat k)) (grid b off (z0 + Z.of_nat k + 1)) craters).
    { intros. rewrite Hn. rewrite nth_map_seq by assumption. reflexivity. }
    assert (Ge : forall k, (k < S n)%nat -> nth k (b_nevent bd) 0 =
       INR (number_between (grid b off (z0 + Z.of_nat k)) (grid b off (z0 + Z.of_nat k + 1)) craters)).
    { intros. rewrite He. rewrite nth_map_seq by assumption. reflexivity. }
    assert (Hnn : forall k, (k < S n)%nat -> 0 <= nth k (b_n bd) 0).
    { intros k Hk. rewrite Gn by assumption. apply fraction_between_nonneg. assumption. }
    assert (Elo : lo = grid b off (z0 + Z.of_nat i)) by (unfold lo; rewrite Hmin; apply grid_points_nth; lia).
    assert (Ehi : hi = grid b off (z0 + Z.of_nat i + Z.of_nat (S (j - i)))).
    { unfold hi. rewrite Hmax. rewrite grid_points_nth by lia. f_equal. lia. }
    assert (Q : q1 = filter (fun k => Nat.leb i k && Nat.leb k j) (where_pos_from 0 (b_n bd))).
    { unfold q1, select_range, where_pos. apply filter_ext_in. intros k Hk. apply where_pos_from_In in Hk.
      apply select_edges; rewrite Hlen; lia. }
    assert (S1 : forall w, length w = S n -> (forall k, (k < S n)%nat -> ~ 0 < nth k (b_n bd) 0 -> nth k w 0 = 0) ->
       Rsum (map (fun k => nth k w 0) q1) = Rsum (map (fun k => nth k w 0) (seq i (S j - i)))).
    { intros w Hlw Hz. rewrite Q.
      pose proof (sum_selected (b_n bd) w (fun k => Nat.leb i k && Nat.leb k j) 0 ltac:(lia)) as SS.
      rewrite Hlenn in SS. specialize (SS Hz).
      erewrite map_ext; [|intros; rewrite <- (Nat.sub_0_r a) at 1; reflexivity].
      rewrite SS. rewrite <- (sum_window (fun k => nth k w 0) (S n) i j Hij).
      f_equal. apply map_ext. intros k. rewrite Nat.sub_0_r. reflexivity. }
    replace (S j - i)%nat with (S (j - i)) in S1 by lia.
    split.
    - rewrite S1; [|assumption|intros k Hk Hz; specialize (Hnn k Hk); lra].
      rewrite Rsum_map_seq_split.
      rewrite Elo, Ehi. rewrite <- (Rsum_fraction_bins b off (z0 + Z.of_nat i) (j - i) craters Hb).
      f_equal. apply map_ext_in. intros k Hk. apply in_seq in Hk. rewrite Gn by lia. f_equal; f_equal; lia.
    - rewrite S1; [|assumption|].
      2:{ intros k Hk Hz. rewrite Gn in Hz by assumption. rewrite Ge by assumption.
          rewrite number_zero_of_fraction by assumption. reflexivity. }
      rewrite Rsum_map_seq_split. rewrite Elo, Ehi. rewrite <- fraction_ones.
      rewrite <- (Rsum_fraction_bins b off (z0 + Z.of_nat i) (j - i) _ Hb).
      f_equal. apply map_ext_in. intros k Hk. apply in_seq in Hk. rewrite Ge by lia. rewrite fraction_ones.
      f_equal. f_equal; f_equal; lia.
  Qed.
End Selected.
