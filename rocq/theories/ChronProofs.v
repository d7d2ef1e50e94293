From Coq Require Import List ZArith Reals Lra Lia Bool Sorted.
From Verif Require Import Base NumModel NumLemmas InterpProofs ChronModel ChronSpec.
Import ListNotations.
Local Open Scope R_scope.

Lemma ts_length : length cf_ts = 1000%nat.
Proof. apply linspace_length. Qed.
Lemma ts_nth i : (i < 1000)%nat -> nth i cf_ts 0 = 5 * INR i / 999.
Proof.
  intros H. unfold cf_ts. rewrite linspace_nth by exact H.
  replace (INR (t_steps - 1)) with 999; [lra|].
  unfold t_steps. rewrite INR_IZR_INZ. change (Z.of_nat (1000 - 1)) with 999%Z. reflexivity.
Qed.
Lemma ts_sorted : StronglySorted Rlt cf_ts.
Proof. apply linspace_sorted. lra. Qed.
Global Opaque cf_ts.

Section Positive.
Context (c : chron) (Hc : positive_coefficients c).

Lemma N1_zero : N1 c 0 = 0.
Proof. unfold N1. rewrite Rmult_0_r, exp_0. lra. Qed.
Lemma N1_lt t u : t < u -> N1 c t < N1 c u.
Proof.
  intros H. destruct Hc as (H0 & H1 & H3). unfold N1.
  assert (exp (ch_p1 c * t) < exp (ch_p1 c * u)) by (apply exp_increasing; nra). nra.
Qed.
Lemma N1_le t u : t <= u -> N1 c t <= N1 c u.
Proof. intros [H|H]; [left; now apply N1_lt|subst; lra]. Qed.
Lemma N1_le_inv t u : N1 c t <= N1 c u -> t <= u.
Proof. intros H. destruct (Rle_lt_dec t u) as [L|L]; [exact L|]. pose proof (N1_lt u t L). lra. Qed.
Lemma N1_lt_inv t u : N1 c t < N1 c u -> t < u.
Proof. intros H. destruct (Rlt_le_dec t u) as [L|L]; [exact L|]. pose proof (N1_le u t L). lra. Qed.
Lemma N1_pos t : 0 < t -> 0 < N1 c t.
Proof. intros H. rewrite <- N1_zero. now apply N1_lt. Qed.
Lemma phi_pos t : 0 < phi c t.
Proof.
  destruct Hc as (H0 & H1 & H3). unfold phi. pose proof (exp_pos (ch_p1 c * t)).
  assert (0 < ch_p1 c * ch_p0 c) by nra. nra.
Qed.
Lemma N1_tangent t s : N1 c t + phi c t * (s - t) <= N1 c s.
Proof.
  destruct Hc as (H0 & H1 & H3). unfold N1, phi.
  assert (E : exp (ch_p1 c * s) = exp (ch_p1 c * t) * exp (ch_p1 c * (s - t))).
  { rewrite <- exp_plus. f_equal. ring. }
  rewrite E. pose proof (exp_pos (ch_p1 c * t)) as P.
  pose proof (exp_ineq1_le (ch_p1 c * (s - t))) as I.
  assert (0 <= ch_p0 c * exp (ch_p1 c * t) * (exp (ch_p1 c * (s - t)) - (1 + ch_p1 c * (s - t)))).
  { apply Rmult_le_pos; [|lra]. apply Rmult_le_pos; lra. }
  nra.
Qed.

Lemma table_length : length (cf_table c) = 1000%nat.
Proof. unfold cf_table. now rewrite map_length, ts_length. Qed.
Lemma table_fst : map fst (cf_table c) = map (N1 c) cf_ts.
Proof. unfold cf_table. rewrite map_map. reflexivity. Qed.
Lemma table_snd : map snd (cf_table c) = cf_ts.
Proof. unfold cf_table. rewrite map_map. cbn. apply map_id. Qed.
Lemma table_nth i : (i < 1000)%nat -> nth i (cf_table c) (0, 0) = (N1 c (nth i cf_ts 0), nth i cf_ts 0).
Proof.
  intros H. unfold cf_table. rewrite (nth_map_lt _ _ _ 0) by (now rewrite ts_length). reflexivity.
Qed.
Lemma table_sorted_x : StronglySorted Rlt (map fst (cf_table c)).
Proof. rewrite table_fst. eapply SS_map; [|exact ts_sorted]. apply N1_lt. Qed.
Lemma table_sorted_y : StronglySorted Rlt (map snd (cf_table c)).
Proof. rewrite table_snd. exact ts_sorted. Qed.
Lemma table_nonempty : cf_table c <> [].
Proof. intros E. pose proof table_length as L. rewrite E in L. discriminate. Qed.
Lemma table_0 : nth 0 (cf_table c) (0, 0) = (0, 0).
Proof.
  rewrite table_nth by lia. rewrite ts_nth by lia. cbn [INR].
  replace (5 * 0 / 999) with 0 by lra. now rewrite N1_zero.
Qed.
Lemma table_last : nth (length (cf_table c) - 1) (cf_table c) (0, 0) = (N1 c 5, 5).
Proof.
  rewrite table_length, table_nth by lia. rewrite ts_nth by lia.
  replace (5 * INR (1000 - 1) / 999) with 5; [reflexivity|].
  rewrite INR_IZR_INZ. change (Z.of_nat (1000 - 1)) with 999%Z. lra.
Qed.

Lemma cf_t_ok n : interp n (cf_table c) = Ok (cf_t c n).
Proof. unfold cf_t. destruct (interp_total n _ table_nonempty) as [y E]. now rewrite E. Qed.

Lemma cf_t_mono n m : n <= m -> cf_t c n <= cf_t c m.
Proof.
  intros H. apply (interp_mono (cf_table c) n m); auto using SS_lt_le, table_sorted_x, table_sorted_y, cf_t_ok.
Qed.
Lemma cf_t_range n : 0 <= cf_t c n <= 5.
Proof.
  pose proof (interp_range (cf_table c) n _ (SS_lt_le _ table_sorted_x) (SS_lt_le _ table_sorted_y) (cf_t_ok n)) as B.
  rewrite table_0, table_last in B. exact B.
Qed.
Lemma cf_t_lt n m : 0 <= n < m -> n < N1 c 5 -> cf_t c n < cf_t c m.
Proof.
  intros H1 H2. apply (interp_lt (cf_table c) n m); auto using table_sorted_x, table_sorted_y, cf_t_ok.
  - lra.
  - rewrite table_0. cbn. lra.
  - rewrite table_last. exact H2.
Qed.
Lemma cf_t_beyond n : N1 c 5 <= n -> cf_t c n = 5.
Proof.
  intros H. assert (E := interp_beyond (cf_table c) n (SS_lt_le _ table_sorted_x) table_nonempty).
  rewrite table_last in E. specialize (E H). rewrite cf_t_ok in E. now injection E.
Qed.
Lemma cf_t_below n : n <= 0 -> cf_t c n = 0.
Proof.
  intros H. assert (B := cf_t_range n). destruct (Rle_lt_or_eq_dec _ _ H) as [L|L].
  - assert (E := interp_below (cf_table c) n table_nonempty).
    rewrite table_0 in E. specialize (E L). rewrite cf_t_ok in E. now injection E.
  - subst n. assert (E := interp_at (cf_table c) 0 0 (SS_lt_le _ table_sorted_x)).
    rewrite table_length in E. specialize (E ltac:(lia)). rewrite table_0 in E. cbn [fst snd] in E.
    rewrite cf_t_ok in E. assert (G : fst (nth 1 (cf_table c) (0, 0)) > 0).
    { rewrite table_nth by lia. cbn [fst]. apply N1_pos. rewrite ts_nth by lia. cbn [INR]. lra. }
    specialize (E ltac:(lra)). injection E as E. rewrite E. lra.
Qed.

(** the table segment containing an age *)
Lemma age_segment t : 0 <= t <= 5 ->
  exists lo hi, lo <= t <= hi /\ hi - lo <= age_step /\ table_age lo /\
    lo <= cf_t c (N1 c t) <= hi /\ cf_t c (N1 c t) <= t /\ (lo = t -> cf_t c (N1 c t) = t).
Proof.
  intros Ht.
  destruct (interp_segment (cf_table c) (N1 c t) (SS_lt_le _ table_sorted_x) table_nonempty) as (j & J1 & J2 & J3 & J4).
  { rewrite table_0. cbn. rewrite <- N1_zero. apply N1_le. lra. }
  rewrite table_length in *. rewrite cf_t_ok in *.
  destruct (Nat.eq_dec (S j) 1000) as [E|E].
  - specialize (J4 E). injection J4 as J4. assert (j = 999)%nat by lia. subst j.
    rewrite table_nth in * by lia. cbn [fst snd] in *. apply N1_le_inv in J2.
    assert (E5 : nth 999 cf_ts 0 = 5).
    { rewrite ts_nth by lia. rewrite INR_IZR_INZ. change (Z.of_nat 999) with 999%Z. lra. }
    rewrite E5 in *. exists 5, 5. unfold age_step. rewrite J4.
    repeat split; try lra. exists 999%nat. split; [lia|]. rewrite <- E5 at 1. apply ts_nth. lia.
  - destruct (J3 ltac:(lia)) as [A B]. injection B as B.
    rewrite !table_nth in * by lia. cbn [fst snd] in *. apply N1_le_inv in J2. apply N1_lt_inv in A.
    assert (St : nth (S j) cf_ts 0 - nth j cf_ts 0 = age_step).
    { unfold age_step. rewrite !ts_nth by lia. rewrite S_INR. lra. }
    assert (TA : table_age (nth j cf_ts 0)).
    { exists j. split; [lia|]. apply ts_nth. lia. }
    set (lo := nth j cf_ts 0) in *. set (hi := nth (S j) cf_ts 0) in *.
    pose proof (N1_lt lo hi ltac:(lra)) as N. pose proof (N1_le lo t J2) as NL. pose proof (N1_lt t hi A) as NH.
    exists lo, hi. split; [lra|]. split; [lra|]. split; [exact TA|].
    split; [|split].
    + rewrite B. apply slope_bounds; lra.
    + rewrite B. pose proof (N1_tangent t lo) as T1. pose proof (N1_tangent t hi) as T2.
      assert (Ch : (hi - lo) * (N1 c t - N1 c lo) <= (t - lo) * (N1 c hi - N1 c lo)).
      { generalize dependent (phi c t). intros ph T1 T2.
        assert (0 <= (hi - t) * (N1 c lo - (N1 c t + ph * (lo - t)))) by (apply Rmult_le_pos; lra).
        assert (0 <= (t - lo) * (N1 c hi - (N1 c t + ph * (hi - t)))) by (apply Rmult_le_pos; lra).
        generalize dependent (N1 c t). generalize dependent (N1 c lo). generalize dependent (N1 c hi). intros; nra. }
      apply (Rmult_le_reg_r (N1 c hi - N1 c lo)); [lra|].
      replace ((lo + (hi - lo) / (N1 c hi - N1 c lo) * (N1 c t - N1 c lo)) * (N1 c hi - N1 c lo))
        with (lo * (N1 c hi - N1 c lo) + (hi - lo) * (N1 c t - N1 c lo)) by (field; lra).
      lra.
    + intros Elo. rewrite B, Elo, Rminus_diag_eq with (r1 := N1 c t) (r2 := N1 c t) by reflexivity. lra.
Qed.

Lemma cf_t_within t : 0 <= t <= 5 -> t - age_step <= cf_t c (N1 c t) <= t.
Proof. intros H. destruct (age_segment t H) as (lo & hi & A & B & _ & D & E & _). lra. Qed.

Lemma cf_t_exact t : table_age t -> cf_t c (N1 c t) = t.
Proof.
  intros (i & Hi & E).
  destruct (Nat.eq_dec i 999) as [->|N].
  - rewrite INR_IZR_INZ in E. change (Z.of_nat 999) with 999%Z in E. replace t with 5 by lra. apply cf_t_beyond. lra.
  - assert (A := interp_at (cf_table c) (N1 c t) i (SS_lt_le _ table_sorted_x)).
    rewrite table_length in A. specialize (A ltac:(lia)).
    rewrite !table_nth in A by lia. cbn [fst snd] in A. rewrite (ts_nth i) in A by lia. rewrite <- E in A.
    rewrite (ts_nth (S i)) in A by lia. rewrite cf_t_ok, S_INR in A.
    assert (L : t < 5 * (INR i + 1) / 999) by (subst t; lra).
    specialize (A (conj (Rle_refl _) (N1_lt _ _ L))). injection A as A. rewrite A.
    rewrite Rminus_diag_eq with (r1 := N1 c t) (r2 := N1 c t) by reflexivity. lra.
Qed.

Lemma a0_inverse t : 0 < t -> cf_t_a0 c (cf_a0 c t) = cf_t c (N1 c t).
Proof. intros H. unfold cf_t_a0, cf_a0. rewrite pow10_log10; [reflexivity|now apply N1_pos]. Qed.
End Positive.

Lemma N1_derivative c t : derivable_pt_lim (N1 c) t (phi c t).
Proof.
  unfold N1, phi.
  assert (D1 : derivable_pt_lim (fun t => ch_p1 c * t) t (ch_p1 c)).
  { pose proof (derivable_pt_lim_scal id (ch_p1 c) t 1 (derivable_pt_lim_id t)) as D.
    rewrite Rmult_1_r in D. exact D. }
  assert (D2 : derivable_pt_lim (fun t => exp (ch_p1 c * t)) t (exp (ch_p1 c * t) * ch_p1 c)).
  { apply (derivable_pt_lim_comp (fun t => ch_p1 c * t) exp); [exact D1|apply derivable_pt_lim_exp]. }
  assert (D3 : derivable_pt_lim (fun t => exp (ch_p1 c * t) - 1) t (exp (ch_p1 c * t) * ch_p1 c - 0)).
  { exact (derivable_pt_lim_minus _ _ _ _ _ D2 (derivable_pt_lim_const 1 t)). }
  assert (D4 : derivable_pt_lim (fun t => ch_p0 c * (exp (ch_p1 c * t) - 1)) t (ch_p0 c * (exp (ch_p1 c * t) * ch_p1 c - 0))).
  { exact (derivable_pt_lim_scal _ _ _ _ D3). }
  assert (D5 : derivable_pt_lim (fun t => ch_p3 c * t) t (ch_p3 c * 1)).
  { exact (derivable_pt_lim_scal id _ _ _ (derivable_pt_lim_id t)). }
  replace (ch_p1 c * ch_p0 c * exp (ch_p1 c * t) + ch_p3 c)
    with (ch_p0 c * (exp (ch_p1 c * t) * ch_p1 c - 0) + ch_p3 c * 1) by ring.
  exact (derivable_pt_lim_plus _ _ _ _ _ D4 D5).
Qed.
