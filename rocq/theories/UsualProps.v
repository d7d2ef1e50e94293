(** C123: counts up to 100000 craters have likelihoods that are not negligible. *)
From Coq Require Import String List ZArith Reals Lra Lia Bool.
From Verif Require Import Base NumModel NumLemmas BinModel InterpProofs ChronModel ChronSpec ChronProofs ChronProps PdfModel PdfSpec PdfProofs PdfProps MonoProofs MonoProps.
Import ListNotations.
Local Open Scope R_scope.

Lemma ln10_le : ln 10 <= 264 / 100.
Proof.
  apply Rnot_lt_le. intros X. apply exp_increasing in X. rewrite exp_ln in X by lra. revert X. apply Rle_not_lt. replace (264 / 100) with (INR 16 * (165 / 1000)) by (rewrite INR_IZR_INZ; change (IZR (Z.of_nat 16)) with 16; lra).
  assert (P : forall n x, exp (INR n * x) = exp x ^ n).
  { induction n as [|n IH]; intros x; [cbn; rewrite Rmult_0_l; apply exp_0|]. rewrite S_INR, Rmult_plus_distr_r, Rmult_1_l, exp_plus, IH. cbn [pow]. ring. }
  rewrite P. apply Rle_trans with ((1165 / 1000) ^ 16); [lra|]. apply pow_incr. split; [lra|]. pose proof (exp_ineq1_le (165 / 1000)). lra.
Qed.
Lemma step_le n : (5000 <= n)%nat -> pow10 (15 / INR (n - 1)) <= 1008 / 1000.
Proof.
  intros Hn. assert (I : 4999 <= INR (n - 1)).
  { replace 4999 with (INR (Z.to_nat 4999)) by (rewrite INR_IZR_INZ, Z2Nat.id by lia; reflexivity). apply le_INR. lia. }
  assert (Y : 15 / INR (n - 1) * ln 10 <= 793 / 100000).
  { apply Rle_trans with (15 / 4999 * (264 / 100)); [|lra]. apply Rmult_le_compat; [apply Rmult_le_pos; [lra|left; apply Rinv_0_lt_compat; lra]| | |exact ln10_le].
    - rewrite <- ln_1. left. apply ln_increasing; lra.
    - unfold Rdiv. apply Rmult_le_compat_l; [lra|]. apply Rinv_le_contravar; lra. }
  unfold pow10. set (y := 15 / INR (n - 1) * ln 10) in *. pose proof (exp_ineq1_le (- y)) as E. rewrite exp_Ropp in E. pose proof (exp_pos y) as P. apply (Rmult_le_reg_r (/ exp y)); [now apply Rinv_0_lt_compat|]. rewrite Rinv_r by lra. lra.
Qed.
(** e n^(n+1) <= (n+1)^(n+1) *)
Lemma stirling k : (1 <= k)%nat -> INR (fact k) * exp (INR k) <= exp 1 * INR k ^ S k.
Proof.
  intros H. destruct k as [|k]; [lia|]. clear H. induction k as [|k IH]; [cbn; lra|].
  set (m := S k) in *. assert (Pm : 0 < INR m) by (apply lt_0_INR; unfold m; lia). change (fact (S m)) with (S m * fact m)%nat. rewrite mult_INR, S_INR, exp_plus.
  assert (G : exp 1 * INR m ^ S m <= (INR m + 1) ^ S m).
  { assert (D : exp 1 <= ((INR m + 1) / INR m) ^ S m).
    { assert (B : (INR m + 1) / INR m = exp (ln ((INR m + 1) / INR m))) by (rewrite exp_ln; [reflexivity|apply Rmult_lt_0_compat; [lra|now apply Rinv_0_lt_compat]]).
      assert (P : forall n x, exp x ^ n = exp (INR n * x)).
      { induction n as [|n IHn]; intros x; [cbn; rewrite Rmult_0_l; now rewrite exp_0|]. rewrite S_INR, Rmult_plus_distr_r, Rmult_1_l, exp_plus, <- IHn. cbn [pow]. ring. }
      rewrite B, P, S_INR. set (l := ln ((INR m + 1) / INR m)).
      assert (L : / (INR m + 1) <= l).
      { assert (Q : exp (- l) = INR m / (INR m + 1)) by (rewrite exp_Ropp; unfold l; rewrite <- B; field; lra). pose proof (exp_ineq1_le (- l)) as E. rewrite Q in E. replace (INR m / (INR m + 1)) with (1 - / (INR m + 1)) in E by (field; lra). lra. }
      assert (1 <= (INR m + 1) * l). { apply Rle_trans with ((INR m + 1) * / (INR m + 1)); [rewrite Rinv_r by lra; lra|]. apply Rmult_le_compat_l; lra. }
      destruct (Rle_lt_or_eq_dec 1 ((INR m + 1) * l) H) as [X|X]; [left; now apply exp_increasing|rewrite <- X; lra]. }
    apply Rle_trans with (((INR m + 1) / INR m) ^ S m * INR m ^ S m); [apply Rmult_le_compat_r; [apply pow_le; lra|exact D]|]. rewrite <- Rpow_mult_distr. right. f_equal. field. lra. }
  replace ((INR m + 1) * INR (fact m) * (exp (INR m) * exp 1)) with ((INR m + 1) * exp 1 * (INR (fact m) * exp (INR m))) by ring.
  apply Rle_trans with ((INR m + 1) * exp 1 * (exp 1 * INR m ^ S m)); [apply Rmult_le_compat_l; [apply Rmult_le_pos; [lra|left; apply exp_pos]|exact IH]|].
  replace (exp 1 * (INR m + 1) ^ S (S m)) with ((INR m + 1) * exp 1 * (INR m + 1) ^ S m) by (cbn [pow]; ring). apply Rmult_le_compat_l; [apply Rmult_le_pos; [lra|left; apply exp_pos]|exact G].
Qed.

Lemma pmf_near k lam : (1 <= k)%nat -> (k <= 100 * 1000)%nat -> INR k / (1008 / 1000) <= lam <= INR k -> / 10 ^ 11 <= lam ^ k * exp (- lam) / INR (fact k).
Proof.
  intros H1 H2 [L1 L2]. assert (Pk : 1 <= INR k) by (apply (le_INR 1) in H1; exact H1).
  assert (Uk : INR k <= 100000). { apply le_INR in H2. rewrite mult_INR in H2. rewrite (INR_IZR_INZ 100), (INR_IZR_INZ 1000) in H2. change (IZR (Z.of_nat 100)) with 100 in H2. change (IZR (Z.of_nat 1000)) with 1000 in H2. lra. }
  assert (Pl : 0 < lam) by lra. set (r := lam / INR k). assert (Er : lam = INR k * r) by (unfold r; field; lra).
  assert (R1 : 1000 / 1008 <= r <= 1). { rewrite Er in L1, L2. split; [apply (Rmult_le_reg_l (INR k)); lra|apply (Rmult_le_reg_l (INR k)); lra]. }
  assert (P : forall n x, exp x ^ n = exp (INR n * x)).
  { induction n as [|n IHn]; intros x; [cbn; rewrite Rmult_0_l; now rewrite exp_0|]. rewrite S_INR, Rmult_plus_distr_r, Rmult_1_l, exp_plus, <- IHn. cbn [pow]. ring. }
  (* the power and the exponential together *)
  assert (Q : INR k ^ k * exp (- INR k) * exp (- (10)) <= lam ^ k * exp (- lam)).
  { rewrite Er at 1. rewrite Rpow_mult_distr. replace r with (exp (ln r)) at 1 by (apply exp_ln; lra). rewrite P, !Rmult_assoc, <- !exp_plus. apply Rmult_le_compat_l; [apply pow_le; lra|].
    assert (L : 1 - / r <= ln r). { pose proof (exp_ineq1_le (- ln r)) as E. rewrite exp_Ropp, exp_ln in E by lra. lra. }
    assert (I : / r <= 1008 / 1000). { replace (1008 / 1000) with (/ (1000 / 1008)) by (field). apply Rinv_le_contravar; lra. }
    assert (M : - (1 / 10000) <= ln r + 1 - r). { apply Rle_trans with (2 - / r - r); [|lra]. assert (X : / r * r = 1) by (apply Rinv_l; lra). assert (Y : 1 <= / r) by (rewrite <- Rinv_1; apply Rinv_le_contravar; lra). nra. }
    assert (Z : - INR k + - (10) <= INR k * ln r + - lam). { rewrite Er. assert (INR k * - (1 / 10000) <= INR k * (ln r + 1 - r)) by (apply Rmult_le_compat_l; lra). lra. }
    destruct Z as [Z|Z]; [left; now apply exp_increasing|right; now rewrite Z]. }
  pose proof (stirling k H1) as S1. pose proof (INR_fact_lt_0 k) as F. pose proof (exp_pos (INR k)) as Ek.
  assert (T : / (3 * 100000) <= INR k ^ k * exp (- INR k) / INR (fact k)).
  { rewrite exp_Ropp. apply (Rmult_le_reg_r (INR (fact k) * exp (INR k))); [now apply Rmult_lt_0_compat|]. replace (INR k ^ k * / exp (INR k) / INR (fact k) * (INR (fact k) * exp (INR k))) with (INR k ^ k) by (field; split; lra).
    apply Rle_trans with (/ (3 * 100000) * (exp 1 * INR k ^ S k)); [apply Rmult_le_compat_l; [left; apply Rinv_0_lt_compat; lra|exact S1]|]. cbn [pow]. replace (/ (3 * 100000) * (exp 1 * (INR k * INR k ^ k))) with ((exp 1 / 3) * (INR k / 100000) * INR k ^ k) by (field).
    rewrite <- (Rmult_1_l (INR k ^ k)) at 2. apply Rmult_le_compat_r; [apply pow_le; lra|]. apply Rle_trans with (1 * 1); [|lra]. pose proof exp_le_3. pose proof (exp_pos 1). apply Rmult_le_compat; lra. }
  assert (E10 : / 3 ^ 10 <= exp (- (10))).
  { rewrite exp_Ropp. apply Rinv_le_contravar; [apply exp_pos|]. replace 10 with (INR 10 * 1) at 1 by (rewrite INR_IZR_INZ; change (IZR (Z.of_nat 10)) with 10; lra). rewrite <- P. apply pow_incr. pose proof exp_le_3. pose proof (exp_pos 1). lra. }
  apply Rle_trans with (/ (3 * 100000) * / 3 ^ 10); [lra|]. apply Rle_trans with (INR k ^ k * exp (- INR k) / INR (fact k) * exp (- (10))); [apply Rmult_le_compat; lra|].
  replace (INR k ^ k * exp (- INR k) / INR (fact k) * exp (- (10))) with (INR k ^ k * exp (- INR k) * exp (- (10)) / INR (fact k)) by (unfold Rdiv; ring). apply Rmult_le_compat_r; [left; now apply Rinv_0_lt_compat|exact Q].
Qed.

Lemma pow10_m30 : pow10 (-30) = / 10 ^ 30.
Proof.
  apply (Rmult_eq_reg_r (10 ^ 30)); [|apply pow_nonzero; lra]. rewrite Rinv_l by (apply pow_nonzero; lra). rewrite <- (pow10_nat 30) at 1. rewrite <- pow10_plus.
  rewrite INR_IZR_INZ. change (IZR (Z.of_nat 30)) with 30. replace (-30 + 30) with 0 by lra. apply pow10_0.
Qed.
Lemma term_le f n i : (forall j, 0 <= f j) -> (i < n)%nat -> f i <= sum_to f n.
Proof.
  intros Hf. induction n as [|n IH]; intros H; [lia|]. cbn [sum_to]. assert (N : forall m, 0 <= sum_to f m) by (induction m as [|m IHm]; [cbn; lra|cbn [sum_to]; pose proof (Hf m); lra]).
  destruct (Nat.eq_dec i n) as [->|D]; [pose proof (N n); lra|]. specialize (IH ltac:(lia)). pose proof (Hf n). lra.
Qed.
Lemma first_index (f : nat -> R) (c : R) n : (0 < n)%nat -> c <= f (n - 1)%nat -> exists j, (j < n)%nat /\ c <= f j /\ forall i, (i < j)%nat -> f i < c.
Proof.
  intros Hn Hl. assert (G : forall m, (m <= n)%nat -> (forall i, (i < m)%nat -> f i < c) \/ exists j, (j < n)%nat /\ c <= f j /\ forall i, (i < j)%nat -> f i < c).
  { induction m as [|m IH]; intros L; [left; intros; lia|]. destruct (IH ltac:(lia)) as [B|B]; [|now right]. destruct (Rlt_le_dec (f m) c) as [D|D]; [left|right; exists m; repeat split; auto; lia].
    intros i Hi. destruct (Nat.eq_dec i m) as [->|N]; [exact D|apply B; lia]. }
  destruct (G n (le_n _)) as [B|B]; [|exact B]. specialize (B (n - 1)%nat ltac:(lia)). lra.
Qed.
Lemma sample_first n : sample n 0 = -10. Proof. unfold sample. cbn [INR]. lra. Qed.
Lemma sample_last n : (2 <= n)%nat -> sample n (n - 1) = 5.
Proof. intros H. unfold sample. assert (0 < INR (n - 1)) by (apply lt_0_INR; lia). field_simplify; lra. Qed.
Lemma sample_next n i : sample n (S i) = sample n i + 15 / INR (n - 1).
Proof. unfold sample. rewrite S_INR. lra. Qed.

(** up to 100000 craters, and as many expected somewhere on the density axis *)
Theorem C123_usual_counts :
  forall cf C area lo hi k n, positive_coefficients cf -> range_ok cf C area lo hi -> (5000 <= n)%nat ->
    / 10 ^ 18 <= ch_p0 cf * ch_p1 cf + ch_p3 cf -> (k <= 100 * 1000)%nat ->
    expected_craters cf C area lo hi (-10) <= Rmax 1 (INR k) -> INR k <= expected_craters cf C area lo hi 5 ->
    usual cf C area lo hi k n.
Proof.
  intros cf C area lo hi k n Hc Hr Hn Ph Hk E1 E2. unfold usual.
  assert (PH : forall t, 0 <= t -> / 10 ^ 18 <= phi cf t).
  { intros t Ht. destruct Hc as (Q1 & Q2 & Q3). unfold phi. apply Rle_trans with (1 := Ph). assert (1 <= exp (ch_p1 cf * t)). { rewrite <- exp_0. assert (X : 0 <= ch_p1 cf * t) by (apply Rmult_le_pos; lra). destruct X as [X|X]; [left; now apply exp_increasing|rewrite <- X; lra]. }
    assert (0 < ch_p1 cf * ch_p0 cf) by (apply Rmult_lt_0_compat; lra). nra. }
  assert (PS : forall i, / 10 ^ 18 <= phi cf (sample_age cf (sample n i))) by (intros i; apply PH; unfold sample_age; apply cf_t_range; exact Hc).
  assert (LP : forall i, 0 <= likelihood cf C area lo hi k n i).
  { intros i. left. unfold likelihood. apply Rmult_lt_0_compat; [|now apply phi_pos]. apply pmf_pos. now apply expected_pos. }
  assert (X : exists i, (i < n)%nat /\ / 10 ^ 11 <= expected_craters cf C area lo hi (sample n i) ^ k * exp (- expected_craters cf C area lo hi (sample n i)) / INR (fact k)).
  { destruct (Nat.eq_dec k 0) as [->|Nk].
    - exists 0%nat. split; [lia|]. rewrite sample_first. cbn [pow fact INR] in *. rewrite Rmax_left in E1 by lra. set (e := expected_craters cf C area lo hi (-10)) in *. assert (exp (- (1)) <= exp (- e)). { destruct E1 as [E1|E1]; [left; apply exp_increasing; lra|rewrite E1; lra]. }
      assert (/ 3 <= exp (- (1))). { rewrite exp_Ropp. apply Rinv_le_contravar; [apply exp_pos|exact exp_le_3]. } lra.
    - assert (P1 : 1 <= INR k) by (change 1 with (INR 1); apply le_INR; lia). rewrite Rmax_right in E1 by exact P1.
      destruct (first_index (fun i => expected_craters cf C area lo hi (sample n i)) (INR k) n ltac:(lia)) as (j & J1 & J2 & J3); [rewrite sample_last by lia; exact E2|].
      destruct j as [|j].
      + exists 0%nat. split; [lia|]. rewrite sample_first in *. apply pmf_near; [lia|exact Hk|]. assert (J4 : expected_craters cf C area lo hi (-10) = INR k) by lra. rewrite J4. lra.
      + exists j. split; [lia|]. apply pmf_near; [lia|exact Hk|]. split; [|left; apply J3; lia]. specialize (J3 j ltac:(lia)).
        assert (T : expected_craters cf C area lo hi (sample n (S j)) = expected_craters cf C area lo hi (sample n j) * pow10 (15 / INR (n - 1))). { rewrite sample_next. unfold expected_craters. rewrite pow10_plus. ring. }
        rewrite T in J2. pose proof (step_le n Hn) as SL. pose proof (expected_pos cf C area lo hi Hr (sample n j)) as EP.
        apply (Rmult_le_reg_r (1008 / 1000)); [lra|]. unfold Rdiv at 1. rewrite Rmult_assoc, Rinv_l, Rmult_1_r by lra. apply Rle_trans with (1 := J2). apply Rmult_le_compat_l; lra. }
  destruct X as (i & Hi & X). apply Rle_trans with (likelihood cf C area lo hi k n i); [|now apply term_le].
  unfold likelihood. cbv zeta. apply Rle_trans with (/ 10 ^ 11 * / 10 ^ 18); [|apply Rmult_le_compat; try apply PS; try exact X; left; apply Rinv_0_lt_compat; apply pow_lt; lra].
  rewrite pow10_m30. rewrite <- Rinv_mult, <- pow_add. apply Rinv_le_contravar; [apply pow_lt; lra|]. apply Rle_pow; [lra|lia].
Qed.

(** it holds for the example of C123 with 5000 samples *)
Example C123_usual_counts_met : usual neukum83 ex_C 1000 1 2 2 5000.
Proof.
  destruct C12_hypotheses_met as (Hc & Hr & _). pose proof ex_expected as X.
  assert (E : forall u, expected_craters neukum83 ex_C 1000 1 2 u = expected_at_1Ga neukum83 ex_C 1000 1 2 * pow10 u) by (intros u; unfold expected_at_1Ga, expected_craters; rewrite pow10_0; ring).
  apply C123_usual_counts; [exact Hc|exact Hr|lia|unfold neukum83; cbn [ch_p0 ch_p1 ch_p3]; lra|lia| |].
  - rewrite E. apply Rle_trans with 1; [|apply Rmax_l]. assert (pow10 (-10) <= 1) by (rewrite <- pow10_0; apply pow10_le; lra). pose proof (pow10_pos (-10)). nra.
  - rewrite E. assert (10 <= pow10 5) by (rewrite <- pow10_1 at 1; apply pow10_le; lra). replace (INR 2) with 2 by (cbn; lra). nra.
Qed.
Print Assumptions C123_usual_counts.
