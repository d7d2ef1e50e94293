(** C12-C16, C61 and the Poisson side of C09: Poisson age distributions.
    [craterpdf cf C area lo hi k n] is Craterpdf(pf, cf, cc, [lo,hi], k, n_samples=n) for a count
    with the given area and a production function whose cumulative density is [C d a0]. *)
From Coq Require Import String List ZArith Reals Lra Lia Bool.
From Verif Require Import Base NumModel NumLemmas BinModel BinSpec ApplyProofs BinProps CountModel CountSpec
  CountProofs CountProps InterpProofs ChronModel ChronSpec ChronProofs ChronProps PdfModel PdfSpec PdfProofs.
Import ListNotations.
Local Open Scope R_scope.

(** the production function decreases over the range and densities are positive *)
Definition range_ok (cf : chron) (C : R -> R -> R) (area lo hi : R) : Prop :=
  0 < area /\ 0 < C hi (cf_a0 cf 1) < C lo (cf_a0 cf 1).
(** sample i of the relative density axis: n values from -10 to 5 in log10 *)
Definition sample (n i : nat) : R := -10 + INR i * (15 / INR (n - 1)).
(** the number of craters expected on the surface when its density is 10^x times that at 1 Ga *)
Definition expected_craters (cf : chron) (C : R -> R -> R) (area lo hi x : R) : R :=
  (C lo (cf_a0 cf 1) - C hi (cf_a0 cf 1)) * area * pow10 x.
(** the age of such a surface *)
Definition sample_age (cf : chron) (x : R) : R := cf_t cf (N1 cf 1 * pow10 x).
(** Poisson likelihood of observing k craters, times the rate of cratering *)
Definition likelihood (cf : chron) (C : R -> R -> R) (area lo hi : R) (k n i : nat) : R :=
  let lam := expected_craters cf C area lo hi (sample n i) in
  lam ^ k * exp (- lam) / INR (fact k) * phi cf (sample_age cf (sample n i)).

Lemma sample_linspace n i : (i < n)%nat -> nth i (linspace (-10) 5 n) 0 = sample n i.
Proof. intros H. rewrite linspace_nth by exact H. unfold sample. do 3 f_equal. lra. Qed.

Section Setup.
Context (cf : chron) (C : R -> R -> R) (area lo hi : R) (k n : nat).
Context (Hc : positive_coefficients cf) (Hr : range_ok cf C area lo hi) (Hn : (2 <= n)%nat).
Let xs := linspace (-10) 5 n.
Let lam := lam_standard xs (C lo (cf_a0 cf 1)) (C hi (cf_a0 cf 1)) area.
Lemma lam_len : length lam = length (grid cf n).
Proof. unfold lam, lam_standard, xs. now rewrite map_length, linspace_length, grid_length. Qed.
Lemma lam_nth i : (i < n)%nat -> nth i lam 0 = expected_craters cf C area lo hi (sample n i).
Proof.
  intros H. destruct Hr as (_ & H1 & H2). unfold lam. rewrite lam_standard_nth; [|lra|lra|unfold xs; now rewrite linspace_length].
  unfold xs. now rewrite sample_linspace.
Qed.
Lemma expected_pos x : 0 < expected_craters cf C area lo hi x.
Proof.
  destruct Hr as (H0 & H1 & H2). unfold expected_craters. pose proof (pow10_pos x).
  apply Rmult_lt_0_compat; [apply Rmult_lt_0_compat|]; lra.
Qed.
Lemma like_nth i : (i < n)%nat -> like (grid cf n) lam (phi cf) k i = likelihood cf C area lo hi k n i.
Proof.
  intros H. unfold like, likelihood, poisson_pmf. rewrite lam_nth by exact H.
  rewrite grid_nth by assumption. rewrite sample_linspace by exact H. reflexivity.
Qed.
Lemma cases :
  (pow10 (-30) <= sum_to (likelihood cf C area lo hi k n) n ->
     exists p, craterpdf cf C area lo hi k n = Ok p /\ distribution p n /\ pdf_ts p = grid cf n /\
       exists c, 0 < c /\ forall i, (i < n)%nat -> nth i (pdf_pdf p) 0 = c * likelihood cf C area lo hi k n i) /\
  (sum_to (likelihood cf C area lo hi k n) n < pow10 (-30) ->
     ((forall i, (i < n)%nat -> expected_craters cf C area lo hi (sample n i) < INR k) ->
        craterpdf cf C area lo hi k n = Err IndexError) /\
     forall j, (j < n)%nat -> (forall i, (i < j)%nat -> expected_craters cf C area lo hi (sample n i) < INR k) ->
       INR k <= expected_craters cf C area lo hi (sample n j) ->
     exists p, craterpdf cf C area lo hi k n = Ok p /\ distribution p n /\ pdf_ts p = grid cf n /\
       exists c, 0 < c /\ nth j (pdf_pdf p) 0 = c /\
         forall i, (i < n)%nat -> i <> j -> nth i (pdf_pdf p) 0 = c * likelihood cf C area lo hi k n i).
Proof.
  assert (P := pdf_from_cases (grid cf n) lam (phi cf) k lam_len).
  pose proof (grid_length cf n) as GL. rewrite GL in P. specialize (P Hn ltac:(intros i j Hij; apply grid_mono; assumption)).
  pose proof (grid_grows cf Hc n Hn) as GG; rewrite GL in GG; specialize (P GG).
  specialize (P ltac:(intros i Hi; rewrite lam_nth by exact Hi; apply expected_pos) (phi_pos cf Hc)).
  rewrite (sum_to_ext _ (likelihood cf C area lo hi k n) n like_nth) in P.
  change (pdf_from (grid cf n) lam (phi cf) k) with (craterpdf cf C area lo hi k n) in P.
  destruct P as [P1 P2]. split.
  - intros S. destruct (P1 S) as (p & A & B & D & c & E & F). exists p. split; [exact A|]. split; [exact B|]. split; [exact D|].
    exists c. split; [exact E|]. intros i Hi. rewrite F by exact Hi. now rewrite like_nth.
  - intros S. destruct (P2 S) as [A B]. split.
    + intros Q. apply A. intros i Hi. rewrite lam_nth by exact Hi. now apply Q.
    + intros j Hj B1 B2. destruct (B j Hj) as (p & U & V & W & c & X & Y & Z).
      * intros i Hi. rewrite lam_nth by lia. now apply B1.
      * rewrite lam_nth by lia. exact B2.
      * exists p. split; [exact U|]. split; [exact V|]. split; [exact W|]. exists c. split; [exact X|]. split; [exact Y|].
        intros i Hi N. rewrite Z by assumption. now rewrite like_nth.
Qed.
(** first sample at which the expected number reaches k *)
Lemma first_reaching : (forall i, (i < n)%nat -> expected_craters cf C area lo hi (sample n i) < INR k) \/
  exists j, (j < n)%nat /\ (forall i, (i < j)%nat -> expected_craters cf C area lo hi (sample n i) < INR k) /\
       INR k <= expected_craters cf C area lo hi (sample n j).
Proof.
  assert (G : forall m, (m <= n)%nat -> (forall i, (i < m)%nat -> expected_craters cf C area lo hi (sample n i) < INR k) \/
     exists j, (j < n)%nat /\ (forall i, (i < j)%nat -> expected_craters cf C area lo hi (sample n i) < INR k) /\
       INR k <= expected_craters cf C area lo hi (sample n j)).
  { induction m as [|m IH]; intros L; [left; intros; lia|].
    destruct IH as [A|A]; [lia| |now right].
    destruct (Rlt_le_dec (expected_craters cf C area lo hi (sample n m)) (INR k)) as [D|D].
    - left. intros i Hi. destruct (Nat.eq_dec i m) as [->|N]; [exact D|apply A; lia].
    - right. exists m. repeat split; auto. }
  apply G. lia.
Qed.
Lemma outcome :
  (exists p, craterpdf cf C area lo hi k n = Ok p /\ distribution p n /\ pdf_ts p = grid cf n /\
     forall i, (i < n)%nat -> 0 < nth i (pdf_pdf p) 0) \/
  (craterpdf cf C area lo hi k n = Err IndexError /\
   sum_to (likelihood cf C area lo hi k n) n < pow10 (-30) /\
   forall i, (i < n)%nat -> expected_craters cf C area lo hi (sample n i) < INR k).
Proof.
  assert (LP : forall i, 0 < likelihood cf C area lo hi k n i).
  { intros i. unfold likelihood. apply Rmult_lt_0_compat; [|now apply phi_pos].
    apply pmf_pos. apply expected_pos. }
  destruct cases as [A B].
  destruct (Rle_lt_dec (pow10 (-30)) (sum_to (likelihood cf C area lo hi k n) n)) as [S|S].
  - left. destruct (A S) as (p & E & D & G & c & Pc & F). exists p. split; [exact E|]. split; [exact D|]. split; [exact G|].
    intros i Hi. rewrite F by exact Hi. apply Rmult_lt_0_compat; auto.
  - destruct (B S) as [B1 B2]. destruct first_reaching as [Q|(j & J1 & J2 & J3)].
    + right. split; [now apply B1|]. split; assumption.
    + left. destruct (B2 j J1 J2 J3) as (p & E & D & G & c & Pc & F1 & F2). exists p. split; [exact E|]. split; [exact D|]. split; [exact G|].
      intros i Hi. destruct (Nat.eq_dec i j) as [->|N]; [now rewrite F1|].
      rewrite F2 by assumption. apply Rmult_lt_0_compat; auto.
Qed.
End Setup.

(** ** C12 *)
Theorem C12_pdf_is_a_distribution :
  forall cf C area lo hi k n p, positive_coefficients cf -> range_ok cf C area lo hi -> (2 <= n)%nat ->
    craterpdf cf C area lo hi k n = Ok p -> distribution p n.
Proof.
  intros cf C area lo hi k n p Hc Hr Hn E.
  destruct (outcome cf C area lo hi k n Hc Hr Hn) as [(q & Eq & D & _)|(F & _)]; [|congruence].
  rewrite E in Eq. injection Eq as ->. exact D.
Qed.
(** it is the Poisson likelihood of the count times the cratering rate, normalised *)
Theorem C12_pdf_is_the_poisson_likelihood :
  forall cf C area lo hi k n, positive_coefficients cf -> range_ok cf C area lo hi -> (2 <= n)%nat ->
    pow10 (-30) <= sum_to (likelihood cf C area lo hi k n) n ->
    exists p c, craterpdf cf C area lo hi k n = Ok p /\ 0 < c /\
      forall i, (i < n)%nat ->
        nth i (pdf_ts p) 0 = sample_age cf (sample n i) /\
        nth i (pdf_pdf p) 0 = c * likelihood cf C area lo hi k n i.
Proof.
  intros cf C area lo hi k n Hc Hr Hn S.
  destruct (proj1 (cases cf C area lo hi k n Hc Hr Hn) S) as (p & E & D & G & c & Pc & F).
  exists p, c. split; [exact E|]. split; [exact Pc|]. intros i Hi. split; [|now apply F].
  rewrite G, grid_nth by assumption. now rewrite sample_linspace.
Qed.
(** the construction fails in one case only: the likelihood is negligible everywhere and the count
    exceeds the number expected at the end of the density axis *)
Theorem C12_when_the_pdf_exists :
  forall cf C area lo hi k n, positive_coefficients cf -> range_ok cf C area lo hi -> (2 <= n)%nat ->
    (exists p, craterpdf cf C area lo hi k n = Ok p) \/
    (craterpdf cf C area lo hi k n = Err IndexError /\
     sum_to (likelihood cf C area lo hi k n) n < pow10 (-30) /\
     forall i, (i < n)%nat -> expected_craters cf C area lo hi (sample n i) < INR k).
Proof.
  intros cf C area lo hi k n Hc Hr Hn.
  destruct (outcome cf C area lo hi k n Hc Hr Hn) as [(p & E & _)|F]; [left; eauto|right; exact F].
Qed.

Lemma pow10_nat m : pow10 (INR m) = 10 ^ m.
Proof.
  induction m as [|m IH]; [cbn; apply pow10_0|]. rewrite S_INR, pow10_plus, pow10_1, IH. cbn [pow]. ring.
Qed.
(** ... and that case exists: an area entered in the wrong unit is enough *)
Theorem C12_every_count_has_a_pdf_refuted :
  exists cf C area lo hi k n, positive_coefficients cf /\ range_ok cf C area lo hi /\ (2 <= n)%nat /\
    craterpdf cf C area lo hi k n = Err IndexError.
Proof.
  set (cf := mkChron 1 1 0). set (C := fun d (_ : R) => / d).
  exists cf, C, (2 / 10 ^ 8), 1, 2, 20%nat, 2%nat.
  assert (Hc : positive_coefficients cf) by (unfold positive_coefficients; cbn; lra).
  assert (Hr : range_ok cf C (2 / 10 ^ 8) 1 2) by (unfold range_ok, C; lra).
  split; [exact Hc|]. split; [exact Hr|]. split; [lia|].
  assert (P5 : pow10 5 = 10 ^ 5).
  { rewrite <- (pow10_nat 5). f_equal. rewrite INR_IZR_INZ. reflexivity. }
  assert (L : forall i, (i < 2)%nat -> 0 < expected_craters cf C (2 / 10 ^ 8) 1 2 (sample 2 i) <= 1 / 1000).
  { intros i Hi. split; [now apply expected_pos|]. unfold expected_craters, C.
    assert (pow10 (sample 2 i) <= 10 ^ 5).
    { rewrite <- P5. apply pow10_le. unfold sample. destruct i as [|[|i]]; [cbn; lra|cbn; lra|lia]. }
    lra. }
  assert (K : 1 / 1000 < INR 20) by (rewrite INR_IZR_INZ; change (Z.of_nat 20) with 20%Z; lra).
  apply (cases cf C (2 / 10 ^ 8) 1 2 20 2 Hc Hr ltac:(lia)).
  2:{ intros i Hi. pose proof (L i Hi). lra. }
  assert (B : forall i, (i < 2)%nat -> likelihood cf C (2 / 10 ^ 8) 1 2 20 2 i <= (1 / 1000) ^ 20 * 243).
  { intros i Hi. unfold likelihood. destruct (L i Hi) as [L0 L1].
    set (lam := expected_craters _ _ _ _ _ _) in *.
    apply Rmult_le_compat.
    - left. now apply pmf_pos.
    - left. now apply phi_pos.
    - assert (lam ^ 20 <= (1 / 1000) ^ 20) by (apply pow_incr; lra).
      assert (0 < lam ^ 20) by now apply pow_lt.
      assert (exp (- lam) <= 1) by (rewrite <- exp_0; left; apply exp_increasing; lra).
      pose proof (exp_pos (- lam)) as EP.
      assert (F1 : 1 <= INR (fact 20)).
      { pose proof (lt_O_fact 20) as F. apply le_INR in F. exact F. }
      assert (0 < / INR (fact 20) <= 1).
      { split; [apply Rinv_0_lt_compat; lra|]. rewrite <- Rinv_1. apply Rinv_le_contravar; lra. }
      unfold Rdiv. apply Rle_trans with (lam ^ 20 * exp (- lam) * 1).
      + apply Rmult_le_compat_l; [apply Rmult_le_pos; lra|lra].
      + rewrite Rmult_1_r. apply Rle_trans with (lam ^ 20 * 1); [apply Rmult_le_compat_l; lra|lra].
    - unfold phi, cf, sample_age. cbn [ch_p0 ch_p1 ch_p3]. rewrite !Rmult_1_l, Rplus_0_r.
      set (t := cf_t _ _). assert (T : 0 <= t <= 5) by (apply cf_t_range; exact Hc).
      apply Rle_trans with (exp 5); [destruct (Rle_lt_or_eq_dec t 5 ltac:(lra)) as [E|E]; [left; now apply exp_increasing|rewrite E; lra]|].
      replace 5 with (1 + 1 + 1 + 1 + 1) by lra. rewrite !exp_plus. pose proof exp_le_3 as E3. pose proof (exp_pos 1).
      generalize dependent (exp 1). intros e E3 Pe.
      assert (e * e <= 9) by nra. assert (e * e * e <= 27) by nra. assert (e * e * e * e <= 81) by nra. nra. }
  cbn [sum_to]. pose proof (B 0%nat ltac:(lia)) as B0. pose proof (B 1%nat ltac:(lia)) as B1.
  assert (P30 : pow10 (-30) = / 10 ^ 30).
  { apply (Rmult_eq_reg_r (10 ^ 30)); [|apply pow_nonzero; lra].
    rewrite Rinv_l by (apply pow_nonzero; lra). rewrite <- (pow10_nat 30) at 1. rewrite <- pow10_plus.
    rewrite INR_IZR_INZ. change (IZR (Z.of_nat 30)) with 30. replace (-30 + 30) with 0 by lra. apply pow10_0. }
  rewrite P30. lra.
Qed.

(** a buffered count *)
Theorem C12_buffered_pdf_is_a_distribution :
  forall cf per I1 k n p, positive_coefficients cf -> (forall x, 0 < I1 x) -> (2 <= n)%nat ->
    craterpdf_buffered cf per I1 k n = Ok p -> distribution p n.
Proof.
  intros cf per I1 k n p Hc HI Hn E. destruct per as [per|]; [|discriminate].
  unfold craterpdf_buffered in E. fold (grid cf n) in E.
  set (lam := lam_buffered _ _) in E.
  assert (LL : length lam = length (grid cf n)).
  { unfold lam, lam_buffered. now rewrite map_length, linspace_length, grid_length. }
  assert (LN : forall i, (i < n)%nat -> nth i lam 0 = pow10 (log10 (I1 per) + sample n i)).
  { intros i Hi. unfold lam, lam_buffered. rewrite (nth_map_lt _ _ _ 0) by (now rewrite linspace_length).
    now rewrite sample_linspace. }
  assert (P := pdf_from_cases (grid cf n) lam (phi cf) k LL).
  pose proof (grid_length cf n) as GL. rewrite GL in P. specialize (P Hn ltac:(intros i j Hij; apply grid_mono; assumption)).
  pose proof (grid_grows cf Hc n Hn) as GG; rewrite GL in GG; specialize (P GG).
  specialize (P ltac:(intros i Hi; rewrite LN by exact Hi; apply pow10_pos) (phi_pos cf Hc)).
  destruct P as [P1 P2].
  destruct (Rle_lt_dec (pow10 (-30)) (sum_to (like (grid cf n) lam (phi cf) k) n)) as [S|S].
  - destruct (P1 S) as (q & Eq & D & _). rewrite E in Eq. injection Eq as ->. exact D.
  - destruct (P2 S) as [Q1 Q2].
    assert (G : forall m, (m <= n)%nat -> (forall i, (i < m)%nat -> nth i lam 0 < INR k) \/
      exists j, (j < n)%nat /\ (forall i, (i < j)%nat -> nth i lam 0 < INR k) /\ INR k <= nth j lam 0).
    { induction m as [|m IH]; intros L; [left; intros; lia|].
      destruct IH as [A|A]; [lia| |now right].
      destruct (Rlt_le_dec (nth m lam 0) (INR k)) as [B|B].
      - left. intros i Hi. destruct (Nat.eq_dec i m) as [->|N]; [exact B|apply A; lia].
      - right. exists m. repeat split; auto. }
    destruct (G n ltac:(lia)) as [A|(j & J1 & J2 & J3)].
    + rewrite (Q1 A) in E. discriminate.
    + destruct (Q2 j J1 J2 J3) as (q & Eq & D & _). rewrite E in Eq. injection Eq as ->. exact D.
Qed.
Theorem C12_buffered_needs_perimeter :
  forall cf I1 k n, craterpdf_buffered cf None I1 k n = Err SysExit.
Proof. reflexivity. Qed.

(** a concrete count: 3 craters of 1-2 km on 1000 km2, a production function falling as D^-2 *)
Definition ex_C (d a0 : R) : R := pow10 a0 / d ^ 2.
Example C12_hypotheses_met :
  positive_coefficients neukum83 /\ range_ok neukum83 ex_C 1000 1 2 /\ (2 <= 5000)%nat.
Proof.
  split; [exact neukum83_positive|]. split; [|lia]. unfold range_ok, ex_C.
  pose proof (pow10_pos (cf_a0 neukum83 1)). split; [lra|]. split; [apply Rmult_lt_0_compat; lra|].
  unfold Rdiv. apply Rmult_lt_compat_l; lra.
Qed.

(** ** C13 *)
Theorem C13_percentiles_ordered_and_in_range :
  forall p n, distribution p n -> (2 <= n)%nat -> forall f g, f <= g ->
    nth 0 (pdf_ts p) 0 <= pdf_t p f <= pdf_t p g /\ pdf_t p g <= nth (n - 1) (pdf_ts p) 0.
Proof.
  intros p n D Hn f g H. pose proof (pdf_t_mono p n D Hn f g H). pose proof (pdf_t_range p n D Hn f).
  pose proof (pdf_t_range p n D Hn g). lra.
Qed.
Theorem C13_median1sigma_order :
  forall erf, erf 0 = 0 -> (forall x y, x < y -> erf x < erf y) ->
  forall p n, distribution p n -> (2 <= n)%nat ->
    exists median lower upper, median1sigma erf p = [median; lower; upper] /\
      lower <= median <= upper /\ 0 <= lower /\ upper <= 5 /\
      median = pdf_t p (1 / 2) /\ lower = pdf_t p ((1 - erf (1 / sqrt 2)) / 2) /\ upper = pdf_t p ((1 + erf (1 / sqrt 2)) / 2).
Proof.
  intros erf E0 Ei p n D Hn. unfold median1sigma. cbn [map]. do 3 eexists. split; [reflexivity|].
  pose proof (gp_inc erf E0 Ei 1 0 1 ltac:(lia)) as G1. pose proof (gp_inc erf E0 Ei 1 1 2 ltac:(lia)) as G2.
  split; [split; apply (pdf_t_mono p n D Hn); lra|].
  split; [|split].
  - destruct (d_grid _ _ D 0 0 ltac:(lia)) as [[B _] _]. pose proof (pdf_t_range p n D Hn (nth 0 (gaussian_percentiles erf 1) 0)). lra.
  - destruct (d_grid _ _ D 0 (n - 1) ltac:(lia)) as [_ B]. pose proof (pdf_t_range p n D Hn (nth 2 (gaussian_percentiles erf 1) 0)). lra.
  - cbn [gaussian_percentiles nth app INR]. repeat split; try reflexivity. f_equal. lra.
Qed.
(** the reported time is that percentile: the cdf there is the requested fraction *)
Theorem C13_percentile_inverts_the_cdf :
  forall p n, distribution p n -> (2 <= n)%nat -> forall f, nth 0 (pdf_cdf p) 0 <= f <= 1 ->
    cumulative_fraction p (pdf_t p f) = f.
Proof. exact percentile_inverse. Qed.
Theorem C13_cumulative_fraction_is_a_cdf :
  forall p n, distribution p n -> (2 <= n)%nat -> forall t u, t <= u ->
    0 <= cumulative_fraction p t <= cumulative_fraction p u /\ cumulative_fraction p u <= 1.
Proof.
  intros p n D Hn t u H. pose proof (cumulative_fraction_mono p n D Hn t u H).
  pose proof (cumulative_fraction_range p n D Hn t). pose proof (cumulative_fraction_range p n D Hn u). lra.
Qed.

(** ** C14: [erf] is the error function, of which only these facts are used *)
Theorem C14_gaussian_percentiles :
  forall erf, erf 0 = 0 -> (forall x y, x < y -> erf x < erf y) -> (forall x, erf x < 1) ->
  forall n, let g := gaussian_percentiles erf n in
    length g = (2 * n + 1)%nat /\ nth n g 0 = 1 / 2 /\
    (forall i, (i <= 2 * n)%nat -> 0 < nth i g 0 < 1 /\ nth i g 0 + nth (2 * n - i) g 0 = 1) /\
    (forall i j, (i < j <= 2 * n)%nat -> nth i g 0 < nth j g 0) /\
    (forall m, (m <= n)%nat -> nth (n + m) g 0 = (1 + erf (INR m / sqrt 2)) / 2).
Proof.
  intros erf E0 Ei El n g. unfold g. split; [apply gp_length|]. split; [now apply gp_middle|].
  split; [intros i Hi; split; [now apply gp_prob|now apply gp_sym]|]. split; [now apply gp_inc|].
  clear g. induction n as [|n IH]; intros m Hm.
  - replace m with 0%nat by lia. cbn [gaussian_percentiles nth Nat.add INR].
    replace (0 / sqrt 2) with 0 by (unfold Rdiv; lra). rewrite E0. lra.
  - cbn [gaussian_percentiles].
    set (f := (1 - erf (INR (S n) / sqrt 2)) / 2).
    change ([f] ++ gaussian_percentiles erf n ++ [1 - f]) with (f :: (gaussian_percentiles erf n ++ [1 - f])).
    pose proof (gp_length erf n) as L. cbn [Nat.add nth].
    destruct (Nat.eq_dec m (S n)) as [->|N].
    + rewrite app_nth2 by lia. replace (n + S n - length (gaussian_percentiles erf n))%nat with 0%nat by lia.
      cbn [nth]. unfold f. lra.
    + rewrite app_nth1 by lia. apply IH. lia.
Qed.
Example C14_hypotheses_met : exists erf : R -> R,
  erf 0 = 0 /\ (forall x y, x < y -> erf x < erf y) /\ (forall x, erf x < 1).
Proof.
  exists (fun x => 2 * atan x / PI). pose proof PI_RGT_0 as P. repeat split.
  - rewrite atan_0. unfold Rdiv. lra.
  - intros x y H. apply Rmult_lt_compat_r; [now apply Rinv_0_lt_compat|]. pose proof (atan_increasing x y H). lra.
  - intros x. pose proof (atan_bound x) as [_ B]. apply (Rmult_lt_reg_r PI); [exact P|].
    unfold Rdiv. rewrite Rmult_assoc, Rinv_l by lra. lra.
Qed.

(** ** C15 *)
Theorem C15_sequence_probability_in_unit_interval :
  forall p q n, distribution p n -> distribution q n -> (2 <= n)%nat -> 0 <= sequence_probability p q <= 1.
Proof. exact sequence_range. Qed.
(** the sum of both probabilities exceeds 1 by half the weights of the first sample *)
Theorem C15_sum_of_both_probabilities :
  forall p q n, distribution p n -> distribution q n -> (2 <= n)%nat ->
    sequence_probability p q + sequence_probability q p = 1 + (weight p 0 + weight q 0) / 2.
Proof. exact sequence_complement. Qed.
Theorem C15_complementary_without_first_weight :
  forall p q n, distribution p n -> distribution q n -> (2 <= n)%nat -> weight p 0 = 0 -> weight q 0 = 0 ->
    sequence_probability p q + sequence_probability q p = 1.
Proof. intros p q n Dp Dq Hn A B. rewrite (sequence_complement p q n) by assumption. rewrite A, B. lra. Qed.
(** for the distributions Craterpdf builds the sum is never exactly 1 *)
Theorem C15_complementary_refuted :
  forall cf C a1 l1 h1 k1 a2 l2 h2 k2 n p q, positive_coefficients cf -> (2 <= n)%nat ->
    range_ok cf C a1 l1 h1 -> range_ok cf C a2 l2 h2 ->
    craterpdf cf C a1 l1 h1 k1 n = Ok p -> craterpdf cf C a2 l2 h2 k2 n = Ok q ->
    sequence_probability p q + sequence_probability q p > 1.
Proof.
  intros cf C a1 l1 h1 k1 a2 l2 h2 k2 n p q Hc Hn R1 R2 E1 E2.
  assert (W : forall a l h k p, range_ok cf C a l h -> craterpdf cf C a l h k n = Ok p -> distribution p n /\ 0 < weight p 0).
  { clear - Hc Hn. intros a l h k p R E.
    destruct (outcome cf C a l h k n Hc R Hn) as [(r & Er & D & G & P)|(F & _)]; [|congruence].
    rewrite E in Er. injection Er as ->. split; [exact D|]. unfold weight.
    apply Rmult_lt_0_compat; [apply P; lia|]. rewrite (d_width0 _ _ D), (d_width _ _ D 1) by lia. rewrite G.
    replace (1 - 1)%nat with 0%nat by lia. rewrite !grid_nth by (assumption || lia).
    assert (S : nth 0 (linspace (-10) 5 n) 0 < nth 1 (linspace (-10) 5 n) 0).
    { apply (SS_nth Rlt 0); [apply linspace_sorted; lra|rewrite linspace_length; lia]. }
    pose proof (N1_pos cf Hc 1 ltac:(lra)) as N. pose proof (N1_lt cf Hc 1 5 ltac:(lra)) as N5.
    rewrite linspace_first in * by lia. apply pow10_lt in S.
    assert (pow10 (-10) < pow10 0) by (apply pow10_lt; lra). rewrite pow10_0 in *. pose proof (pow10_pos (-10)).
    assert (cf_t cf (N1 cf 1 * pow10 (-10)) < cf_t cf (N1 cf 1 * pow10 (nth 1 (linspace (-10) 5 n) 0))); [|lra].
    apply cf_t_lt; [exact Hc|split|]; nra. }
  destruct (W _ _ _ _ _ R1 E1) as [D1 W1]. destruct (W _ _ _ _ _ R2 E2) as [D2 W2].
  rewrite (sequence_complement p q n D1 D2 Hn). lra.
Qed.

(** ** C16 *)
Lemma half_open_dec lo hi x : {lo <= x < hi} + {~ (lo <= x < hi)}.
Proof. destruct (Rle_dec lo x), (Rlt_dec x hi); (left; lra) || (right; lra). Qed.
Theorem C16_counts_half_open_range :
  forall diam bd lo hi, diam <> [] ->
    poisson_k None diam bd lo hi = INR (tally (fun e => lo <= e < hi) (half_open_dec lo hi) diam).
Proof.
  intros diam bd lo hi H. unfold poisson_k. destruct diam as [|a r]; [congruence|]. clear H.
  f_equal. unfold count_range. induction (a :: r) as [|x l IH]; [reflexivity|].
  cbn [filter tally]. destruct (half_open_dec lo hi x) as [K|K];
  destruct (Rleb_spec lo x), (Rltb_spec x hi); cbn [andb length]; try lra; rewrite IH; reflexivity.
Qed.
Theorem C16_adjacent_ranges_add :
  forall diam bd lo mid hi, diam <> [] -> lo <= mid <= hi ->
    poisson_k None diam bd lo mid + poisson_k None diam bd mid hi = poisson_k None diam bd lo hi.
Proof.
  intros diam bd lo mid hi H M. unfold poisson_k. destruct diam as [|a r]; [congruence|]. clear H.
  rewrite <- plus_INR. f_equal. unfold count_range. induction (a :: r) as [|x l IH]; [reflexivity|].
  cbn [filter]. destruct (Rleb_spec lo x), (Rltb_spec x mid), (Rleb_spec mid x), (Rltb_spec x hi); cbn [andb length]; try lra; lia.
Qed.
(** a count read from binned data: ranges meeting at a boundary no bin straddles *)
Theorem C16_adjacent_ranges_add_binned :
  forall bd lo mid hi, length (b_dmin bd) = length (b_dmax bd) -> lo <= mid <= hi ->
    (forall i, (i < length (b_dmin bd))%nat ->
       nth i (b_dmin bd) 0 < nth i (b_dmax bd) 0 /\ (nth i (b_dmax bd) 0 <= mid \/ mid <= nth i (b_dmin bd) 0)) ->
    poisson_k None [] bd lo mid + poisson_k None [] bd mid hi = poisson_k None [] bd lo hi.
Proof.
  intros bd lo mid hi L M H. cbn [poisson_k]. unfold count_bins.
  set (l := combine (b_dmin bd) (b_dmax bd)).
  assert (Q : forall p, In p l -> fst p < snd p /\ (snd p <= mid \/ mid <= fst p)).
  { intros p Hp. destruct (In_nth _ _ (0, 0) Hp) as (i & Hi & <-). unfold l in *.
    rewrite combine_length in Hi. rewrite combine_nth by exact L. cbn [fst snd]. apply H. lia. }
  clearbody l. revert Q. generalize (b_nevent bd). clear L H. induction l as [|p l IH]; intros ev Q; [cbn; lra|].
  destruct ev as [|e ev]; [cbn; lra|]. cbn [combine filter fst snd].
  pose proof (Q p (or_introl eq_refl)) as [Q1 Q2].
  specialize (IH ev (fun q Hq => Q q (or_intror Hq))).
  destruct (Rleb_spec lo (fst p)), (Rleb_spec (snd p) mid), (Rleb_spec mid (fst p)), (Rleb_spec (snd p) hi);
    cbn [andb map snd Rsum]; try lra.
Qed.
Example C16_hypotheses_met :
  poisson_k None [1; 2; 3] (mkBinned [] [] [] [] [] [] [] []) 1 2 = 1 /\ poisson_k None [1; 2; 3] (mkBinned [] [] [] [] [] [] [] []) 2 4 = 2.
Proof.
  unfold poisson_k, count_range. cbn [filter]. rcmp. cbn [andb length INR]. split; lra.
Qed.

(** ** C09, Poisson side *)
Theorem C09_fit_and_poisson_count_the_same_craters :
  forall craters area b pres pf bd ri lo hi,
    In b real_binnings -> craters <> [] -> Forall (fun c => 0 < fst c) craters -> Forall (fun c => 0 < snd c) craters ->
    area <> 0 -> In pres data_presentations ->
    apply_binning craters b 0 = Ok (bd, ri) -> In lo (b_dmin bd) -> In hi (b_dmax bd) -> lo < hi ->
    exists pd, fst (getplotdata (fresh craters area) pres b (Some (lo, Fin hi)) (Some 0%Z) false pf) = Ok pd /\
      pd_nevent pd = poisson_k None (map fst craters) bd lo hi /\
      pd_nevent pd = INR (tally (fun e => lo <= e < hi) (half_open_dec lo hi) (map fst craters)).
Proof.
  intros craters area b pres pf bd ri lo hi Hb Hne H1 H2 Ha Hp HA Hlo Hhi Hlt.
  destruct (C09_fit_counts_craters_of_the_range craters area b pres pf bd ri lo hi) as (pd & E & _ & N & _); try assumption.
  exists pd. split; [exact E|]. rewrite C16_counts_half_open_range by (destruct craters; [congruence|discriminate]).
  assert (T : pd_nevent pd = INR (tally (fun e => lo <= e < hi) (half_open_dec lo hi) (map fst craters))); [|split; exact T].
  rewrite N. f_equal. clear. induction craters as [|[d f] r IH]; [reflexivity|].
  cbn [number_between map tally fst]. rewrite IH.
  destruct (half_open_dec lo hi d), (Rle_dec lo d), (Rlt_dec d hi); try lra; reflexivity.
Qed.

(** ** C61 *)
(** the cells pair up to 1 *)
Theorem C61_cells_complementary :
  forall l i j, (i < j)%nat -> exists a b, sequence_cell l i j = Some a /\ sequence_cell l j i = Some b /\ a + b = 1.
Proof.
  intros l i j H. unfold sequence_cell. destruct (Nat.ltb_spec i j); [|lia]. destruct (Nat.ltb_spec j i); [lia|].
  do 2 eexists. split; [reflexivity|]. split; [reflexivity|]. lra.
Qed.
(** but no table is ever written: with two or more plots the call raises ValueError *)
Theorem C61_table_is_written_refuted :
  forall cf C n_samples l, (2 <= length l)%nat -> Forall (fun s => (2 <= length (sq_lam s))%nat) l ->
    create_sequence_table cf C n_samples l = Err ValueError.
Proof.
  intros cf C n l H F. unfold create_sequence_table. destruct (Nat.ltb_spec (length l) 2); [lia|].
  destruct l as [|s l]; [cbn in H; lia|]. cbn [map combine mapM fst snd].
  inversion F as [|? ? Fs _]; subst. unfold craterpdf_lam at 1.
  destruct (sq_lam s) as [|x [|y r]]; cbn in Fs; try lia. reflexivity.
Qed.
(** and craterpdf does give every plot a lam array with one entry per sample *)
Example C61_hypotheses_met : length (lam_standard (linspace (-10) 5 5000) 2 1 1) = 5000%nat.
Proof. unfold lam_standard. now rewrite map_length, linspace_length. Qed.

Print Assumptions C12_pdf_is_a_distribution.
Print Assumptions C12_pdf_is_the_poisson_likelihood.
Print Assumptions C12_when_the_pdf_exists.
Print Assumptions C12_every_count_has_a_pdf_refuted.
Print Assumptions C12_buffered_pdf_is_a_distribution.
Print Assumptions C13_percentiles_ordered_and_in_range.
Print Assumptions C13_median1sigma_order.
Print Assumptions C13_percentile_inverts_the_cdf.
Print Assumptions C14_gaussian_percentiles.
Print Assumptions C15_sequence_probability_in_unit_interval.
Print Assumptions C15_sum_of_both_probabilities.
Print Assumptions C15_complementary_refuted.
Print Assumptions C16_adjacent_ranges_add_binned.
Print Assumptions C09_fit_and_poisson_count_the_same_craters.
Print Assumptions C61_table_is_written_refuted.
