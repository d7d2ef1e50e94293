(** C123: Poisson ages follow the counts they are made from. *)
From Coq Require Import String List ZArith Reals Lra Lia Bool Permutation Sorted.
From Verif Require Import Base NumModel NumLemmas BinModel InterpProofs ChronModel ChronSpec ChronProofs ChronProps PdfModel PdfSpec PdfProofs PdfProps MonoProofs.
Import ListNotations.
Local Open Scope R_scope.

(** the number of craters expected on a surface of the density of 1 Ga *)
Definition expected_at_1Ga (cf : chron) (C : R -> R -> R) (area lo hi : R) : R := expected_craters cf C area lo hi 0.
(** the likelihood of the count is not negligible everywhere: the distribution is not the single
    spike that stands in for it otherwise *)
Definition usual (cf : chron) (C : R -> R -> R) (area lo hi : R) (k n : nat) : Prop :=
  pow10 (-30) <= sum_to (likelihood cf C area lo hi k n) n.
(** the same for a buffered count with [e] craters expected at the density of 1 Ga *)
Definition usual_buffered (cf : chron) (e : R) (k n : nat) : Prop :=
  pow10 (-30) <= sum_to (fun i => (e * pow10 (sample n i)) ^ k * exp (- (e * pow10 (sample n i))) / INR (fact k) * phi cf (sample_age cf (sample n i))) n.
(** [q] is nowhere younger than [p]: at every fraction its age is at least as high, and at every
    age it has at most as much probability of being younger *)
Definition nowhere_younger (p q : pdf) : Prop :=
  (forall f, pdf_t p f <= pdf_t q f) /\ (forall t, cumulative_fraction q t <= cumulative_fraction p t).

(** ** The likelihoods are in the order of their ratio *)
Lemma pmf_ratio (e e' s s' : R) (k k' : nat) : 0 < e' <= e -> (k <= k')%nat -> 0 < s <= s' ->
  ((e' * s) ^ k' * exp (- (e' * s))) * ((e * s') ^ k * exp (- (e * s'))) <= ((e' * s') ^ k' * exp (- (e' * s'))) * ((e * s) ^ k * exp (- (e * s))).
Proof.
  intros He Hk Hs. replace k' with (k + (k' - k))%nat by lia. set (d := (k' - k)%nat). rewrite !Rpow_mult_distr, !pow_add.
  replace (e' ^ k * e' ^ d * (s ^ k * s ^ d) * exp (- (e' * s)) * (e ^ k * s' ^ k * exp (- (e * s')))) with ((e' ^ k * e' ^ d * e ^ k * s ^ k * s' ^ k) * (s ^ d * (exp (- (e' * s)) * exp (- (e * s'))))) by ring.
  replace (e' ^ k * e' ^ d * (s' ^ k * s' ^ d) * exp (- (e' * s')) * (e ^ k * s ^ k * exp (- (e * s)))) with ((e' ^ k * e' ^ d * e ^ k * s ^ k * s' ^ k) * (s' ^ d * (exp (- (e' * s')) * exp (- (e * s))))) by ring.
  rewrite <- !exp_plus. apply Rmult_le_compat_l.
  - repeat apply Rmult_le_pos; apply pow_le; lra.
  - apply Rmult_le_compat; [apply pow_le; lra|left; apply exp_pos|apply pow_incr; lra|].
    assert (X : - (e' * s) + - (e * s') <= - (e' * s') + - (e * s)) by nra. destruct X as [X|X]; [left; now apply exp_increasing|right; now rewrite X].
Qed.

Lemma sample_le n i j : (i <= j)%nat -> (2 <= n)%nat -> sample n i <= sample n j.
Proof.
  intros H Hn. unfold sample. apply Rplus_le_compat_l. apply Rmult_le_compat_r; [|now apply le_INR]. apply Rmult_le_pos; [lra|]. left. apply Rinv_0_lt_compat. apply lt_0_INR. lia.
Qed.

Section Two.
Context (cf : chron) (n : nat) (Hc : positive_coefficients cf) (Hn : (2 <= n)%nat).
Let lk (e : R) (k i : nat) : R := (e * pow10 (sample n i)) ^ k * exp (- (e * pow10 (sample n i))) / INR (fact k) * phi cf (sample_age cf (sample n i)).
Definition proportional (p : pdf) (e : R) (k : nat) : Prop :=
  distribution p n /\ pdf_ts p = grid cf n /\ exists c, 0 < c /\ forall i, (i < n)%nat -> nth i (pdf_pdf p) 0 = c * lk e k i.

Lemma lk_ratio e e' k k' i j : 0 < e' <= e -> (k <= k')%nat -> (i <= j)%nat -> lk e' k' i * lk e k j <= lk e' k' j * lk e k i.
Proof.
  intros He Hk Hij. unfold lk. set (s := pow10 (sample n i)). set (s' := pow10 (sample n j)). set (a := phi cf (sample_age cf (sample n i))). set (b := phi cf (sample_age cf (sample n j))).
  assert (0 < s <= s') as Hs by (split; [apply pow10_pos|apply pow10_le; now apply sample_le]). pose proof (pmf_ratio e e' s s' k k' He Hk Hs) as P.
  assert (Fa : 0 < a) by (now apply phi_pos). assert (Fb : 0 < b) by (now apply phi_pos).
  pose proof (INR_fact_lt_0 k) as F1. pose proof (INR_fact_lt_0 k') as F2. pose proof (Rinv_0_lt_compat _ F1). pose proof (Rinv_0_lt_compat _ F2). unfold Rdiv.
  match goal with |- ?x * ?f' * a * (?y * ?f * b) <= ?z * _ * b * (?u * _ * a) => replace (x * f' * a * (y * f * b)) with (f' * f * a * b * (x * y)) by ring; replace (z * f' * b * (u * f * a)) with (f' * f * a * b * (z * u)) by ring end.
  apply Rmult_le_compat_l; [repeat apply Rmult_le_pos; lra|exact P].
Qed.

Lemma cdf_order p q e e' k k' : proportional p e k -> proportional q e' k' -> 0 < e' <= e -> (k <= k')%nat -> forall i, (i < n)%nat -> nth i (pdf_cdf q) 0 <= nth i (pdf_cdf p) 0.
Proof.
  intros (Dp & Tp & c & Pc & Fp) (Dq & Tq & c' & Pc' & Fq) He Hk i Hi. rewrite (d_cdf _ _ Dp), (d_cdf _ _ Dq) by exact Hi.
  assert (W : forall a b, (a < n)%nat -> (b < n)%nat -> nth a (pdf_dt p) 0 = nth a (pdf_dt q) 0).
  { intros a _ La _. destruct a as [|a].
    - rewrite (d_width0 _ _ Dp), (d_width0 _ _ Dq), (d_width _ _ Dp), (d_width _ _ Dq) by lia. now rewrite Tp, Tq.
    - rewrite (d_width _ _ Dp), (d_width _ _ Dq) by lia. now rewrite Tp, Tq. }
  assert (N : forall a, (a < n)%nat -> 0 <= nth a (pdf_dt q) 0).
  { intros a La. exact (dt_nonneg q n Dq Hn a La). }
  apply (ratio_order (weight p) (weight q) n); [|lia|exact (d_total _ _ Dp)|exact (d_total _ _ Dq)].
  intros a b Hab. unfold weight. rewrite !Fp, !Fq, (W a a), (W b b) by lia. pose proof (lk_ratio e e' k k' a b He Hk ltac:(lia)) as R. pose proof (N a ltac:(lia)). pose proof (N b ltac:(lia)).
  set (da := nth a (pdf_dt q) 0) in *. set (db := nth b (pdf_dt q) 0) in *.
  replace (c' * lk e' k' a * da * (c * lk e k b * db)) with (c' * c * da * db * (lk e' k' a * lk e k b)) by ring.
  replace (c' * lk e' k' b * db * (c * lk e k a * da)) with (c' * c * da * db * (lk e' k' b * lk e k a)) by ring.
  apply Rmult_le_compat_l; [repeat apply Rmult_le_pos; lra|exact R].
Qed.
End Two.

Lemma proportional_standard cf C area lo hi k n p : positive_coefficients cf -> range_ok cf C area lo hi -> (2 <= n)%nat -> usual cf C area lo hi k n ->
  craterpdf cf C area lo hi k n = Ok p -> proportional cf n p (expected_at_1Ga cf C area lo hi) k.
Proof.
  intros Hc Hr Hn U E. destruct (proj1 (cases cf C area lo hi k n Hc Hr Hn) U) as (p' & E' & D & G & c & Pc & F). rewrite E in E'. injection E' as <-.
  split; [exact D|]. split; [exact G|]. exists c. split; [exact Pc|]. intros i Hi. rewrite (F i Hi). unfold likelihood, expected_at_1Ga, expected_craters. rewrite pow10_0, Rmult_1_r. reflexivity.
Qed.
Lemma proportional_buffered cf I1 per k n p : positive_coefficients cf -> 0 < I1 per -> (2 <= n)%nat -> usual_buffered cf (I1 per) k n ->
  craterpdf_buffered cf (Some per) I1 k n = Ok p -> proportional cf n p (I1 per) k.
Proof.
  intros Hc HI Hn U E. unfold craterpdf_buffered in E. fold (grid cf n) in E. set (lam := lam_buffered _ _) in E.
  assert (LL : length lam = length (grid cf n)) by (unfold lam, lam_buffered; now rewrite map_length, linspace_length, grid_length).
  assert (LN : forall i, (i < n)%nat -> nth i lam 0 = I1 per * pow10 (sample n i)).
  { intros i Hi. unfold lam, lam_buffered. rewrite (nth_map_lt _ _ _ 0) by (now rewrite linspace_length). now rewrite sample_linspace, pow10_plus, pow10_log10 by assumption. }
  assert (P := pdf_from_cases (grid cf n) lam (phi cf) k LL). pose proof (grid_length cf n) as GL. rewrite GL in P. specialize (P Hn ltac:(intros i j Hij; apply grid_mono; assumption)).
  pose proof (grid_grows cf Hc n Hn) as GG; rewrite GL in GG; specialize (P GG).
  specialize (P ltac:(intros i Hi; rewrite LN by exact Hi; apply Rmult_lt_0_compat; [exact HI|apply pow10_pos]) (phi_pos cf Hc)). destruct P as [P _].
  assert (K : forall i, (i < n)%nat -> like (grid cf n) lam (phi cf) k i = (I1 per * pow10 (sample n i)) ^ k * exp (- (I1 per * pow10 (sample n i))) / INR (fact k) * phi cf (sample_age cf (sample n i))).
  { intros i Hi. unfold like, poisson_pmf. rewrite LN, grid_nth, sample_linspace by assumption. reflexivity. }
  rewrite (sum_to_ext _ _ n K) in P. destruct (P U) as (p' & E' & D & G & c & Pc & F). rewrite E in E'. injection E' as <-. split; [exact D|]. split; [exact G|]. exists c. split; [exact Pc|]. intros i Hi. rewrite (F i Hi). now rewrite K.
Qed.

Lemma fraction_mono p q n : distribution p n -> distribution q n -> (2 <= n)%nat -> pdf_ts p = pdf_ts q -> (forall i, (i < n)%nat -> nth i (pdf_cdf q) 0 <= nth i (pdf_cdf p) 0) ->
  forall t, cumulative_fraction q t <= cumulative_fraction p t.
Proof.
  intros Dp Dq Hn Ht Hc t. pose proof (cf_ok p n Dp Hn t) as A. pose proof (cf_ok q n Dq Hn t) as B. rewrite <- Ht in B. destruct (d_lengths _ _ Dp) as (A1 & _ & _ & A4). destruct (d_lengths _ _ Dq) as (B1 & _ & _ & B4).
  apply (interp_values (pdf_ts p) (pdf_cdf p) (pdf_cdf q) t); [exact (ts_sorted' p n Dp Hn)| |lia|exact A|exact B]. apply Forall2_of_nth; [lia|]. intros i Hi. apply Hc. lia.
Qed.

(** ** C123 *)
Theorem C123_ages_follow_counts :
  forall cf C area lo hi k p area' lo' hi' k' q n, positive_coefficients cf -> (2 <= n)%nat ->
    range_ok cf C area lo hi -> range_ok cf C area' lo' hi' -> usual cf C area lo hi k n -> usual cf C area' lo' hi' k' n ->
    craterpdf cf C area lo hi k n = Ok p -> craterpdf cf C area' lo' hi' k' n = Ok q ->
    (k <= k')%nat -> expected_at_1Ga cf C area' lo' hi' <= expected_at_1Ga cf C area lo hi ->
    nowhere_younger p q.
Proof.
  intros cf C area lo hi k p area' lo' hi' k' q n Hc Hn R1 R2 U1 U2 E1 E2 K X.
  pose proof (proportional_standard _ _ _ _ _ _ _ _ Hc R1 Hn U1 E1) as P. pose proof (proportional_standard _ _ _ _ _ _ _ _ Hc R2 Hn U2 E2) as Q.
  assert (He : 0 < expected_at_1Ga cf C area' lo' hi' <= expected_at_1Ga cf C area lo hi) by (split; [now apply expected_pos|exact X]).
  pose proof (cdf_order cf n Hc Hn p q _ _ k k' P Q He K) as O. destruct P as (Dp & Tp & _). destruct Q as (Dq & Tq & _). assert (T : pdf_ts p = pdf_ts q) by congruence.
  split; [exact (percentile_order p q n Dp Dq Hn T O)|exact (fraction_mono p q n Dp Dq Hn T O)].
Qed.
(** craters added to a count, in the same range and area: the age and both of its limits do not become younger *)
Theorem C123_added_craters :
  forall erf cf C area lo hi diam diam' extra p q n, positive_coefficients cf -> (2 <= n)%nat -> range_ok cf C area lo hi ->
    Permutation diam' (diam ++ extra) ->
    usual cf C area lo hi (count_range diam lo hi) n -> usual cf C area lo hi (count_range diam' lo hi) n ->
    craterpdf cf C area lo hi (count_range diam lo hi) n = Ok p -> craterpdf cf C area lo hi (count_range diam' lo hi) n = Ok q ->
    Forall2 Rle (median1sigma erf p) (median1sigma erf q).
Proof.
  intros erf cf C area lo hi diam diam' extra p q n Hc Hn R P U1 U2 E1 E2.
  assert (K : (count_range diam lo hi <= count_range diam' lo hi)%nat).
  { unfold count_range. rewrite (Permutation_length (filter_perm _ _ _ P)). rewrite filter_app, app_length. lia. }
  destruct (C123_ages_follow_counts cf C area lo hi _ p area lo hi _ q n Hc Hn R R U1 U2 E1 E2 K (Rle_refl _)) as [O _].
  unfold median1sigma. cbn [map]. repeat (apply Forall2_cons; [apply O|]). apply Forall2_nil.
Qed.
(** the same craters on a larger area: not older *)
Theorem C123_larger_area :
  forall erf cf C area area' lo hi k p q n, positive_coefficients cf -> (2 <= n)%nat -> range_ok cf C area lo hi -> area <= area' ->
    usual cf C area lo hi k n -> usual cf C area' lo hi k n ->
    craterpdf cf C area lo hi k n = Ok p -> craterpdf cf C area' lo hi k n = Ok q ->
    Forall2 Rle (median1sigma erf q) (median1sigma erf p).
Proof.
  intros erf cf C area area' lo hi k p q n Hc Hn R A U1 U2 E1 E2.
  assert (R' : range_ok cf C area' lo hi) by (destruct R as (R1 & R2 & R3); repeat split; lra).
  destruct (C123_ages_follow_counts cf C area' lo hi k q area lo hi k p n Hc Hn R' R U2 U1 E2 E1 (le_n _)) as [O _].
  - unfold expected_at_1Ga, expected_craters. destruct R as (R1 & R2 & R3). apply Rmult_le_compat_r; [left; apply pow10_pos|]. apply Rmult_le_compat_l; lra.
  - unfold median1sigma. cbn [map]. repeat (apply Forall2_cons; [apply O|]). apply Forall2_nil.
Qed.
(** of two counts the one with more craters where fewer were expected is more probably the older, and
    against a third surface it is at least as probably the older *)
Theorem C123_probably_older :
  forall cf C area lo hi k p area' lo' hi' k' q n, positive_coefficients cf -> (2 <= n)%nat ->
    range_ok cf C area lo hi -> range_ok cf C area' lo' hi' -> usual cf C area lo hi k n -> usual cf C area' lo' hi' k' n ->
    craterpdf cf C area lo hi k n = Ok p -> craterpdf cf C area' lo' hi' k' n = Ok q ->
    (k <= k')%nat -> expected_at_1Ga cf C area' lo' hi' <= expected_at_1Ga cf C area lo hi ->
    1 / 2 < sequence_probability q p /\
    forall s, distribution s n -> sequence_probability s q <= sequence_probability s p.
Proof.
  intros cf C area lo hi k p area' lo' hi' k' q n Hc Hn R1 R2 U1 U2 E1 E2 K X.
  pose proof (proportional_standard _ _ _ _ _ _ _ _ Hc R1 Hn U1 E1) as P. pose proof (proportional_standard _ _ _ _ _ _ _ _ Hc R2 Hn U2 E2) as Q.
  assert (He : 0 < expected_at_1Ga cf C area' lo' hi' <= expected_at_1Ga cf C area lo hi) by (split; [now apply expected_pos|exact X]).
  pose proof (cdf_order cf n Hc Hn p q _ _ k k' P Q He K) as O. destruct P as (Dp & Tp & _). destruct Q as (Dq & Tq & _).
  split; [|intros s Ds; exact (sequence_order p q n Dp Dq Hn O s Ds)].
  pose proof (sequence_order p q n Dp Dq Hn O q Dq) as A. pose proof (C15_complementary_refuted cf C area' lo' hi' k' area' lo' hi' k' n q q Hc Hn R2 R2 E2 E2). lra.
Qed.
(** buffered counts *)
Theorem C123_buffered :
  forall cf I1 per k p I1' per' k' q n, positive_coefficients cf -> (2 <= n)%nat -> 0 < I1' per' <= I1 per ->
    usual_buffered cf (I1 per) k n -> usual_buffered cf (I1' per') k' n ->
    craterpdf_buffered cf (Some per) I1 k n = Ok p -> craterpdf_buffered cf (Some per') I1' k' n = Ok q -> (k <= k')%nat ->
    nowhere_younger p q.
Proof.
  intros cf I1 per k p I1' per' k' q n Hc Hn X U1 U2 E1 E2 K.
  pose proof (proportional_buffered cf I1 per k n p Hc ltac:(lra) Hn U1 E1) as P. pose proof (proportional_buffered cf I1' per' k' n q Hc ltac:(lra) Hn U2 E2) as Q.
  pose proof (cdf_order cf n Hc Hn p q _ _ k k' P Q X K) as O. destruct P as (Dp & Tp & _). destruct Q as (Dq & Tq & _). assert (T : pdf_ts p = pdf_ts q) by congruence.
  split; [exact (percentile_order p q n Dp Dq Hn T O)|exact (fraction_mono p q n Dp Dq Hn T O)].
Qed.

(** ** The hypotheses can be met: one and two craters of 1-2 km on 1000 km2, 16 densities *)
Lemma ex_N1 : 8 / 10000 <= N1 neukum83 1 <= 9 / 10000.
Proof.
  unfold N1, neukum83. cbn [ch_p0 ch_p1 ch_p3]. rewrite !Rmult_1_r.
  assert (E0 : 1 <= exp (693 / 100)) by (rewrite <- exp_0; left; apply exp_increasing; lra).
  assert (E1 : exp (693 / 100) <= 3 ^ 7).
  { apply Rle_trans with (exp 7); [left; apply exp_increasing; lra|]. replace 7 with (1 + 1 + 1 + 1 + 1 + 1 + 1) by lra. rewrite !exp_plus.
    replace (exp 1 * exp 1 * exp 1 * exp 1 * exp 1 * exp 1 * exp 1) with (exp 1 ^ 7) by ring. apply pow_incr. pose proof exp_le_3. pose proof (exp_pos 1). lra. }
  lra.
Qed.
Lemma ex_expected : 6 / 10 <= expected_at_1Ga neukum83 ex_C 1000 1 2 <= 7 / 10.
Proof.
  unfold expected_at_1Ga, expected_craters, ex_C. rewrite pow10_0. unfold cf_a0. pose proof ex_N1. rewrite pow10_log10 by lra. lra.
Qed.
Lemma ex_sample : sample 16 10 = 0.
Proof. unfold sample. change (16 - 1)%nat with 15%nat. rewrite !INR_IZR_INZ. change (IZR (Z.of_nat 10)) with 10. change (IZR (Z.of_nat 15)) with 15. lra. Qed.
Lemma ex_usual k : (k <= 2)%nat -> usual neukum83 ex_C 1000 1 2 k 16.
Proof.
  intros Hk. destruct C12_hypotheses_met as (Hc & Hr & _). unfold usual.
  assert (LP : forall i, 0 < likelihood neukum83 ex_C 1000 1 2 k 16 i).
  { intros i. unfold likelihood. apply Rmult_lt_0_compat; [|now apply phi_pos]. apply pmf_pos. now apply expected_pos. }
  apply Rle_trans with (likelihood neukum83 ex_C 1000 1 2 k 16 10).
  - unfold likelihood. rewrite ex_sample. fold (expected_at_1Ga neukum83 ex_C 1000 1 2). pose proof ex_expected as X. set (e := expected_at_1Ga _ _ _ _ _) in *.
    assert (Ph : 8 / 10000 <= phi neukum83 (sample_age neukum83 0)).
    { set (t := sample_age neukum83 0). unfold phi, neukum83. cbn [ch_p0 ch_p1 ch_p3]. pose proof (exp_pos (693 / 100 * t)). lra. }
    assert (Ex : 3 / 10 <= exp (- e)) by (pose proof (exp_ineq1_le (- e)); lra).
    assert (Pk : 36 / 100 <= e ^ k). { destruct k as [|[|[|k]]]; [cbn; lra|cbn; lra|cbn [pow]; nra|lia]. }
    assert (Fk : 1 / 2 <= / INR (fact k)). { destruct k as [|[|[|k]]]; [cbn; lra|cbn; lra|cbn; lra|lia]. }
    assert (P30 : pow10 (-30) <= 1 / 1000000).
    { apply Rle_trans with (pow10 (-6)); [apply pow10_le; lra|]. apply (Rmult_le_reg_r (pow10 6)); [apply pow10_pos|]. rewrite <- pow10_plus. replace (-6 + 6) with 0 by lra. rewrite pow10_0. replace 6 with (INR 6) at 1 by (rewrite INR_IZR_INZ; reflexivity). rewrite pow10_nat. lra. }
    unfold Rdiv at 1. assert (A1 : 36 / 100 * (3 / 10) <= e ^ k * exp (- e)) by (apply Rmult_le_compat; lra). assert (A2 : 36 / 100 * (3 / 10) * (1 / 2) <= e ^ k * exp (- e) * / INR (fact k)) by (apply Rmult_le_compat; lra).
    assert (A3 : 36 / 100 * (3 / 10) * (1 / 2) * (8 / 10000) <= e ^ k * exp (- e) * / INR (fact k) * phi neukum83 (sample_age neukum83 0)) by (apply Rmult_le_compat; lra). lra.
  - assert (G : forall f m, (forall i, 0 < f i) -> (10 < m)%nat -> f 10%nat <= sum_to f m).
    { intros f m Hf Hm. replace m with (11 + (m - 11))%nat by lia. induction (m - 11)%nat as [|d IH].
      - cbn. pose proof (Hf 0%nat). pose proof (Hf 1%nat). pose proof (Hf 2%nat). pose proof (Hf 3%nat). pose proof (Hf 4%nat). pose proof (Hf 5%nat). pose proof (Hf 6%nat). pose proof (Hf 7%nat). pose proof (Hf 8%nat). pose proof (Hf 9%nat). lra.
      - rewrite Nat.add_succ_r. cbn [sum_to]. pose proof (Hf (11 + d)%nat). lra. }
    apply G; [exact LP|lia].
Qed.
Example C123_hypotheses_met :
  positive_coefficients neukum83 /\ range_ok neukum83 ex_C 1000 1 2 /\
  usual neukum83 ex_C 1000 1 2 (count_range [3 / 2] 1 2) 16 /\ usual neukum83 ex_C 1000 1 2 (count_range [5; 5 / 4; 3 / 2] 1 2) 16 /\
  Permutation [5; 5 / 4; 3 / 2] ([3 / 2] ++ [5 / 4; 5]) /\
  (count_range [3 / 2]%R 1%R 2%R < count_range [5; 5 / 4; 3 / 2]%R 1%R 2%R)%nat /\
  (exists p, craterpdf neukum83 ex_C 1000 1 2 (count_range [3 / 2] 1 2) 16 = Ok p) /\
  (exists q, craterpdf neukum83 ex_C 1000 1 2 (count_range [5; 5 / 4; 3 / 2] 1 2) 16 = Ok q) /\
  usual_buffered neukum83 (expected_at_1Ga neukum83 ex_C 1000 1 2) 2 16.
Proof.
  destruct C12_hypotheses_met as (Hc & Hr & _).
  assert (K1 : count_range [3 / 2] 1 2 = 1%nat). { unfold count_range. cbn [filter]. rewrite Rleb_true, Rltb_true by lra. reflexivity. }
  assert (K2 : count_range [5; 5 / 4; 3 / 2] 1 2 = 2%nat). { unfold count_range. cbn [filter]. rewrite !Rleb_true, (Rltb_false 5), !Rltb_true by lra. reflexivity. }
  assert (X : forall k, (k <= 2)%nat -> exists p, craterpdf neukum83 ex_C 1000 1 2 k 16 = Ok p).
  { intros k Hk. destruct (proj1 (cases neukum83 ex_C 1000 1 2 k 16 Hc Hr ltac:(lia)) (ex_usual k Hk)) as (p & E & _). now exists p. }
  rewrite K1, K2. split; [exact Hc|]. split; [exact Hr|]. split; [apply ex_usual; lia|]. split; [apply ex_usual; lia|]. split.
  { apply (Permutation_rev [5; 5 / 4; 3 / 2]). }
  split; [lia|]. split; [apply X; lia|]. split; [apply X; lia|].
  unfold usual_buffered. apply Rle_trans with (1 := ex_usual 2 (le_n _)). right. apply sum_to_ext. intros i Hi. unfold likelihood, expected_at_1Ga, expected_craters. now rewrite pow10_0, Rmult_1_r.
Qed.

Print Assumptions C123_ages_follow_counts.
Print Assumptions C123_added_craters.
Print Assumptions C123_larger_area.
Print Assumptions C123_probably_older.
Print Assumptions C123_buffered.
