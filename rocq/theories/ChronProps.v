(** C17, C18: chronology functions.  [N1 c], [phi c], [cf_a0 c], [cf_t c], [cf_t_a0 c] are the
    methods N1(t), phi(t), a0(t), t(n1=..), t(a0=..) of a Chronologyfn with coefficients [c]. *)
From Coq Require Import List ZArith Reals Lra Lia.
From Verif Require Import Base NumModel ChronModel ChronSpec ChronProofs.
Import ListNotations.
Local Open Scope R_scope.

(** Neukum (1983), Moon: coefficients 5.44e-14, 6.93, 0, 8.38e-4 *)
Definition neukum83 : chron := mkChron (544 / 10 ^ 16) (693 / 100) (838 / 10 ^ 6).
Example neukum83_loads : make_chron (Some [544 / 10 ^ 16; 693 / 100; 0; 838 / 10 ^ 6]) = Ok neukum83.
Proof. reflexivity. Qed.
Example neukum83_positive : positive_coefficients neukum83.
Proof. unfold positive_coefficients, neukum83. cbn [ch_p0 ch_p1 ch_p3]. repeat split; lra. Qed.

Theorem C17_density_starts_at_zero : forall c, N1 c 0 = 0.
Proof. exact N1_zero. Qed.
Theorem C17_density_increases :
  forall c, positive_coefficients c -> forall t u, t < u -> N1 c t < N1 c u.
Proof. exact N1_lt. Qed.
Theorem C17_rate_is_the_derivative : forall c t, derivable_pt_lim (N1 c) t (phi c t).
Proof. exact N1_derivative. Qed.
(** without coefficients, or with fewer than four, no chronology function exists *)
Theorem C17_needs_four_coefficients :
  forall p c, make_chron p = Ok c -> exists a b x d r, p = Some (a :: b :: x :: d :: r) /\ c = mkChron a b d.
Proof.
  intros [p|] c H; [|discriminate].
  destruct p as [|a [|b [|x [|d r]]]]; lazy in H; try discriminate H.
  exists a, b, x, d, r. split; congruence.
Qed.

Theorem C18_exact_at_table_ages :
  forall c, positive_coefficients c -> forall t, table_age t -> cf_t c (N1 c t) = t.
Proof. exact cf_t_exact. Qed.
(** never too old, and never more than one table step too young *)
Theorem C18_within_one_step :
  forall c, positive_coefficients c -> forall t, 0 <= t <= 5 -> t - age_step <= cf_t c (N1 c t) <= t.
Proof. exact cf_t_within. Qed.
Theorem C18_monotone :
  forall c, positive_coefficients c -> forall n m, n <= m -> cf_t c n <= cf_t c m.
Proof. exact cf_t_mono. Qed.
Theorem C18_strictly_monotone_inside :
  forall c, positive_coefficients c -> forall n m, 0 <= n < m -> n < N1 c 5 -> cf_t c n < cf_t c m.
Proof. exact cf_t_lt. Qed.
Theorem C18_clamped :
  forall c, positive_coefficients c -> forall n,
  0 <= cf_t c n <= 5 /\ (n <= 0 -> cf_t c n = 0) /\ (N1 c 5 <= n -> cf_t c n = 5).
Proof. intros c H n. split; [now apply cf_t_range|]. split; [now apply cf_t_below|now apply cf_t_beyond]. Qed.
(** the same for a0(t), t(a0) *)
Theorem C18_a0_inverse :
  forall c, positive_coefficients c -> forall t, 0 < t ->
  (table_age t -> cf_t_a0 c (cf_a0 c t) = t) /\
  (t <= 5 -> t - age_step <= cf_t_a0 c (cf_a0 c t) <= t).
Proof.
  intros c H t Ht. rewrite a0_inverse by assumption. split; intros K.
  - now apply cf_t_exact.
  - apply cf_t_within; [exact H|lra].
Qed.

Example C17_C18_hypotheses_met :
  positive_coefficients neukum83 /\ table_age (5 * 200 / 999) /\
  cf_t neukum83 (N1 neukum83 (5 * 200 / 999)) = 5 * 200 / 999.
Proof.
  assert (T : table_age (5 * 200 / 999)).
  { exists 200%nat. split; [lia|]. rewrite INR_IZR_INZ. reflexivity. }
  split; [exact neukum83_positive|]. split; [exact T|]. now apply C18_exact_at_table_ages; [exact neukum83_positive|].
Qed.

Print Assumptions C17_rate_is_the_derivative.
Print Assumptions C17_density_increases.
Print Assumptions C18_exact_at_table_ages.
Print Assumptions C18_within_one_step.
Print Assumptions C18_clamped.
Print Assumptions C18_a0_inverse.
