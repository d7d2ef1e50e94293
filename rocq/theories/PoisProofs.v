(** Poisson ages from files: proofs. *)
From Coq Require Import String Ascii List ZArith Reals Lra Lia Bool Permutation Sorted.
From Verif Require Import Base NumModel NumLemmas InterpProofs ChronModel ChronSpec ChronProofs PdfModel PdfSpec PdfProofs PdfProps AgeSpec AgeProofs2 EndSpec MonoProofs MonoProps PoisSpec.
Import ListNotations.
Local Open Scope R_scope.

Section P.
Variables (p : pdf) (n : nat).
Hypothesis (D : distribution p n) (Hn : (2 <= n)%nat) (Pos : forall i, (i < n)%nat -> 0 < nth i (pdf_pdf p) 0).
Lemma flat i j : (i <= j < n)%nat -> nth i (pdf_cdf p) 0 = nth j (pdf_cdf p) 0 -> nth i (pdf_ts p) 0 = nth j (pdf_ts p) 0.
Proof.
  intros [H1 H2] E. assert (X : exists d, j = (i + d)%nat) by (exists (j - i)%nat; lia). destruct X as [d ->]. clear H1. revert H2 E. induction d as [|d IH]; intros H2 E; [now rewrite Nat.add_0_r|]. rewrite Nat.add_succ_r in *.
  pose proof (cdf_mono p n D Hn i (i + d) ltac:(lia)) as M1. pose proof (cdf_mono p n D Hn (i + d) (S (i + d)) ltac:(lia)) as M2.
  rewrite (IH ltac:(lia) ltac:(lra)). assert (E2 : nth (i + d) (pdf_cdf p) 0 = nth (S (i + d)) (pdf_cdf p) 0) by lra.
  rewrite !(d_cdf _ _ D) in E2 by lia. cbn [sum_to] in E2. assert (W : weight p (S (i + d)) = 0) by lra. unfold weight in W. pose proof (Pos (S (i + d)) H2). apply Rmult_integral in W. destruct W as [W|W]; [lra|].
  rewrite (d_width _ _ D) in W by lia. replace (S (i + d) - 1)%nat with (i + d)%nat in W by lia. lra.
Qed.
Lemma percentile_ok f : percentile (fun i => nth i (pdf_ts p) 0) (weight p) n f (pdf_t p f).
Proof.
  intros i Hi. rewrite <- (d_cdf _ _ D i Hi).
  pose proof (tbl_length p n D Hn) as TL. pose proof (tbl_nth p n D Hn) as TN. pose proof (tbl_sx p n D Hn) as SX. pose proof (tbl_ne p n D Hn) as NE. pose proof (pdf_t_ok p n D Hn f) as E.
  set (tbl := combine (pdf_cdf p) (pdf_ts p)) in *.
  assert (TM : forall a b, (a <= b < n)%nat -> nth a (pdf_ts p) 0 <= nth b (pdf_ts p) 0) by (intros a b H; apply (d_grid _ _ D a b H)).
  destruct (Rlt_le_dec f (nth 0 (pdf_cdf p) 0)) as [B|B].
  - rewrite interp_below in E by (try exact NE; rewrite TN; exact B). injection E as E. rewrite TN in E. cbn [snd] in E. rewrite <- E. split.
    + intros Q. pose proof (cdf_mono p n D Hn 0 i ltac:(lia)). lra.
    + intros _. apply TM. lia.
  - destruct (interp_segment tbl f SX NE) as (j & J1 & J2 & J3 & J4); [rewrite TN; exact B|]. rewrite TL in *. rewrite TN in J2, J4. cbn [fst snd] in *.
    destruct (Nat.eq_dec (S j) n) as [EJ|EJ].
    + specialize (J4 EJ). rewrite E in J4. injection J4 as ->. split; [intros _; apply TM; lia|]. intros Q. destruct (Nat.eq_dec i j) as [->|N]; [lra|].
      right. symmetry. apply flat; [lia|]. pose proof (cdf_mono p n D Hn i j ltac:(lia)). lra.
    + destruct (J3 ltac:(lia)) as [J5 J6]. rewrite E in J6. injection J6 as J6. rewrite !TN in *. cbn [fst snd] in *.
      pose proof (TM j (S j) ltac:(lia)) as TS. pose proof (slope_bounds (nth j (pdf_cdf p) 0) (nth j (pdf_ts p) 0) (nth (S j) (pdf_cdf p) 0) (nth (S j) (pdf_ts p) 0) f ltac:(lra) TS) as SB. rewrite <- J6 in SB. split.
      * intros Q. assert (i <= j)%nat. { destruct (le_lt_dec i j) as [L|L]; [exact L|]. pose proof (cdf_mono p n D Hn (S j) i ltac:(lia)). lra. } pose proof (TM i j ltac:(lia)). lra.
      * intros Q. destruct (le_lt_dec i j) as [L|L].
        -- pose proof (cdf_mono p n D Hn i j ltac:(lia)). assert (EF : f = nth j (pdf_cdf p) 0) by lra. rewrite (flat i j) by (lia || lra). rewrite J6, EF. lra.
        -- pose proof (TM (S j) i ltac:(lia)). lra.
Qed.
End P.

Lemma ages_ok cf n p e k : positive_coefficients cf -> (2 <= n)%nat -> proportional cf n p e k ->
  poisson_ages (N1 cf) (phi cf) e k n (fun i => nth i (pdf_ts p) 0) (weight p).
Proof.
  intros Hc Hn (D & G & c & Pc & F). assert (TS : forall i, (i < n)%nat -> nth i (pdf_ts p) 0 = sample_age cf (sample n i)) by (intros i Hi; rewrite G, grid_nth, sample_linspace by assumption; reflexivity). split; [|split; [|split]].
  - intros i Hi. rewrite TS by exact Hi. unfold sample_age, relative_density, sample. set (x := -10 + INR i * (15 / INR (n - 1))). assert (P1 : 0 < N1 cf 1) by (apply N1_pos; [exact Hc|lra]).
    assert (A : age_of cf (pow10 (log10 (N1 cf 1) + x)) (cf_t_a0 cf (log10 (N1 cf 1) + x))) by now apply age_of_ok. unfold cf_t_a0 in A. rewrite pow10_plus, pow10_log10 in A by exact P1. exact A.
  - intros i j H. apply (d_grid _ _ D i j H).
  - exists c. split; [exact Pc|]. intros i Hi. cbv zeta. unfold weight. rewrite (F i Hi), TS by exact Hi. unfold relative_density. fold (sample n i).
    assert (Wd : nth i (pdf_dt p) 0 = match i with O => nth 1 (pdf_ts p) 0 - nth 0 (pdf_ts p) 0 | S j => nth i (pdf_ts p) 0 - nth j (pdf_ts p) 0 end).
    { destruct i as [|i]; [rewrite (d_width0 _ _ D), (d_width _ _ D) by lia; reflexivity|]. rewrite (d_width _ _ D) by lia. now replace (S i - 1)%nat with i by lia. }
    rewrite Wd. destruct i as [|i]; [ring|]. rewrite (TS (S i)) by exact Hi. ring.
  - exact (d_total _ _ D).
Qed.
