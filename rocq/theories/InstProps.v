(** C125: the probability density of an age, and its ratio to that of the median age. *)
From Coq Require Import String List ZArith Reals Lra Lia Bool Sorted.
From Verif Require Import Base NumModel NumLemmas BinModel InterpProofs ChronModel ChronSpec ChronProofs ChronProps PdfModel PdfSpec PdfProofs PdfProps MonoProofs MonoProps InstModel.
Import ListNotations.
Local Open Scope R_scope.

(** [v] is read off the straight line between the points (a, x) and (b, y), at [t] *)
Definition on_the_line (a x b y t v : R) : Prop :=
  exists w, 0 <= w < 1 /\ t = (1 - w) * a + w * b /\ v = (1 - w) * x + w * y.
(** the age of sample i of the density axis is the last of its ages: the next sample is older, or there is none *)
Definition last_of_its_age (cf : chron) (n i : nat) : Prop :=
  (i < n)%nat /\ ((S i < n)%nat -> sample_age cf (sample n i) < sample_age cf (sample n (S i))).

Section Density.
Context (p : pdf) (n : nat) (D : distribution p n) (Hn : (2 <= n)%nat).
Let tbl := combine (pdf_ts p) (pdf_pdf p).
Lemma dens_length : length tbl = n.
Proof. unfold tbl. destruct (d_lengths _ _ D) as (A & _ & B & _). rewrite combine_length. lia. Qed.
Lemma dens_nth i : nth i tbl (0, 0) = (nth i (pdf_ts p) 0, nth i (pdf_pdf p) 0).
Proof. unfold tbl. destruct (d_lengths _ _ D) as (A & _ & B & _). apply nth_combine_R. lia. Qed.
Lemma dens_sorted : StronglySorted Rle (map fst tbl).
Proof. unfold tbl. destruct (d_lengths _ _ D) as (A & _ & B & _). rewrite map_fst_combine' by lia. exact (ts_sorted' p n D Hn). Qed.
Lemma dens_ne : tbl <> [].
Proof. intros E. pose proof dens_length as X. rewrite E in X. cbn in X. lia. Qed.
Lemma dens_ok t : interp t tbl = Ok (relative_probability p t).
Proof. unfold relative_probability. fold tbl. destruct (interp_total t tbl dens_ne) as (y & E). now rewrite E. Qed.

Lemma dens_between i t : (S i < n)%nat -> nth i (pdf_ts p) 0 <= t < nth (S i) (pdf_ts p) 0 ->
  on_the_line (nth i (pdf_ts p) 0) (nth i (pdf_pdf p) 0) (nth (S i) (pdf_ts p) 0) (nth (S i) (pdf_pdf p) 0) t (relative_probability p t).
Proof.
  intros Hi Ht. pose proof (interp_at tbl t i dens_sorted) as A. rewrite dens_length, !dens_nth in A. cbn [fst snd] in A. specialize (A Hi Ht). rewrite dens_ok in A.
  set (a := nth i (pdf_ts p) 0) in *. set (b := nth (S i) (pdf_ts p) 0) in *. assert (v := A). injection v as ->.
  exists ((t - a) / (b - a)). assert (0 < b - a) by lra. repeat split.
  - apply Rmult_le_pos; [lra|]. left. now apply Rinv_0_lt_compat.
  - apply (Rmult_lt_reg_r (b - a)); [lra|]. unfold Rdiv. rewrite Rmult_assoc, Rinv_l by lra. lra.
  - field. lra.
  - field. lra.
Qed.
Lemma dens_at i : (i < n)%nat -> ((S i < n)%nat -> nth i (pdf_ts p) 0 < nth (S i) (pdf_ts p) 0) -> relative_probability p (nth i (pdf_ts p) 0) = nth i (pdf_pdf p) 0.
Proof.
  intros Hi H. destruct (Nat.eq_dec (S i) n) as [E|E].
  - pose proof (interp_beyond tbl (nth i (pdf_ts p) 0) dens_sorted dens_ne) as A. rewrite dens_length, dens_nth, dens_ok in A. cbn [fst snd] in A. replace (n - 1)%nat with i in A by lia. specialize (A (Rle_refl _)). now injection A.
  - destruct (dens_between i (nth i (pdf_ts p) 0) ltac:(lia)) as (w & W & T & V); [specialize (H ltac:(lia)); lra|]. specialize (H ltac:(lia)).
    assert (Z : w * (nth (S i) (pdf_ts p) 0 - nth i (pdf_ts p) 0) = 0) by lra. apply Rmult_integral in Z. destruct Z as [Z|Z]; [|lra]. subst w. lra.
Qed.
Lemma dens_beyond t : nth (n - 1) (pdf_ts p) 0 <= t -> relative_probability p t = nth (n - 1) (pdf_pdf p) 0.
Proof.
  intros H. pose proof (interp_beyond tbl t dens_sorted dens_ne) as A. rewrite dens_length, dens_nth, dens_ok in A. cbn [fst snd] in A. specialize (A H). now injection A.
Qed.
Lemma dens_below t : t < nth 0 (pdf_ts p) 0 -> relative_probability p t = nth 0 (pdf_pdf p) 0.
Proof.
  intros H. pose proof (interp_below tbl t dens_ne) as A. rewrite dens_nth, dens_ok in A. cbn [fst snd] in A. specialize (A H). now injection A.
Qed.
(** every age lies before, between or after the sample ages *)
Lemma dens_where t : t < nth 0 (pdf_ts p) 0 \/ (exists i, (S i < n)%nat /\ nth i (pdf_ts p) 0 <= t < nth (S i) (pdf_ts p) 0) \/ nth (n - 1) (pdf_ts p) 0 <= t.
Proof.
  destruct (Rlt_le_dec t (nth 0 (pdf_ts p) 0)) as [L|G]; [now left|right].
  pose proof (interp_segment tbl t dens_sorted dens_ne) as A. rewrite dens_length, dens_nth in A. cbn [fst snd] in A. destruct (A G) as (j & J1 & J2 & J3 & _). rewrite !dens_nth in *. cbn [fst snd] in *.
  destruct (Nat.eq_dec (S j) n) as [E|E].
  - right. now replace (n - 1)%nat with j by lia.
  - left. exists j. split; [lia|]. split; [exact J2|]. now apply J3; lia.
Qed.
Lemma dens_pos t : (forall i, (i < n)%nat -> 0 < nth i (pdf_pdf p) 0) -> 0 < relative_probability p t.
Proof.
  intros P. destruct (dens_where t) as [H|[(i & Hi & H)|H]].
  - rewrite dens_below by exact H. apply P. lia.
  - destruct (dens_between i t Hi H) as (w & W & _ & ->). pose proof (P i ltac:(lia)). pose proof (P (S i) Hi). nra.
  - rewrite dens_beyond by exact H. apply P. lia.
Qed.
Lemma ratio_eq t : instantaneous_ratio p t = if Reqb (relative_probability p (pdf_t p (1 / 2))) 0 then Err NotANumber else Ok (relative_probability p t / relative_probability p (pdf_t p (1 / 2))).
Proof. unfold instantaneous_ratio. fold tbl. cbn [mapM bind]. rewrite !dens_ok. reflexivity. Qed.
End Density.

Lemma craterpdf_given cf C area lo hi k n p : positive_coefficients cf -> range_ok cf C area lo hi -> (2 <= n)%nat -> craterpdf cf C area lo hi k n = Ok p ->
  distribution p n /\ (forall i, (i < n)%nat -> nth i (pdf_ts p) 0 = sample_age cf (sample n i)) /\ forall i, (i < n)%nat -> 0 < nth i (pdf_pdf p) 0.
Proof.
  intros Hc Hr Hn E. destruct (outcome cf C area lo hi k n Hc Hr Hn) as [(q & Eq & D & G & P)|(F & _)]; [|congruence].
  rewrite E in Eq. injection Eq as <-. split; [exact D|]. split; [|exact P]. intros i Hi. rewrite G. unfold sample_age. rewrite grid_nth by assumption. now rewrite sample_linspace.
Qed.

(** ** C125 *)
(** the density is defined and positive at every age; it joins the densities of the sample ages by
    straight lines and is constant before the first and after the last *)
Theorem C125_density_of_an_age :
  forall cf C area lo hi k n p, positive_coefficients cf -> range_ok cf C area lo hi -> (2 <= n)%nat -> craterpdf cf C area lo hi k n = Ok p ->
    (forall t, 0 < relative_probability p t) /\
    (forall i, last_of_its_age cf n i -> relative_probability p (sample_age cf (sample n i)) = nth i (pdf_pdf p) 0) /\
    (forall i t, (S i < n)%nat -> sample_age cf (sample n i) <= t < sample_age cf (sample n (S i)) ->
       on_the_line (sample_age cf (sample n i)) (nth i (pdf_pdf p) 0) (sample_age cf (sample n (S i))) (nth (S i) (pdf_pdf p) 0) t (relative_probability p t)) /\
    (forall t, t < sample_age cf (-10) -> relative_probability p t = nth 0 (pdf_pdf p) 0) /\
    (forall t, sample_age cf 5 <= t -> relative_probability p t = nth (n - 1) (pdf_pdf p) 0).
Proof.
  intros cf C area lo hi k n p Hc Hr Hn E. destruct (craterpdf_given cf C area lo hi k n p Hc Hr Hn E) as (D & T & P).
  assert (S0 : sample n 0 = -10) by (unfold sample; cbn [INR]; lra).
  assert (S1 : sample n (n - 1) = 5). { unfold sample. assert (0 < INR (n - 1)) by (apply lt_0_INR; lia). field. lra. }
  split; [intros t; now apply (dens_pos p n D Hn)|]. split; [|split; [|split]].
  - intros i (Hi & H). rewrite <- (T i Hi). apply (dens_at p n D Hn i Hi). intros Hs. rewrite (T i Hi), (T (S i) Hs). now apply H.
  - intros i t Hi H. rewrite <- (T i), <- (T (S i)) in * by lia. now apply (dens_between p n D Hn).
  - intros t H. apply (dens_below p n D Hn). rewrite (T 0%nat), S0 by lia. exact H.
  - intros t H. apply (dens_beyond p n D Hn). rewrite (T (n - 1)%nat), S1 by lia. exact H.
Qed.
(** the ratio is defined for every age, positive, and 1 at the median age; times the density of the
    median it is the density of the age *)
Theorem C125_ratio_to_the_median :
  forall cf C area lo hi k n p, positive_coefficients cf -> range_ok cf C area lo hi -> (2 <= n)%nat -> craterpdf cf C area lo hi k n = Ok p ->
    instantaneous_ratio p (pdf_t p (1 / 2)) = Ok 1 /\
    forall t, exists r, instantaneous_ratio p t = Ok r /\ 0 < r /\ r * relative_probability p (pdf_t p (1 / 2)) = relative_probability p t.
Proof.
  intros cf C area lo hi k n p Hc Hr Hn E. destruct (craterpdf_given cf C area lo hi k n p Hc Hr Hn E) as (D & T & P).
  pose proof (dens_pos p n D Hn (pdf_t p (1 / 2)) P) as M. set (m := relative_probability p (pdf_t p (1 / 2))) in *.
  split.
  - rewrite (ratio_eq p n D Hn). fold m. destruct (Reqb_spec m 0); [lra|]. f_equal. field. lra.
  - intros t. rewrite (ratio_eq p n D Hn). fold m. destruct (Reqb_spec m 0); [lra|]. eexists. split; [reflexivity|]. pose proof (dens_pos p n D Hn t P).
    split; [apply Rmult_lt_0_compat; [assumption|now apply Rinv_0_lt_compat]|field; lra].
Qed.
(** ratios at two sample ages compare as the likelihoods of the count do *)
Theorem C125_ratios_are_likelihood_ratios :
  forall cf C area lo hi k n p i j ri rj, positive_coefficients cf -> range_ok cf C area lo hi -> (2 <= n)%nat -> usual cf C area lo hi k n ->
    craterpdf cf C area lo hi k n = Ok p -> last_of_its_age cf n i -> last_of_its_age cf n j ->
    instantaneous_ratio p (sample_age cf (sample n i)) = Ok ri -> instantaneous_ratio p (sample_age cf (sample n j)) = Ok rj ->
    ri * likelihood cf C area lo hi k n j = rj * likelihood cf C area lo hi k n i.
Proof.
  intros cf C area lo hi k n p i j ri rj Hc Hr Hn U E Hi Hj Ei Ej. destruct (C125_density_of_an_age cf C area lo hi k n p Hc Hr Hn E) as (P & A & _).
  destruct (craterpdf_given cf C area lo hi k n p Hc Hr Hn E) as (D & _). rewrite (ratio_eq p n D Hn) in Ei, Ej. pose proof (P (pdf_t p (1 / 2))) as M. destruct (Reqb_spec (relative_probability p (pdf_t p (1 / 2))) 0); [lra|].
  injection Ei as <-. injection Ej as <-. rewrite (A i Hi), (A j Hj).
  destruct (proj1 (cases cf C area lo hi k n Hc Hr Hn) U) as (p' & E' & _ & _ & c & Pc & F). rewrite E in E'. injection E' as <-. rewrite (F i), (F j) by (apply Hi || apply Hj). field. lra.
Qed.
(** more craters where fewer were expected: any older age gains on any younger one *)
Theorem C125_older_ages_gain :
  forall cf C area lo hi k p area' lo' hi' k' q n i j pi pj qi qj, positive_coefficients cf -> (2 <= n)%nat ->
    range_ok cf C area lo hi -> range_ok cf C area' lo' hi' -> usual cf C area lo hi k n -> usual cf C area' lo' hi' k' n ->
    craterpdf cf C area lo hi k n = Ok p -> craterpdf cf C area' lo' hi' k' n = Ok q ->
    (k <= k')%nat -> expected_at_1Ga cf C area' lo' hi' <= expected_at_1Ga cf C area lo hi ->
    last_of_its_age cf n i -> last_of_its_age cf n j -> (i <= j)%nat ->
    instantaneous_ratio p (sample_age cf (sample n i)) = Ok pi -> instantaneous_ratio p (sample_age cf (sample n j)) = Ok pj ->
    instantaneous_ratio q (sample_age cf (sample n i)) = Ok qi -> instantaneous_ratio q (sample_age cf (sample n j)) = Ok qj ->
    pj / pi <= qj / qi.
Proof.
  intros cf C area lo hi k p area' lo' hi' k' q n i j pi pj qi qj Hc Hn R1 R2 U1 U2 E1 E2 K X Hi Hj Hij Epi Epj Eqi Eqj.
  pose proof (C125_ratios_are_likelihood_ratios cf C area lo hi k n p i j pi pj Hc R1 Hn U1 E1 Hi Hj Epi Epj) as P.
  pose proof (C125_ratios_are_likelihood_ratios cf C area' lo' hi' k' n q i j qi qj Hc R2 Hn U2 E2 Hi Hj Eqi Eqj) as Q.
  assert (G : forall r t x, craterpdf cf C area lo hi k n = Ok r \/ craterpdf cf C area' lo' hi' k' n = Ok r -> instantaneous_ratio r t = Ok x -> 0 < x).
  { intros r t x [E|E] Ex; [destruct (C125_ratio_to_the_median cf C area lo hi k n r Hc R1 Hn E) as (_ & H)|destruct (C125_ratio_to_the_median cf C area' lo' hi' k' n r Hc R2 Hn E) as (_ & H)]; destruct (H t) as (y & Ey & Y & _); rewrite Ex in Ey; injection Ey as <-; exact Y. }
  pose proof (G p _ _ (or_introl E1) Epi) as G1. pose proof (G p _ _ (or_introl E1) Epj) as G2. pose proof (G q _ _ (or_intror E2) Eqi) as G3. pose proof (G q _ _ (or_intror E2) Eqj) as G4.
  assert (He : 0 < expected_at_1Ga cf C area' lo' hi' <= expected_at_1Ga cf C area lo hi) by (split; [now apply expected_pos|exact X]).
  pose proof (lk_ratio cf n Hc Hn _ _ k k' i j He K Hij) as O. cbv beta zeta in O.
  assert (LL : forall a l h kk m, likelihood cf C a l h kk n m = (expected_at_1Ga cf C a l h * pow10 (sample n m)) ^ kk * exp (- (expected_at_1Ga cf C a l h * pow10 (sample n m))) / INR (fact kk) * phi cf (sample_age cf (sample n m))).
  { intros. unfold likelihood, expected_at_1Ga, expected_craters. rewrite pow10_0, Rmult_1_r. reflexivity. }
  rewrite <- !LL in O.
  assert (LP : forall a l h kk m, range_ok cf C a l h -> 0 < likelihood cf C a l h kk n m).
  { intros a l h kk m H. unfold likelihood. apply Rmult_lt_0_compat; [|now apply phi_pos]. apply pmf_pos. now apply expected_pos. }
  pose proof (LP area lo hi k i R1) as L1. pose proof (LP area lo hi k j R1) as L2. pose proof (LP area' lo' hi' k' i R2) as L3. pose proof (LP area' lo' hi' k' j R2) as L4.
  set (a := likelihood cf C area lo hi k n i) in *. set (b := likelihood cf C area lo hi k n j) in *. set (c := likelihood cf C area' lo' hi' k' n i) in *. set (d := likelihood cf C area' lo' hi' k' n j) in *.
  clearbody a b c d. clear G LL LP Epi Epj Eqi Eqj E1 E2 U1 U2.
  replace (pj / pi) with (b / a). 2:{ apply (Rmult_eq_reg_r (a * pi)); [|apply Rgt_not_eq; now apply Rmult_lt_0_compat]. replace (b / a * (a * pi)) with (b * pi) by (field; lra). replace (pj / pi * (a * pi)) with (pj * a) by (field; lra). lra. }
  replace (qj / qi) with (d / c). 2:{ apply (Rmult_eq_reg_r (c * qi)); [|apply Rgt_not_eq; now apply Rmult_lt_0_compat]. replace (d / c * (c * qi)) with (d * qi) by (field; lra). replace (qj / qi * (c * qi)) with (qj * c) by (field; lra). lra. }
  apply (Rmult_le_reg_r (a * c)); [now apply Rmult_lt_0_compat|]. replace (b / a * (a * c)) with (c * b) by (field; lra). replace (d / c * (a * c)) with (d * a) by (field; lra). exact O.
Qed.

(** ** The hypotheses can be met: one and two craters of 1-2 km on 1000 km2, 16 densities *)
Lemma ex_sample_lt i : (i <= 10)%nat -> sample 16 i = INR i - 10.
Proof. intros _. unfold sample. change (16 - 1)%nat with 15%nat. rewrite (INR_IZR_INZ 15). change (IZR (Z.of_nat 15)) with 15. lra. Qed.
Example C125_hypotheses_met :
  positive_coefficients neukum83 /\ range_ok neukum83 ex_C 1000 1 2 /\ usual neukum83 ex_C 1000 1 2 1 16 /\ usual neukum83 ex_C 1000 1 2 2 16 /\
  (forall i, (i <= 9)%nat -> last_of_its_age neukum83 16 i) /\ last_of_its_age neukum83 16 15 /\
  (exists p, craterpdf neukum83 ex_C 1000 1 2 1 16 = Ok p /\ exists r, instantaneous_ratio p (sample_age neukum83 (sample 16 9)) = Ok r) /\
  (exists q, craterpdf neukum83 ex_C 1000 1 2 2 16 = Ok q /\ exists r, instantaneous_ratio q (sample_age neukum83 (sample 16 9)) = Ok r).
Proof.
  destruct C12_hypotheses_met as (Hc & Hr & _).
  assert (X : forall k, (k <= 2)%nat -> exists p, craterpdf neukum83 ex_C 1000 1 2 k 16 = Ok p /\ exists r, instantaneous_ratio p (sample_age neukum83 (sample 16 9)) = Ok r).
  { intros k Hk. destruct (proj1 (cases neukum83 ex_C 1000 1 2 k 16 Hc Hr ltac:(lia)) (ex_usual k Hk)) as (p & E & _). exists p. split; [exact E|].
    destruct (C125_ratio_to_the_median neukum83 ex_C 1000 1 2 k 16 p Hc Hr ltac:(lia) E) as (_ & H). destruct (H (sample_age neukum83 (sample 16 9))) as (r & R & _). now exists r. }
  split; [exact Hc|]. split; [exact Hr|]. split; [apply ex_usual; lia|]. split; [apply ex_usual; lia|]. split.
  { intros i Hi. split; [lia|]. intros _. unfold sample_age. rewrite !ex_sample_lt by lia. pose proof (N1_pos neukum83 Hc 1 ltac:(lra)) as N. pose proof (N1_lt neukum83 Hc 1 5 ltac:(lra)) as M.
    pose proof (pow10_pos (INR i - 10)) as P. rewrite S_INR. assert (I9 : INR i <= 9) by (replace 9 with (INR 9) by (rewrite INR_IZR_INZ; reflexivity); now apply le_INR).
    assert (P1 : pow10 (INR i - 10) <= 1) by (rewrite <- pow10_0; apply pow10_le; lra). assert (P2 : pow10 (INR i - 10) < pow10 (INR i + 1 - 10)) by (apply pow10_lt; lra).
    apply cf_t_lt; [exact Hc|split; nra|nra]. }
  split; [split; [lia|intros H; lia]|]. split; apply X; lia.
Qed.

Print Assumptions C125_density_of_an_age.
Print Assumptions C125_ratio_to_the_median.
Print Assumptions C125_ratios_are_likelihood_ratios.
Print Assumptions C125_older_ages_gain.
