(** C98: the small plots of an age distribution. *)
From Coq Require Import String Ascii List ZArith Reals Bool Lia Lra Psatz.
From Verif Require Import Base NumModel NumLemmas StrModel FmtModel FmtSpec IoSpec PlotModel PlotSpec PlotProofs PlotProps PdfModel PdfSpec PdfProofs PdfProps SetModel SetProps3 MiniModel MiniSpec MiniProofs MiniProofs2.
Import ListNotations.
Local Open Scope R_scope.

(** what is used of the error function *)
Definition error_function (erf : R -> R) : Prop := erf 0 = 0 /\ (forall x y, x < y -> erf x < erf y) /\ erf (1 / sqrt 2) <= 994 / 1000.
(** the ages at the given fractions, as drawn *)
Definition one_sigma (erf : R -> R) : R * R := ((1 - erf (1 / sqrt 2)) / 2, (1 + erf (1 / sqrt 2)) / 2).

Lemma erf_half erf : error_function erf -> 0 < erf (1 / sqrt 2) <= 994 / 1000.
Proof.
  intros (E0 & EI & E1). split; [|exact E1]. rewrite <- E0. apply EI. apply Rdiv_lt_0_compat; [lra|]. apply sqrt_lt_R0. lra.
Qed.
Lemma max_age p n e : distribution p n -> (2 <= n)%nat -> 0 < e <= 994 / 1000 ->
  list_max (pdf_t p (3 / 1000)) [pdf_t p ((1 - e) / 2); pdf_t p (1 / 2); pdf_t p ((1 + e) / 2); pdf_t p (997 / 1000)] = pdf_t p (997 / 1000).
Proof.
  intros D N H. pose proof (pdf_t_mono p n D N (3 / 1000) (997 / 1000) ltac:(lra)). pose proof (pdf_t_mono p n D N ((1 - e) / 2) (997 / 1000) ltac:(lra)).
  pose proof (pdf_t_mono p n D N (1 / 2) (997 / 1000) ltac:(lra)). pose proof (pdf_t_mono p n D N ((1 + e) / 2) (997 / 1000) ltac:(lra)).
  unfold list_max. cbn [fold_right]. rewrite (Rmax_left (pdf_t p (997 / 1000)) (pdf_t p (3 / 1000))) by lra.
  rewrite (Rmax_right (pdf_t p ((1 + e) / 2))), (Rmax_right (pdf_t p (1 / 2))), (Rmax_right (pdf_t p ((1 - e) / 2))) by lra. reflexivity.
Qed.
Lemma plot_parts fuel erf p n m : error_function erf -> distribution p n -> (2 <= n)%nat -> plot_pdf fuel erf p = Some (Ok m) ->
  let t f := pdf_t p f in
  mp_curve m = combine (pdf_ts p) (pdf_pdf p) /\
  mp_shaded m = samples p (mark p (t (fst (one_sigma erf)))) (mark p (t (snd (one_sigma erf)))) /\
  mp_median m = samples p (mark p (t (1 / 2))) (mark p (t (1 / 2)) + 1) /\
  linear_axis fuel (t (997 / 1000)) = Some (Ok (mp_axis m)).
Proof.
  intros EF D N. pose proof (erf_half erf EF) as H. unfold plot_pdf. cbn [gaussian_percentiles app map nth]. change (INR 1) with 1.
  unfold one_sigma. cbn [fst snd]. set (e := erf (1 / sqrt 2)) in *.
  replace (1 - (1 - e) / 2) with ((1 + e) / 2) by lra.
  pose proof (max_age p n e D N H) as MX.
  rewrite MX. destruct (linear_axis fuel (pdf_t p (997 / 1000))) as [[a|x]|]; cbn [bind]; intros Q; try discriminate Q. injection Q as <-. cbn. auto.
Qed.
Lemma run_all p n : distribution p n -> combine (pdf_ts p) (pdf_pdf p) = run p 0 n.
Proof.
  intros D. unfold run. rewrite Nat.sub_0_r. rewrite <- combine_maps_R. f_equal.
  - apply (nth_ext _ _ 0 0); [now rewrite map_length, seq_length, (len_ts p n D)|]. intros i I. rewrite (len_ts p n D) in I. rewrite (nth_map_seq _ n i 0 I). reflexivity.
  - apply (nth_ext _ _ 0 0); [now rewrite map_length, seq_length, (len_pdf p n D)|]. intros i I. rewrite (len_pdf p n D) in I. rewrite (nth_map_seq _ n i 0 I). reflexivity.
Qed.

(** The curve is drawn through all samples.  If the first sample has less probability than lies below the lower one-sigma age, shading begins
    at the last sample before the lower age and ends just before the last sample before the upper age, and the median is marked at the
    last sample before it; the three ages are those reported with the plot. *)
Theorem C98_shading : forall fuel erf p n m, error_function erf -> distribution p n -> (2 <= n)%nat -> plot_pdf fuel erf p = Some (Ok m) ->
  nth 0 (pdf_cdf p) 0 < fst (one_sigma erf) ->
  mp_curve m = run p 0 n /\
  exists median lower upper a c b, median1sigma erf p = [median; lower; upper] /\
    last_before p lower a /\ last_before p median c /\ last_before p upper b /\ (a <= c <= b)%nat /\
    mp_shaded m = run p a b /\ mp_median m = run p c (S c).
Proof.
  intros fuel erf p n m EF D N E F. destruct (plot_parts fuel erf p n m EF D N E) as (E1 & E2 & E3 & _). pose proof (erf_half erf EF) as H.
  split; [rewrite E1; now apply run_all|]. destruct EF as (E0 & EI & _).
  destruct (C13_median1sigma_order erf E0 EI p n D N) as (median & lower & upper & M & O & _ & _ & -> & -> & ->).
  unfold one_sigma in *. cbn [fst snd] in *. set (e := erf (1 / sqrt 2)) in *.
  destruct (samples_between p n D N ((1 - e) / 2) ((1 + e) / 2) ltac:(lra) F) as (a & b & LA & LB & AB & BN & ES).
  destruct (samples_at p n D N (1 / 2) ltac:(lra) ltac:(lra)) as (c & LC & EC).
  exists (pdf_t p (1 / 2)), (pdf_t p ((1 - e) / 2)), (pdf_t p ((1 + e) / 2)), a, c, b. split; [exact M|]. repeat (split; [assumption|]).
  split; [|split; congruence]. split; [apply (last_before_mono p n N _ _ a c LA LC)|apply (last_before_mono p n N _ _ c b LC LB)]; lra.
Qed.
Print Assumptions C98_shading.
(** If the first sample has more than that probability, nothing is shaded; if it has more than half, the median is not marked. *)
Theorem C98_first_sample_refuted : forall fuel erf p n m, error_function erf -> distribution p n -> (2 <= n)%nat -> plot_pdf fuel erf p = Some (Ok m) ->
  (fst (one_sigma erf) < nth 0 (pdf_cdf p) 0 -> mp_shaded m = []) /\ (1 / 2 < nth 0 (pdf_cdf p) 0 -> mp_median m = []).
Proof.
  intros fuel erf p n m EF D N E. destruct (plot_parts fuel erf p n m EF D N E) as (_ & E2 & E3 & _). split; intros F.
  - rewrite E2. now apply (samples_between_none p n D N).
  - rewrite E3. now apply (samples_at_none p n D N).
Qed.
Print Assumptions C98_first_sample_refuted.
(** If no sample lies between the one-sigma ages, nothing is shaded either. *)
Theorem C98_narrow_refuted : forall fuel erf p n m, error_function erf -> distribution p n -> (2 <= n)%nat -> plot_pdf fuel erf p = Some (Ok m) ->
  (forall i, (i < n)%nat -> ~ (pdf_t p (fst (one_sigma erf)) <= nth i (pdf_ts p) 0 < pdf_t p (snd (one_sigma erf)))) ->
  nth 0 (pdf_cdf p) 0 < fst (one_sigma erf) -> mp_shaded m = [].
Proof.
  intros fuel erf p n m EF D N E G F. destruct (plot_parts fuel erf p n m EF D N E) as (_ & E2 & _ & _). pose proof (erf_half erf EF) as H.
  rewrite E2. unfold one_sigma in *. cbn [fst snd] in *. set (e := erf (1 / sqrt 2)) in *.
  destruct (samples_between p n D N ((1 - e) / 2) ((1 + e) / 2) ltac:(lra) F) as (a & b & (A1 & A2 & A3) & (B1 & B2 & B3) & AB & BN & ->).
  destruct (Nat.eq_dec a b) as [-> |Q]; [unfold run; now rewrite Nat.sub_diag|exfalso]. apply (G b ltac:(lia)). split; [|exact B2]. apply A3. lia.
Qed.
Print Assumptions C98_narrow_refuted.

(** The axis goes from 0 to the last of two or three ticks, which are multiples of a round step; the last tick is the first multiple that is
    not below the age with 99.7% of the probability.  Every label is the exact value of its tick, in the unit that goes with the
    last tick, which is named after its value. *)
Theorem C98_axis : forall erf p n, error_function erf -> distribution p n -> (2 <= n)%nat -> 0 < pdf_t p (997 / 1000) ->
  exists fuel step k f u nums, let last_tick := (INR k - 1) * step in
    nice_number step /\ (k = 2%nat \/ k = 3%nat) /\ last_tick - step < pdf_t p (997 / 1000) <= last_tick /\ best_unit last_tick f u /\
    Forall2 (fun s t => decimal s (t / f)) nums (multiples 0 step k) /\
    forall g, (fuel <= g)%nat -> exists m, plot_pdf g erf p = Some (Ok m) /\
      ma_ticks (mp_axis m) = multiples 0 step k /\ ma_limits (mp_axis m) = (0, last_tick) /\
      ma_labels (mp_axis m) = removelast nums ++ [L "      " ++ last nums [] ++ L " " ++ u].
Proof.
  intros erf p n EF D N T. set (t := pdf_t p (997 / 1000)) in *. destruct (ticks_from_0 t T) as (fuel & step & k & E & NS & SP & K & B).
  destruct (mini_labels_ok step k NS SP K) as (f & u & nums & BU & F & ML). exists fuel, step, k, f, u, nums. cbv zeta.
  split; [exact NS|]. split; [exact K|]. split; [split; lra|]. split; [exact BU|]. split; [exact F|].
  intros g G. assert (LA : exists a, linear_axis g t = Some (Ok a) /\ ma_ticks a = multiples 0 step k /\ ma_limits a = (0, (INR k - 1) * step) /\
    ma_labels a = removelast nums ++ [L "      " ++ last nums [] ++ L " " ++ u]).
  { unfold linear_axis. rewrite (E g G), ML. cbn [bind]. destruct (max_tick step k SP K) as [_ MT]. destruct (multiples 0 step k) as [|x0 r]; [destruct MT|]. destruct MT as [M1 M2].
    eexists. split; [reflexivity|]. cbn [ma_ticks ma_limits ma_labels]. split; [reflexivity|]. split; [|reflexivity]. rewrite M1, M2, Rmax_right by lra. reflexivity. }
  destruct LA as (a & LA & L1 & L2 & L3).
  destruct (plot_pdf g erf p) as [[m|x]|] eqn:PE.
  - destruct (plot_parts g erf p n m EF D N PE) as (_ & _ & _ & LE). fold t in LE. rewrite LA in LE. injection LE as LE. exists m. rewrite <- LE. auto.
  - exfalso. revert PE. pose proof (erf_half erf EF) as H. unfold plot_pdf. cbn [gaussian_percentiles app map nth]. change (INR 1) with 1. set (e := erf (1 / sqrt 2)) in *.
    replace (1 - (1 - e) / 2) with ((1 + e) / 2) by lra.
    pose proof (max_age p n e D N H) as MX. fold t in MX. fold t.
    rewrite MX, LA. cbn [bind]. discriminate.
  - exfalso. revert PE. pose proof (erf_half erf EF) as H. unfold plot_pdf. cbn [gaussian_percentiles app map nth]. change (INR 1) with 1. set (e := erf (1 / sqrt 2)) in *.
    replace (1 - (1 - e) / 2) with ((1 + e) / 2) by lra.
    pose proof (max_age p n e D N H) as MX. fold t in MX. fold t.
    rewrite MX, LA. discriminate.
Qed.
Print Assumptions C98_axis.

(** Wherever the distribution lies, the nearer end of the part of the curve above half its height is drawn at the same distance from the age text: 0.03
    of the axes and a tenth of the width of the small plot, to the left of the text if it ends at x and to the right if it begins there. *)
Theorem C98_clear_of_text : forall erf p n left x y f w h size, error_function erf -> distribution p n -> (2 <= n)%nat -> 0 < pdf_t p (997 / 1000) ->
  exists fuel, forall g, (fuel <= g)%nat -> exists o m a b, offset g p left = Some (Ok o) /\ plot_pdf g erf p = Some (Ok m) /\ half_width p a b /\
    let '(x0, y0, x1, y1) := plot_box left x y f w h size o in
    let drawn t := x0 + (t - fst (ma_limits (mp_axis m))) / (snd (ma_limits (mp_axis m)) - fst (ma_limits (mp_axis m))) * (x1 - x0) in
    x1 - x0 = 12 / 100 * size /\ y1 - y0 = 5 / 100 * size /\ y0 = y - f * h / 2 /\
    if left then x - f * w - drawn (nth b (pdf_ts p) 0) = 3 / 100 + (x1 - x0) / 10
    else drawn (nth a (pdf_ts p) 0) - (x + f * w) = 3 / 100 + (x1 - x0) / 10.
Proof.
  intros erf p n left x y f w h size EF D N T. destruct (C98_axis erf p n EF D N T) as (fuel & step & k & fu & u & nums & NS & K & B & _ & _ & A).
  set (t := pdf_t p (997 / 1000)) in *. destruct (ticks_from_0 t T) as (fuel2 & step2 & k2 & E & NS2 & SP2 & K2 & B2).
  exists (Nat.max fuel fuel2). intros g G. destruct (A g ltac:(lia)) as (m & PM & MT & ML & _).
  destruct (half_of p n D N) as (q & a & b & Q & QA & QB & HW).
  assert (SK : multiples 0 step k = multiples 0 step2 k2).
  { destruct (plot_parts g erf p n m EF D N PM) as (_ & _ & _ & LE). fold t in LE. unfold linear_axis in LE. rewrite (E g ltac:(lia)) in LE.
    destruct (mini_labels (multiples 0 step2 k2)) as [ls|]; [|discriminate LE]. cbn [bind] in LE. destruct (multiples 0 step2 k2) as [|x0 r]; [discriminate LE|]. injection LE as LE. rewrite <- LE in MT. symmetry. exact MT. }
  assert (SP : 0 < step) by (destruct NS as (mm & ee & [-> | [-> | ->]] & ->); apply Rmult_lt_0_compat; try lra; apply powerRZ_lt; lra).
  assert (TE : (INR k - 1) * step = (INR k2 - 1) * step2).
  { destruct (max_tick step k SP K) as [M1 _]. destruct (max_tick step2 k2 SP2 K2) as [M2 _]. rewrite SK, M2 in M1. now injection M1. }
  set (top := (INR k - 1) * step) in *. assert (TP : 0 < top) by lra.
  destruct (max_tick step2 k2 SP2 K2) as [AM _]. rewrite <- TE in AM.
  exists (if left then (1 - nth b (pdf_ts p) 0 / top) - 1 / 10 else - (nth a (pdf_ts p) 0 / top) + 1 / 10), m, a, b.
  split. { unfold offset. fold t. rewrite (E g ltac:(lia)), Q. cbn [bind]. rewrite QA, QB. cbn [bind]. rewrite AM. cbn [bind]. destruct (Reqb_spec top 0) as [Z|_]; [lra|]. reflexivity. }
  split; [exact PM|]. split; [exact HW|]. rewrite ML. unfold plot_box. cbn [fst snd].
  split; [destruct left; lra|]. split; [lra|]. split; [lra|]. destruct left; field; lra.
Qed.
Print Assumptions C98_clear_of_text.

(** A violin at height y with half height w0: a vertical distance of 0.9 w0 stands for the highest density, above and below alike; if the first sample has less than
    a ten-thousandth of the probability, the three areas cover the samples between the 0.01% and 99.99% ages, between the 16% and 84% ages and at the median. *)
Theorem C98_violin : forall p n y w0, distribution p n -> (2 <= n)%nat -> nth 0 (pdf_cdf p) 0 < 1 / 10000 ->
  exists m a0 a c b b0, peak p m /\ 0 < m /\ (a0 <= a <= c)%nat /\ (c <= b <= b0)%nat /\
    last_before p (pdf_t p (1 / 10000)) a0 /\ last_before p (pdf_t p (16 / 100)) a /\ last_before p (pdf_t p (1 / 2)) c /\
    last_before p (pdf_t p (84 / 100)) b /\ last_before p (pdf_t p (9999 / 10000)) b0 /\
    let area i j := map (fun s => let h := 9 / 10 * w0 * (snd s / m) in (fst s, (y + h, y - h))) (run p i j) in
    violin p y w0 = Ok [area a0 b0; area a b; area c (S c)].
Proof.
  intros p n y w0 D N F. destruct (peak_of p n D N) as (m & E & P & M).
  destruct (samples_between p n D N (1 / 10000) (9999 / 10000) ltac:(lra) ltac:(lra)) as (a0 & b0 & LA0 & LB0 & _ & _ & E0).
  destruct (samples_between p n D N (16 / 100) (84 / 100) ltac:(lra) ltac:(lra)) as (a & b & LA & LB & _ & _ & E1).
  destruct (samples_at p n D N (1 / 2) ltac:(lra) ltac:(lra)) as (c & LC & E2).
  exists m, a0, a, c, b, b0. split; [exact P|]. split; [exact M|].
  pose proof (pdf_t_mono p n D N) as MO.
  split; [split; [apply (last_before_mono p n N _ _ a0 a LA0 LA), MO; lra|apply (last_before_mono p n N _ _ a c LA LC), MO; lra]|].
  split; [split; [apply (last_before_mono p n N _ _ c b LC LB), MO; lra|apply (last_before_mono p n N _ _ b b0 LB LB0), MO; lra]|].
  repeat (split; [assumption|]). cbv zeta. unfold violin, violin_area. rewrite E. cbn [bind]. destruct (Reqb_spec m 0) as [Z|_]; [lra|]. rewrite E0, E1, E2.
  f_equal. assert (X : forall l : list (R * R), map (fun s => (fst s, (y + 9 / 10 * w0 / m * snd s, y - 9 / 10 * w0 / m * snd s))) l = map (fun s => (fst s, (y + 9 / 10 * w0 * (snd s / m), y - 9 / 10 * w0 * (snd s / m)))) l).
  { intros l. apply map_ext. intros s. f_equal. f_equal; field; lra. }
  now rewrite !X.
Qed.
Print Assumptions C98_violin.
Lemma slice_in {A} (l : list A) a b x : In x (slice l a b) -> In x l.
Proof.
  unfold slice. intros H. rewrite <- (firstn_skipn a l). apply in_or_app. right. rewrite <- (firstn_skipn (b - a) (skipn a l)). apply in_or_app. now left.
Qed.
(** No violin leaves its row, and those of different rows of the sequence plot do not touch. *)
Theorem C98_rows : forall rows i j p q n n' y w0 w y' w0' w' vp vq,
  (i < j < rows)%nat -> distribution p n -> (2 <= n)%nat -> distribution q n' -> (2 <= n')%nat ->
  sequence_row rows i = (y, w0, w) -> sequence_row rows j = (y', w0', w') -> violin p y w0 = Ok vp -> violin q y' w0' = Ok vq ->
  forall t up lo t' up' lo', In (t, (up, lo)) (concat vp) -> In (t', (up', lo')) (concat vq) -> 0 < lo <= up /\ up < 1 /\ 0 < lo' <= up' /\ up' < lo.
Proof.
  assert (W : forall p n y w0 v, distribution p n -> (2 <= n)%nat -> 0 <= w0 -> violin p y w0 = Ok v -> forall t up lo, In (t, (up, lo)) (concat v) ->
    y - 9 / 10 * w0 <= lo <= y /\ y <= up <= y + 9 / 10 * w0).
  { intros p n y w0 v D N W0 V t up lo I. destruct (peak_of p n D N) as (m & E & P & M). unfold violin in V. rewrite E in V. cbn [bind] in V.
    destruct (Reqb_spec m 0) as [Z|_]; [lra|]. injection V as <-.
    assert (X : exists a b, In (t, (up, lo)) (violin_area p y (9 / 10 * w0 / m) a b)).
    { cbn [concat] in I. rewrite app_nil_r in I. repeat rewrite in_app_iff in I. destruct I as [I|[I|I]]; eexists _, _; exact I. }
    destruct X as (a & b & X). unfold violin_area in X. apply in_map_iff in X as ([t0 d] & X & XI). cbn [fst snd] in X. injection X as _ <- <-.
    unfold samples in XI. apply in_combine_r in XI. unfold array_slice in XI. apply slice_in in XI.
    assert (DR : 0 <= d <= m). { split; [|destruct P as [_ P]; rewrite Forall_forall in P; now apply P]. apply (In_nth _ _ 0) in XI as (k & KL & <-). apply (d_nonneg p n D). rewrite (len_pdf p n D) in KL. exact KL. }
    assert (H0 : 0 <= 9 / 10 * w0 / m * d <= 9 / 10 * w0).
    { replace (9 / 10 * w0 / m * d) with (9 / 10 * w0 * (d / m)) by (field; lra). assert (0 <= d / m <= 1). { split; [apply Rmult_le_pos; [lra|left; now apply Rinv_0_lt_compat]|]. apply Rmult_le_reg_r with m; [exact M|]. unfold Rdiv. rewrite Rmult_assoc, Rinv_l; lra. }
      split; [apply Rmult_le_pos; lra|]. rewrite <- (Rmult_1_r (9 / 10 * w0)) at 2. apply Rmult_le_compat_l; lra. }
    lra. }
  intros rows i j p q n n' y w0 w y' w0' w' vp vq IJ DP NP DQ NQ RI RJ VP VQ t up lo t' up' lo' IP IQ.
  destruct (C78_rows rows i ltac:(lia) y w0 w RI) as (A1 & A2 & A3 & A4). destruct (A4 j y' w0' w' ltac:(lia) RJ) as (B1 & _ & _ & B3). specialize (B3 ltac:(lia)).
  destruct (C78_rows rows j ltac:(lia) y' w0' w' RJ) as (C1 & C2 & C3 & _).
  destruct (W p n y w0 vp DP NP ltac:(lra) VP t up lo IP). destruct (W q n' y' w0' vq DQ NQ ltac:(lra) VQ t' up' lo' IQ). repeat split; lra.
Qed.
Print Assumptions C98_rows.

(** four samples, with all probability in the middle *)
Definition middle : pdf := mkPdf [1; 2; 3; 4] [1; 1; 1; 1] [0; / 2; / 2; 0] [0; / 2; 1; 1].
Lemma four (P : nat -> Prop) : P 0%nat -> P 1%nat -> P 2%nat -> P 3%nat -> forall i, (i < 4)%nat -> P i.
Proof. intros H0 H1 H2 H3 i H. destruct i as [|[|[|[|i]]]]; auto; lia. Qed.
Lemma middle_distribution : distribution middle 4.
Proof.
  constructor.
  - repeat split.
  - intros i j H. assert (i < 4)%nat by lia. assert (j < 4)%nat by lia. destruct i as [|[|[|[|i]]]], j as [|[|[|[|j]]]]; try lia; cbn; lra.
  - intros i H. destruct i as [|[|[|[|i]]]]; try lia; cbn; lra.
  - reflexivity.
  - intros i H. revert i H. apply four; cbn; lra.
  - unfold weight. cbn. lra.
  - intros i H. revert i H. apply four; unfold weight; cbn; lra.
Qed.
(** two samples of equal probability *)
Definition pair : pdf := mkPdf [1; 2] [1; 1] [/ 2; / 2] [/ 2; 1].
Lemma pair_distribution : distribution pair 2.
Proof.
  constructor.
  - repeat split.
  - intros i j H. destruct i as [|[|i]], j as [|[|j]]; try lia; cbn; lra.
  - intros i H. destruct i as [|[|i]]; try lia; cbn; lra.
  - reflexivity.
  - intros i H. destruct i as [|[|i]]; try lia; cbn; lra.
  - unfold weight. cbn. lra.
  - intros i H. destruct i as [|[|i]]; try lia; unfold weight; cbn; lra.
Qed.
Example C98_hypotheses_met : exists erf, error_function erf /\ 34 / 100 < erf (1 / sqrt 2) /\ distribution middle 4 /\ nth 0 (pdf_cdf middle) 0 < 1 / 10000 /\ 0 < pdf_t middle (997 / 1000) /\
  nth 0 (pdf_cdf middle) 0 < fst (one_sigma erf) /\ distribution pair 2 /\ fst (one_sigma erf) < nth 0 (pdf_cdf pair) 0.
Proof.
  exists (fun x => x).
  assert (S2 : 1 < sqrt 2 < 3 / 2). { split; [rewrite <- sqrt_1 at 1; apply sqrt_lt_1; lra|]. apply Rsqr_incrst_0; [rewrite Rsqr_sqrt by lra; unfold Rsqr; lra|apply sqrt_pos|lra]. }
  assert (I : 2 / 3 < 1 / sqrt 2 < 994 / 1000).
  { assert (S3 : 141 / 100 < sqrt 2). { apply Rsqr_incrst_0; [rewrite Rsqr_sqrt by lra; unfold Rsqr; lra|lra|apply sqrt_pos]. }
    split; apply Rmult_lt_reg_r with (sqrt 2); try lra; unfold Rdiv; rewrite ?(Rmult_assoc 1), ?Rinv_l; lra. }
  unfold error_function, one_sigma. cbn [fst]. set (z := 1 / sqrt 2) in *.
  split; [repeat split; intros; lra|]. split; [lra|]. split; [exact middle_distribution|]. split; [cbn; lra|].
  split. { pose proof (pdf_t_range middle 4 middle_distribution ltac:(lia) (997 / 1000)) as [A _]. cbn [nth middle pdf_ts] in A. lra. }
  split; [cbn; lra|]. split; [exact pair_distribution|cbn; lra].
Qed.
