From Coq Require Import String List ZArith Reals Lra Lia Bool Sorted.
From Verif Require Import Base NumModel NumLemmas InterpProofs BinModel CountModel CountProofs CountProofs2 PdfProofs PdfSpec
  ProdModel ProdSpec ProdProofs ProdProofs2.
Import ListNotations.
Local Open Scope string_scope.
Local Open Scope R_scope.

Lemma evaluate_value pf pres d a : a <> 0 -> evaluate pf pres d (Some a) = pf_value pf pres d a.
Proof.
  intros H. unfold evaluate, effective_a0. destruct (Reqb_spec a 0) as [E|_]; [contradiction|]. reflexivity.
Qed.
Lemma evaluate_tab t pres d a : evaluate (Tab t) pres d (Some a) = pf_value (Tab t) pres d a.
Proof.
  unfold evaluate, effective_a0. destruct (Reqb_spec a 0) as [E|_]; [rewrite E; reflexivity|reflexivity].
Qed.

Lemma value_scale pf pres d a0 x y : built pf ->
  pf_value pf pres d a0 = Ok (Some y) -> pf_value pf pres d (a0 + x) = Ok (Some (pow10 x * y)).
Proof.
  intros B. destruct B as [a lo hi|h idx t F Hi H2 E]; unfold pf_value.
  - destruct (String.eqb pres "cumulative").
    { intros I. injection I as <-. now rewrite poly_C_scale. }
    destruct (String.eqb pres "differential").
    { intros I. injection I as <-. now rewrite poly_F_scale. }
    destruct (String.eqb pres "R-plot").
    { intros I. injection I as <-. unfold poly_R. rewrite poly_F_scale. do 2 f_equal. unfold Rdiv. ring. }
    destruct (String.eqb pres "Hartmann").
    { intros I. injection I as <-. unfold poly_H. rewrite poly_F_scale. do 2 f_equal. ring. }
    discriminate.
  - rewrite (make_tabular_ok h idx (conj F Hi)) in E. injection E as <-.
    destruct (String.eqb pres "cumulative").
    { destruct (tab_C (the_table h idx) (log10 d) a0) as [z|e] eqn:I; cbn [bind]; [|discriminate].
      intros J; injection J as <-. rewrite (tab_C_scale h idx _ _ x _ I). reflexivity. }
    destruct (String.eqb pres "differential").
    { destruct (tab_F (the_table h idx) (log10 d) a0) as [z|e] eqn:I; cbn [bind]; [|discriminate].
      intros J; injection J as <-. rewrite (tab_F_scale h idx (conj F Hi) H2 _ _ x _ I). reflexivity. }
    destruct (String.eqb pres "R-plot").
    { destruct (tab_R (the_table h idx) (log10 d) a0) as [z|e] eqn:I; cbn [bind]; [|discriminate].
      intros J; injection J as <-. rewrite (tab_R_scale h idx (conj F Hi) H2 _ _ x _ I). reflexivity. }
    destruct (String.eqb pres "Hartmann").
    { destruct (tab_H (the_table h idx) (log10 d) a0) as [z|e] eqn:I; cbn [bind]; [|discriminate].
      intros J; injection J as <-. rewrite (tab_H_scale h idx (conj F Hi) _ _ x _ I). reflexivity. }
    discriminate.
Qed.
Lemma value_total pf pres d a0 : built pf -> In pres ["cumulative"; "differential"; "R-plot"; "Hartmann"] ->
  exists y, pf_value pf pres d a0 = Ok (Some y).
Proof.
  intros B P. destruct B as [a lo hi|h idx t F Hi H2 E].
  - destruct P as [<-|[<-|[<-|[<-|[]]]]]; unfold pf_value; cbn; eauto.
  - rewrite (make_tabular_ok h idx (conj F Hi)) in E. injection E as <-.
    destruct P as [<-|[<-|[<-|[<-|[]]]]]; unfold pf_value; cbn [String.eqb Ascii.eqb Bool.eqb].
    + destruct (tab_C_total h idx H2 (log10 d) a0) as (z & -> & _). cbn. eauto.
    + destruct (tab_F_total h idx (conj F Hi) H2 (log10 d) a0) as (z & -> & _). cbn. eauto.
    + destruct (tab_R_total h idx (conj F Hi) H2 (log10 d) a0) as (z & -> & _). cbn. eauto.
    + destruct (tab_H_total h idx (conj F Hi) H2 (log10 d) a0) as (z & -> & _). cbn. eauto.
Qed.

(** ** Fit *)
Lemma fit_fn_value pf pres d a y : built pf -> In pres ["cumulative"; "differential"] -> 0 < d -> 0 < y ->
  pf_value pf pres d a = Ok (Some y) -> fit_function pf pres (log10 d) a = log10 y.
Proof.
  intros B P Hd Hy. destruct B as [c lo hi|h idx t F Hi H2 E].
  - destruct P as [<-|[<-|[]]]; unfold pf_value, fit_function; cbn [String.eqb Ascii.eqb Bool.eqb]; intros I; injection I as <-.
    + unfold poly_C. now rewrite log10_pow10.
    + unfold poly_F10. now rewrite pow10_log10.
  - destruct P as [<-|[<-|[]]]; unfold pf_value, fit_function; cbn [String.eqb Ascii.eqb Bool.eqb].
    + unfold tab_C, log_interp. destruct (interp _ _) as [z|e]; cbn [bind]; [|discriminate].
      intros I; injection I as <-. now rewrite log10_pow10.
    + destruct (tab_F t (log10 d) a) as [z|e]; cbn [bind]; [|discriminate]. intros I; injection I as <-. reflexivity.
Qed.
(** the fitted function is a0 plus a function of the diameter *)
Lemma fit_fn_shift pf pres d y a0 : built pf -> In pres ["cumulative"; "differential"] -> 0 < d -> 0 < y ->
  pf_value pf pres d a0 = Ok (Some y) -> forall a, fit_function pf pres (log10 d) a = a + (log10 y - a0).
Proof.
  intros B P Hd Hy V a. pose proof (value_scale pf pres d a0 (a - a0) y B V) as S.
  replace (a0 + (a - a0)) with a in S by ring.
  rewrite (fit_fn_value pf pres d a (pow10 (a - a0) * y)); auto.
  - rewrite log10_mult, log10_pow10; [ring|apply pow10_pos|exact Hy].
  - apply Rmult_lt_0_compat; [apply pow10_pos|exact Hy].
Qed.

(** the arrays passed to curve_fit: a single point is doubled *)
Definition doubled (l : list R) : list R := match l with [x] => [x; x] | _ => l end.
Definition fit_weights (pres : string) (y err : list R) : list R := if String.eqb pres "cumulative" then y else err.
Definition fit_sigma (pres : string) (y err : list R) : list R := map (fun w => 1 / sqrt w) (fit_weights pres y err).

Lemma fit_unfold cfit pf pres d0 d y0 y e0 err : In pres ["cumulative"; "differential"] ->
  length d = length y -> length y = length err ->
  fit cfit pf pres (d0 :: d) (y0 :: y) (e0 :: err) =
    let best := cfit (fit_function pf pres) (map log10 (doubled (d0 :: d))) (map log10 (doubled (y0 :: y)))
                  (fit_sigma pres (doubled (y0 :: y)) (doubled (e0 :: err))) in
    Ok [best - 0; best - (log10 y0 - log10 (y0 - 98 / 100 * e0)); best - (log10 y0 - log10 (y0 + 98 / 100 * e0))].
Proof.
  intros P L1 L2. unfold fit.
  destruct y as [|y1 y]; [destruct d; [|discriminate]; destruct err; [|discriminate]|
    destruct d; [discriminate|]; destruct err; [discriminate|]];
  destruct P as [<-|[<-|[]]]; reflexivity.
Qed.

(** ** Isochrons *)
Lemma filter_keep {A} (f : A -> res R) (iso : list A) (g : A -> R) (b : A -> R -> bool) :
  (forall p, In p iso -> f p = Ok (g p)) ->
  exists keep, mapM (fun p => do! ey <- f p; Ok (p, b p ey)) iso = Ok keep /\
    map fst (filter snd keep) = filter (fun p => b p (g p)) iso.
Proof.
  induction iso as [|p iso IH]; intros H; [exists []; split; reflexivity|].
  destruct IH as (keep & E & F); [intros q Hq; apply H; now right|].
  exists ((p, b p (g p)) :: keep). cbn [mapM]. rewrite (H p (or_introl eq_refl)). cbn [bind]. rewrite E. cbn [bind].
  split; [reflexivity|]. cbn [filter snd]. destruct (b p (g p)); cbn [map fst]; now rewrite F.
Qed.

Lemma doubled_In l x : In x (doubled l) -> In x l.
Proof. destruct l as [|a [|b l]]; cbn; intuition. Qed.
Lemma doubled_len2 (a b : list R) : length a = length b -> length (doubled a) = length (doubled b).
Proof. destruct a as [|x [|x' a]], b as [|y [|y' b]]; cbn; intros H; lia. Qed.
Lemma doubled_map f l : doubled (map f l) = map f (doubled l).
Proof. destruct l as [|a [|b l]]; reflexivity. Qed.

Lemma weight_inv w t : 0 < w -> (t / (1 / sqrt w)) ^ 2 = w * t ^ 2.
Proof.
  intros H. pose proof (sqrt_lt_R0 w H) as S. replace (t / (1 / sqrt w)) with (sqrt w * t) by (field; lra).
  rewrite Rpow_mult_distr. replace (sqrt w ^ 2) with w; [reflexivity|]. cbn [pow]. rewrite Rmult_1_r. now rewrite sqrt_sqrt by lra.
Qed.

Lemma chi2_misfit f model w d y a : length w = length d -> length d = length y -> Forall (fun x => 0 < x) w ->
  (forall x, In x d -> f (log10 x) a = log10 (model x a)) ->
  chi2 f (map log10 d) (map log10 y) (map (fun w => 1 / sqrt w) w) a = log_misfit model w d y a.
Proof.
  revert w y. induction d as [|d0 d IH]; intros [|w0 w] [|y0 y] L1 L2 F H; try discriminate; [reflexivity|].
  cbn [map chi2 log_misfit]. inversion F; subst. rewrite (H d0 (or_introl eq_refl)), weight_inv by assumption.
  f_equal. apply IH; [cbn in L1; lia|cbn in L2; lia|assumption|intros; apply H; now right].
Qed.
Lemma misfit_doubled model w d y : length w = length d -> length d = length y ->
  exists k, 0 < k /\ forall a, log_misfit model (doubled w) (doubled d) (doubled y) a = k * log_misfit model w d y a.
Proof.
  intros L1 L2. destruct (Nat.eq_dec (length d) 1) as [E|E].
  - exists 2. split; [lra|]. intros a. destruct d as [|d0 [|? ?]]; try discriminate.
    destruct w as [|w0 [|? ?]]; try discriminate. destruct y as [|y0 [|? ?]]; try discriminate. cbn [doubled log_misfit]. ring.
  - exists 1. split; [lra|]. intros a. rewrite Rmult_1_l.
    destruct d as [|d0 [|? ?]]; [|cbn in E; lia|]; destruct w as [|w0 [|? ?]]; try discriminate; destruct y as [|y0 [|? ?]]; try discriminate; reflexivity.
Qed.

Section Fit.
  Variables (cfit : (R -> R -> R) -> list R -> list R -> list R -> R) (pf : productionfn) (pres : string)
    (model : R -> R -> R) (d y err : list R).
  Hypothesis LS : solves_least_squares cfit.
  Hypothesis B : built pf.
  Hypothesis P : In pres ["cumulative"; "differential"].
  Hypothesis NE : d <> [].
  Hypothesis L1 : length d = length y.
  Hypothesis L2 : length y = length err.
  Hypothesis Pd : Forall (fun x => 0 < x) d.
  Hypothesis Py : Forall (fun x => 0 < x) y.
  Hypothesis Pe : Forall (fun x => 0 < x) err.
  Hypothesis M : forall x a, In x d -> pf_value pf pres x a = Ok (Some (model x a)) /\ 0 < model x a.

  Let w := fit_weights pres y err.
  Lemma w_len : length w = length d.
  Proof. unfold w, fit_weights. destruct (String.eqb _ _); congruence. Qed.
  Lemma w_pos : Forall (fun x => 0 < x) w.
  Proof. unfold w, fit_weights. destruct (String.eqb _ _); assumption. Qed.
  Lemma Forall_doubled (Q : R -> Prop) l : Forall Q l -> Forall Q (doubled l).
  Proof. rewrite !Forall_forall. intros H x Hx. apply H, doubled_In, Hx. Qed.
  Lemma weights_doubled : fit_weights pres (doubled y) (doubled err) = doubled w.
  Proof. unfold w, fit_weights. now destruct (String.eqb _ _). Qed.

  Lemma model_log x a : In x d -> fit_function pf pres (log10 x) a = log10 (model x a).
  Proof.
    intros H. destruct (M x a H) as (V & Q). rewrite Forall_forall in Pd.
    now apply fit_fn_value; auto.
  Qed.
  Lemma model_shift x a : In x d -> log10 (model x a) = a + log10 (model x 0).
  Proof.
    intros H. rewrite <- model_log by assumption. destruct (M x 0 H) as (V & Q). rewrite Forall_forall in Pd.
    rewrite (fit_fn_shift pf pres x (model x 0) 0); auto. ring.
  Qed.

  Let best := cfit (fit_function pf pres) (map log10 (doubled d)) (map log10 (doubled y)) (fit_sigma pres (doubled y) (doubled err)).
  Lemma best_min : minimises (log_misfit model w d y) best.
  Proof.
    assert (S : fit_sigma pres (doubled y) (doubled err) = map (fun w => 1 / sqrt w) (doubled w))
      by (unfold fit_sigma; now rewrite weights_doubled).
    assert (A : minimises (chi2 (fit_function pf pres) (map log10 (doubled d)) (map log10 (doubled y)) (map (fun w => 1 / sqrt w) (doubled w))) best).
    { unfold best. rewrite S. apply LS.
      - destruct d as [|? [|? ?]]; cbn; congruence.
      - rewrite !map_length. now apply doubled_len2.
      - rewrite !map_length. apply doubled_len2. rewrite w_len. congruence.
      - apply Forall_map. apply (Forall_impl (P := fun x => 0 < x)); [|apply Forall_doubled, w_pos].
        intros z Hz. pose proof (sqrt_lt_R0 z Hz). apply Rdiv_lt_0_compat; lra.
      - intros x a Hx. apply in_map_iff in Hx. destruct Hx as (z & <- & Hz). apply doubled_In in Hz.
        rewrite !model_log by assumption. now apply model_shift. }
    destruct (misfit_doubled model w d y w_len L1) as (k & Hk & K).
    assert (E : forall a, chi2 (fit_function pf pres) (map log10 (doubled d)) (map log10 (doubled y)) (map (fun w => 1 / sqrt w) (doubled w)) a
                          = k * log_misfit model w d y a).
    { intros a. rewrite <- K. apply chi2_misfit.
      - apply doubled_len2, w_len.
      - now apply doubled_len2.
      - apply Forall_doubled, w_pos.
      - intros x Hx. apply doubled_In in Hx. now apply model_log. }
    intros b. specialize (A b). rewrite !E in A. now apply Rmult_le_reg_l in A.
  Qed.

  Lemma misfit_chi2 a : log_misfit model w d y a =
    chi2 (fit_function pf pres) (map log10 d) (map log10 y) (map (fun w => 1 / sqrt w) w) a.
  Proof.
    symmetry. apply chi2_misfit; [apply w_len|assumption|apply w_pos|]. intros; now apply model_log.
  Qed.
  Lemma misfit_unique a b : minimises (log_misfit model w d y) a -> minimises (log_misfit model w d y) b -> a = b.
  Proof.
    assert (Q : forall m, minimises (log_misfit model w d y) m ->
       m * wsum (map (fun w => 1 / sqrt w) w) =
       wres (fun t => fit_function pf pres t 0) (map log10 d) (map log10 y) (map (fun w => 1 / sqrt w) w)).
    { intros m Hm. apply ls_unique with (f := fit_function pf pres).
      - destruct d; cbn; congruence.
      - now rewrite !map_length.
      - rewrite !map_length, w_len. congruence.
      - apply Forall_map. apply (Forall_impl (P := fun x => 0 < x)); [|apply w_pos].
        intros z Hz. pose proof (sqrt_lt_R0 z Hz). apply Rdiv_lt_0_compat; lra.
      - intros x Hx a'. apply in_map_iff in Hx. destruct Hx as (z & <- & Hz).
        rewrite !model_log by assumption. now apply model_shift.
      - intros c. rewrite <- !misfit_chi2. apply Hm. }
    intros Ha Hb. apply Q in Ha, Hb.
    assert (0 < wsum (map (fun w => 1 / sqrt w) w)).
    { apply wsum_pos.
      - pose proof w_len. destruct w; [|discriminate]. destruct d; [congruence|discriminate].
      - apply Forall_map. apply (Forall_impl (P := fun x => 0 < x)); [|apply w_pos].
        intros z Hz. pose proof (sqrt_lt_R0 z Hz). apply Rdiv_lt_0_compat; lra. }
    apply Rmult_eq_reg_r with (wsum (map (fun w => 1 / sqrt w) w)); [congruence|lra].
  Qed.
  Lemma misfit_nonneg (ws ds ys : list R) a : Forall (fun x => 0 < x) ws -> 0 <= log_misfit model ws ds ys a.
  Proof.
    revert ds ys. induction ws as [|w0 ws IH]; intros [|d0 ds] [|y0 ys] F; cbn [log_misfit]; try lra.
    inversion F; subst. specialize (IH ds ys H2). pose proof (pow2_ge_0 (log10 (model d0 a) - log10 y0)).
    pose proof (Rmult_le_pos w0 _ (Rlt_le _ _ H1) H). lra.
  Qed.
  Lemma misfit_exact (ws ds ys : list R) a : Forall2 (fun x z => z = model x a) ds ys -> log_misfit model ws ds ys a = 0.
  Proof.
    intros F. revert ws. induction F as [|x z ds ys H F IH]; intros [|w0 ws]; cbn [log_misfit]; try reflexivity.
    rewrite IH, H. ring.
  Qed.
  Lemma fit_recovers a : Forall2 (fun x z => z = model x a) d y -> best = a.
  Proof.
    intros F. apply misfit_unique; [exact best_min|]. intros b. rewrite (misfit_exact w d y a F). apply misfit_nonneg, w_pos.
  Qed.
  Lemma fit_result : fit cfit pf pres d y err = Ok [best;
     best - (log10 (hd 0 y) - log10 (hd 0 y - 98 / 100 * hd 0 err)); best - (log10 (hd 0 y) - log10 (hd 0 y + 98 / 100 * hd 0 err))].
  Proof.
    destruct d as [|d0 d'] eqn:Ed; [congruence|]. destruct y as [|y0 y'] eqn:Ey; [discriminate|].
    destruct err as [|e0 err'] eqn:Ee; [discriminate|].
    rewrite fit_unfold; [|assumption|cbn in L1; lia|cbn in L2; lia]. cbn [hd]. unfold best. cbv zeta.
    now rewrite Rminus_0_r.
  Qed.
End Fit.

(** ** Isochron *)
Lemma pfget_poly a b lo hi pres e : 0 < lo < hi ->
  pf_getplotdata (Poly (b :: a) lo hi) pres None None = Ok e ->
  length e = 400%nat /\ (forall i, (i < 400)%nat -> fst (nth i e (0, 0)) = pow10 (log10 lo + INR i * ((log10 hi - log10 lo) / 399))) /\
  (forall q, In q e -> evaluate (Poly (b :: a) lo hi) pres (fst q) (Some b) = Ok (Some (snd q))).
Proof.
  intros H. unfold pf_getplotdata. change (pyindex (b :: a) 0) with (Ok b). cbn [bind pf_range fst snd].
  replace (clip lo hi lo) with lo by (unfold clip; rewrite Rmax_left, Rmin_left; lra).
  replace (clip lo hi hi) with hi by (unfold clip; rewrite Rmax_left, Rmin_left; lra).
  intros E. pose proof (mapM_length _ _ _ E) as L. rewrite map_length, linspace_length in L.
  assert (N : forall i, (i < 400)%nat -> fst (nth i e (0, 0)) = pow10 (log10 lo + INR i * ((log10 hi - log10 lo) / 399)) /\
     evaluate (Poly (b :: a) lo hi) pres (fst (nth i e (0, 0))) (Some b) = Ok (Some (snd (nth i e (0, 0))))).
  { intros i Hi. pose proof (mapM_nth _ _ _ (pow10 0) (0, 0) i E) as Q.
    rewrite map_length, linspace_length in Q. specialize (Q Hi). rewrite map_nth in Q.
    rewrite linspace_nth in Q by assumption.
    replace (INR (400 - 1)) with 399 in Q by (change (400 - 1)%nat with 399%nat; rewrite INR_IZR_INZ; reflexivity).
    destruct (evaluate _ _ _ _) as [[v|]|] eqn:Ev in Q; cbn [bind] in Q; try discriminate.
    injection Q as Q. rewrite <- Q. cbn [fst snd]. split; [reflexivity|exact Ev]. }
  split; [exact L|]. split; [intros; now apply N|].
  intros q Hq. destruct (In_nth e q (0, 0) Hq) as (i & Hi & <-). apply N. lia.
Qed.
Lemma pfget_sorted a b lo hi pres e i j : 0 < lo < hi ->
  pf_getplotdata (Poly (b :: a) lo hi) pres None None = Ok e -> (i < j < 400)%nat -> fst (nth i e (0, 0)) < fst (nth j e (0, 0)).
Proof.
  intros H E Hij. destruct (pfget_poly _ _ _ _ _ _ H E) as (_ & N & _). rewrite !N by lia.
  apply pow10_lt. assert (log10 lo < log10 hi) by (apply log10_lt; lra).
  assert (INR i < INR j) by (apply lt_INR; lia).
  apply Rplus_lt_compat_l, Rmult_lt_compat_r; [|assumption]. apply Rdiv_lt_0_compat; lra.
Qed.
