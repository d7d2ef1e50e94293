From Coq Require Import String List ZArith Reals Lra Lia Bool.
From Verif Require Import Base NumModel NumLemmas BinModel BinSpec BinProofs ApplyProofs ChronModel ChronSpec ChronProofs InterpProofs CountModel CountSpec CountProofs CountProofs2 CountProofs3.
From Verif Require Import ProdModel ProdSpec ProdProofs ProdProofs2 ProdProofs3 ProdProps PdfModel PdfSpec PdfProofs PdfProps AgeModel AgeSpec AgeProofs.
Import ListNotations.
Local Open Scope R_scope.

Lemma np_log10_pos x : 0 < x -> np_log10 x = Num (log10 x).
Proof. intros H. unfold np_log10. now rewrite Rltb_true. Qed.
Lemma age_of_ok cf a : positive_coefficients cf -> age_of cf (pow10 a) (cf_t_a0 cf a).
Proof.
  intros Hc. unfold age_of, cf_t_a0. split; [now apply cf_t_range|]. split; [|intros; now apply cf_t_beyond].
  intros T HT <-. now apply cf_t_within.
Qed.

Lemma fit_values_ok cfit pf pres p r :
  solves_least_squares cfit -> built pf -> In pres ["cumulative"; "differential"]%string ->
  Forall (fun q => 0 < pt_d q /\ 0 < pt_y q /\ 0 < pt_err q) (p :: r) -> 98 / 100 * pt_err p < pt_y p ->
  exists best lower upper, fit_values cfit pf pres (p :: r) = Ok [Num best; Num lower; Num upper] /\ lower <= best <= upper /\
    pow10 lower = pow10 best * (1 - 98 / 100 * (pt_err p / pt_y p)) /\ pow10 upper = pow10 best * (1 + 98 / 100 * (pt_err p / pt_y p)) /\
    best_fit pf pres (if String.eqb pres "cumulative" then map pt_y (p :: r) else map pt_err (p :: r)) (map pt_d (p :: r)) (map pt_y (p :: r)) best.
Proof.
  intros LS B P F H.
  assert (P0 : 0 < pt_d p /\ 0 < pt_y p /\ 0 < pt_err p) by (inversion F; assumption). destruct P0 as (D0 & Y0 & E0).
  assert (ALL : forallb (fun q => Rltb 0 (pt_y q)) (p :: r) = true).
  { apply forallb_forall. intros q Hq. rewrite Forall_forall in F. apply Rltb_true. now apply F. }
  unfold fit_values. rewrite ALL.
  destruct (C23_limits_bracket_the_fit cfit pf pres (pt_d p) (map pt_d r) (pt_y p) (map pt_y r) (pt_err p) (map pt_err r) P
     ltac:(now rewrite !map_length) ltac:(now rewrite !map_length) ltac:(lra) H) as (best & lo & hi & E & _).
  cbn [map]. rewrite E. cbn [bind].
  rewrite !np_log10_pos by lra. cbn [plus].
  do 3 eexists. split; [reflexivity|].
  assert (L1 : log10 (pt_y p - 98 / 100 * pt_err p) <= log10 (pt_y p)) by (apply log10_le; lra).
  assert (L2 : log10 (pt_y p) <= log10 (pt_y p + 98 / 100 * pt_err p)) by (apply log10_le; lra).
  split; [lra|].
  assert (PW : forall x, 0 < x -> pow10 (best - log10 (pt_y p) + log10 x) = pow10 best * (x / pt_y p)).
  { intros x Hx. replace (best - log10 (pt_y p) + log10 x) with (best + (log10 x - log10 (pt_y p))) by ring.
    rewrite pow10_plus, <- log10_div, pow10_log10 by (try assumption; apply Rdiv_lt_0_compat; assumption). reflexivity. }
  rewrite !PW by lra. split; [f_equal; field; lra|]. split; [f_equal; field; lra|].
  intros model M.
  destruct (C23_fit_is_the_weighted_least_squares_optimum cfit pf pres model (map pt_d (p :: r)) (map pt_y (p :: r)) (map pt_err (p :: r)) LS B P)
    as (b' & l' & h' & E' & Q & _); try assumption; try discriminate; try (now rewrite !map_length);
    try (apply Forall_map, Forall_forall; intros q Hq; rewrite Forall_forall in F; now apply F).
  cbn [map] in E'. rewrite E in E'. injection E' as <- _ _. exact Q.
Qed.

Lemma pdf_from_ts ts lam ph k p : pdf_from ts lam ph k = Ok p -> pdf_ts p = ts.
Proof.
  unfold pdf_from. destruct (make_dt ts) as [dt|]; [|discriminate]. cbn [bind].
  match goal with |- context [bind ?m _] => destruct m as [q|] end; [|discriminate]. cbn [bind].
  destruct (Reqb _ 0); [discriminate|]. intros E. injection E as <-. reflexivity.
Qed.
Lemma grid_first_pos cf n : positive_coefficients cf -> (2 <= n)%nat -> 0 < nth 0 (grid cf n) 0.
Proof.
  intros Hc Hn. rewrite grid_nth by (assumption || lia). rewrite linspace_first by lia.
  rewrite <- (cf_t_below cf Hc 0) by lra.
  pose proof (N1_pos cf Hc 1 ltac:(lra)). pose proof (pow10_pos (-10)).
  assert (0 < N1 cf 1 * pow10 (-10)) by (now apply Rmult_lt_0_compat).
  apply cf_t_lt; [assumption|lra|]. apply N1_pos; [assumption|lra].
Qed.
Lemma count_range_between diam lo hi : count_range (map fst diam) lo hi = number_between lo hi diam.
Proof.
  unfold count_range. induction diam as [|[d f] r IH]; [reflexivity|]. cbn [map filter fst number_between].
  destruct (Rle_dec lo d) as [A|A].
  - rewrite (Rleb_true _ _ A). cbn [andb]. destruct (Rlt_dec d hi) as [C|C].
    + rewrite Rltb_true by assumption. cbn [length]. now rewrite IH.
    + rewrite Rltb_false by lra. now rewrite IH.
  - rewrite Rleb_false by lra. cbn [andb]. now rewrite IH.
Qed.
