(** Lemmas for the legend and the summary table. *)
From Coq Require Import String List Ascii ZArith Reals Lra Lia Bool Permutation Sorted.
Import ListNotations.
From Verif Require Import Base NumModel NumLemmas StrModel StrSpec StrProofs StrProofs2 CliModel CliProofs2 FmtModel FmtSpec FmtProofs IoModel IoProofs3 SccProofs3 LegModel LegSpec.
Local Open Scope R_scope.

(** ** texts that begin with something other than an underscore *)
Definition starts_ok (s : str) : Prop := match s with [] => False | c :: _ => aeqb c (ch "_") = false end.
Lemma starts_app s r : starts_ok s -> starts_ok (s ++ r).
Proof. destruct s; [easy|auto]. Qed.
Lemma number_starts s x : number_text s x -> starts_ok s.
Proof.
  intros N. destruct (number_chars s x N) as [A B]. destruct s as [|c s]; [easy|]. inversion A as [|? ? C]; subst. unfold starts_ok.
  destruct (aeqb c (ch "_")) eqn:E; [|reflexivity]. apply Ascii.eqb_eq in E. subst c. discriminate.
Qed.
Lemma fmt_g_starts k x : starts_ok (fmt_g k x).
Proof. destruct (fmt_g_number k x) as (y & _ & N). now apply (number_starts _ y). Qed.
Lemma fmt_f_starts k x : starts_ok (fmt_f k x).
Proof. destruct (fmt_f_spec k x) as (y & N & _). apply (number_starts _ y). now left. Qed.
Lemma sigfigs_starts x d s : sigfigs x d = Ok s -> starts_ok s.
Proof.
  intros E. destruct d as [|d]; [discriminate|]. destruct (sigfigs_spec x (S d) ltac:(lia)) as (s' & y & E' & N & _). rewrite E in E'. injection E' as <-. apply (number_starts _ y). now left.
Qed.
Lemma count_starts p s : count_label p = Ok s -> starts_ok s.
Proof.
  unfold count_label. destruct (p_buffered p).
  - cbn [bind]. intros H. injection H as <-. apply starts_app, fmt_f_starts.
  - destruct (Rltb _ _); [cbn [bind]; intros H; injection H as <-; apply starts_app, fmt_g_starts|]. destruct (p_nevent p); [|discriminate]. cbn [bind]. intros H. injection H as <-.
    apply starts_app, starts_app, fmt_f_starts.
Qed.
Lemma diameter_starts lo hi sf s : diameter_range lo hi sf = Ok s -> starts_ok s.
Proof.
  unfold diameter_range. destruct hi as [hi|]; [|intros H; injection H as <-; reflexivity]. destruct (sigfigs (lo * _) sf) as [a|] eqn:A; [|discriminate].
  destruct (sigfigs (hi * _) sf) as [b|] eqn:B; [|discriminate]. cbn [bind]. intros H. injection H as <-. apply starts_app. eapply sigfigs_starts. exact A.
Qed.
Lemma range_starts p s : range_label p = Ok s -> starts_ok s.
Proof. unfold range_label. destruct (_ && _); [apply diameter_starts|]. destruct (p_bins p); [|discriminate]. cbn [bind]. apply diameter_starts. Qed.
Lemma join_starts s l : starts_ok s -> starts_ok (join (L ", ") (s :: l)).
Proof. intros H. destruct l as [|x l]; [exact H|]. change (starts_ok (s ++ L ", " ++ join (L ", ") (x :: l))). now apply starts_app. Qed.
Lemma mem_in c s : mem c s = true <-> In c s.
Proof.
  unfold mem. rewrite existsb_exists. split.
  - intros (x & I & E). apply Ascii.eqb_eq in E. now subst.
  - intros I. exists c. split; [exact I|apply Ascii.eqb_refl].
Qed.
Definition crN (legend : str) : bool := has legend (ch "c") || has legend (ch "r") || has legend (ch "N").
Lemma crN_spec legend : crN legend = true <-> asks_for_fits legend.
Proof. unfold crN, has, asks_for_fits. rewrite !orb_true_iff, !mem_in. tauto. Qed.
(** the text of a fit is never empty and never hidden, if the legend asks for fits *)
Lemma fit_label_starts legend ref p lbl : is_fit (p_type p) = true -> crN legend = true -> make_legend_label legend ref p = Ok lbl -> starts_ok (join (L ", ") lbl).
Proof.
  intros F C. unfold make_legend_label. rewrite F. unfold crN in C.
  destruct (has legend (ch "c")); cbn [when one].
  - destruct (count_label p) as [s|] eqn:E; [|discriminate]. cbn [bind one]. destruct (when _ _) as [r|]; [|discriminate]. cbn [bind]. destruct (when _ _) as [n|]; [|discriminate].
    cbn [bind app]. intros H. injection H as <-. apply join_starts. eapply count_starts. exact E.
  - cbn [bind orb] in *. destruct (has legend (ch "r")); cbn [when].
    + destruct (range_label p) as [s|] eqn:E; [|discriminate]. cbn [bind one]. destruct (when _ _) as [n|]; [|discriminate]. cbn [bind app]. intros H. injection H as <-. apply join_starts. eapply range_starts. exact E.
    + cbn [orb] in C. rewrite C. cbn [when bind]. destruct (density_text _ _) as [s|]; [|discriminate]. cbn [bind one app]. intros H. injection H as <-. apply join_starts. reflexivity.
Qed.
Lemma visible_starts i pt s : starts_ok s -> visible (i, pt, s) = true.
Proof. unfold visible. cbn [snd]. destruct s as [|c s]; [easy|]. cbn. now intros ->. Qed.

(** ** the aggregation *)
Definition text_of (legend : str) (ref : R) (p : cplot) : str := match make_legend_label legend ref p with Ok l => join (L ", ") l | Err _ => [] end.
Definition shown (bn : bool) (p : cplot) : bool := negb (p_hide p || (bn && p_nobin p)).
Lemma shown_spec bn p : shown bn p = true <-> drawn bn p.
Proof. unfold shown, drawn. destruct (p_hide p), bn, (p_nobin p); cbn; intuition congruence. Qed.
Section Aggregate.
Variables (bn : bool) (legend : str) (ref : R).
Definition good (ip : nat * cplot) : Prop :=
  shown bn (snd ip) = true ->
  (exists l, make_legend_label legend ref (snd ip) = Ok l) /\
  (is_fit (p_type (snd ip)) = true -> crN legend = true) /\
  (is_fit (p_type (snd ip)) = false -> ordinary_label (text_of legend ref (snd ip))).
Definition entry (ip : nat * cplot) : list (list handle * str) := if shown bn (snd ip) then entry_of (fst ip) (snd ip) (text_of legend ref (snd ip)) else [].
Lemma aggregate_good l : Forall good l -> exists ss, mapM (draw_plot bn legend ref) l = Ok ss /\
  forall rest es, aggregate (crN legend) false rest = Ok es -> aggregate (crN legend) false (filter visible (concat ss) ++ rest) = Ok (flat_map entry l ++ es).
Proof using.
  induction 1 as [|[i p] l G _ (ss & E & A)]; [exists []; split; [reflexivity|]; intros rest es H; exact H|].
  cbn [mapM]. unfold draw_plot at 1. unfold good in G. cbn [snd] in G. destruct (p_hide p || (bn && p_nobin p)) eqn:SH.
  - exists ([] :: ss). cbn [bind]. rewrite E. cbn [bind]. split; [reflexivity|]. intros rest es H. cbn [concat app flat_map]. unfold entry at 1, shown. cbn [snd]. rewrite SH. cbn [negb app]. now apply A.
  - assert (S : shown bn p = true) by (unfold shown; now rewrite SH). destruct (G S) as ((lbl & L1) & F & O). rewrite L1. cbn [bind]. rewrite E. cbn [bind].
    assert (T : text_of legend ref p = join (L ", ") lbl) by (unfold text_of; now rewrite L1).
    eexists. split; [reflexivity|]. intros rest es H. cbn [concat flat_map]. rewrite filter_app, <- app_assoc. specialize (A rest es H).
    unfold entry at 1. cbn [fst snd]. rewrite S, T. rewrite T in O. destruct (is_fit (p_type p)) eqn:IF.
    + specialize (F eq_refl). pose proof (fit_label_starts legend ref p lbl IF F L1) as V. cbn [filter]. rewrite (visible_starts i Symbols _ V).
      change (visible (i, Line, L "fit")) with true. cbn match. cbn [app aggregate snd]. rewrite (seqb_refl (L "fit")). rewrite F in *. cbn [bind fst]. rewrite A. cbn [bind app].
      unfold entry_of. destruct (p_type p); try discriminate; reflexivity.
    + specialize (O eq_refl). destruct O as [O1 O2]. assert (EE : entry_of i p (join (L ", ") lbl) = match join (L ", ") lbl with [] => [] | _ => [([(i, Symbols)], join (L ", ") lbl)] end) by (unfold entry_of; destruct (p_type p); try discriminate; reflexivity).
      rewrite EE. cbn [filter]. set (t := join (L ", ") lbl) in *. destruct t as [|c t'] eqn:TE.
      * change (visible (i, Symbols, [])) with false. cbn match. cbn [app]. exact A.
      * assert (V : starts_ok (c :: t')). { unfold starts_ok. destruct (aeqb c (ch "_")) eqn:EQ; [|reflexivity]. apply Ascii.eqb_eq in EQ. subst c. exfalso. now apply (O2 t'). }
        rewrite (visible_starts i Symbols _ V). cbn [app aggregate snd]. destruct (seqb_spec (c :: t') (L "fit")) as [EQ|_]; [easy|]. rewrite A. reflexivity.
Qed.
End Aggregate.
Lemma rev_flat_map {A B} (f : A -> list B) l : rev (flat_map f (rev l)) = flat_map (fun x => rev (f x)) l.
Proof.
  induction l as [|x l IH]; [reflexivity|]. cbn [rev flat_map]. rewrite flat_map_app, rev_app_distr. cbn [flat_map]. rewrite app_nil_r. now f_equal.
Qed.
Lemma entry_rev bn legend ref ip : rev (entry bn legend ref ip) = entry bn legend ref ip.
Proof. unfold entry, entry_of. destruct (shown bn (snd ip)); [|reflexivity]. destruct (p_type (snd ip)); try reflexivity. destruct (text_of legend ref (snd ip)); reflexivity. Qed.
