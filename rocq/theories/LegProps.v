(** C41: the legend of a crater plot. *)
From Coq Require Import String List Ascii ZArith Reals Lra Lia Bool.
Import ListNotations.
From Verif Require Import Base NumModel NumLemmas StrModel StrSpec StrProofs StrProofs2 CliModel FmtModel FmtSpec FmtProofs IoModel IoProofs3 LegModel LegSpec LegProofs.
Local Open Scope R_scope.

(** * C41 *)
(** if the legend asks for something that fits can show, or no fit is drawn, and no text of a data plot is the word fit or
    begins with an underscore, every plot that is drawn has its one entry, in the order of the plots *)
Theorem C41_one_entry_per_plot : forall bins_needed legend ref plots,
  (forall p, In p plots -> drawn bins_needed p -> exists l, make_legend_label legend ref p = Ok l) ->
  (forall p l, In p plots -> drawn bins_needed p -> p_type p = Tdata -> make_legend_label legend ref p = Ok l -> ordinary_label (join (L ", ") l)) ->
  asks_for_fits legend \/ (forall p, In p plots -> drawn bins_needed p -> p_type p = Tdata) ->
  exists es, legend_entries bins_needed legend ref plots = Ok (concat es) /\
    Forall2 (fun ip e => (drawn bins_needed (snd ip) /\ exists l, make_legend_label legend ref (snd ip) = Ok l /\ e = entry_of (fst ip) (snd ip) (join (L ", ") l)) \/
                         (~ drawn bins_needed (snd ip) /\ e = [])) (numbered plots) es.
Proof.
  intros bn legend ref plots HL HO HF.
  assert (IN : forall ip, In ip (numbered plots) -> In (snd ip) plots) by (intros [i p] H; now apply in_combine_r in H).
  assert (G : Forall (good bn legend ref) (rev (numbered plots))).
  { apply Forall_forall. intros ip I. apply in_rev in I. apply IN in I. intros S. apply shown_spec in S. split; [now apply HL|]. split.
    - intros F. destruct HF as [HF|HF]; [now apply crN_spec|]. rewrite (HF _ I S) in F. discriminate.
    - intros F. assert (T : p_type (snd ip) = Tdata) by (destruct (p_type (snd ip)); try discriminate; reflexivity). unfold text_of. destruct (HL _ I S) as (l & E). rewrite E. now apply (HO (snd ip) l). }
  destruct (aggregate_good bn legend ref _ G) as (ss & E & A). exists (map (entry bn legend ref) (numbered plots)). split.
  - unfold legend_entries. fold (numbered plots). rewrite E. cbn [bind]. specialize (A [] [] eq_refl). rewrite app_nil_r in A. unfold crN in A. rewrite A. cbn [bind]. rewrite app_nil_r, rev_flat_map.
    f_equal. rewrite flat_map_concat_map. f_equal. apply map_ext. intros ip. apply entry_rev.
  - assert (K : forall l, (forall ip, In ip l -> In (snd ip) plots) -> Forall2 (fun ip e => (drawn bn (snd ip) /\ exists l, make_legend_label legend ref (snd ip) = Ok l /\ e = entry_of (fst ip) (snd ip) (join (L ", ") l)) \/
                         (~ drawn bn (snd ip) /\ e = [])) l (map (entry bn legend ref) l)).
    { clear - HL. induction l as [|ip l IH]; intros Q; cbn [map]; constructor.
      - unfold entry. destruct (shown bn (snd ip)) eqn:S.
        + apply shown_spec in S. left. split; [exact S|]. destruct (HL (snd ip) (Q ip (or_introl eq_refl)) S) as (lb & E). exists lb. split; [exact E|]. unfold text_of. now rewrite E.
        + right. split; [|reflexivity]. intros D. apply shown_spec in D. congruence.
      - apply IH. intros ip' I. apply Q. now right. }
    apply K. exact IN.
Qed.
Print Assumptions C41_one_entry_per_plot.

(** what the text of an entry says: for a fit the count if asked for with c; it is the one thing that can fail *)
Theorem C41_count_text : forall p s, count_label p = Ok s ->
  exists num tail y, s = num ++ tail /\ number_text num y /\
    if p_buffered p then rounded_to (/ 10) (count_value (p_nevent p)) y
    else if Rlt_dec (Rabs (count_value (p_nevent p) - p_n p)) (1 / 1000) then significant 6 (p_n p) y
    else rounded_to (/ 10) (p_n p) y /\ exists z r, p_nevent p = Whole z /\ tail = L " (of " ++ int_str z ++ L ")" ++ r.
Proof.
  intros p s. unfold count_label, Rltb. destruct (p_buffered p).
  - cbn [bind orb]. intros H. injection H as <-. destruct (fmt_f_spec 1 (count_value (p_nevent p))) as (y & N & R). eexists _, _, y. split; [reflexivity|]. split; [now left|]. replace (/ 10) with (/ 10 ^ 1) by (f_equal; lra). exact R.
  - destruct (Rlt_dec _ _).
    + cbn [bind]. intros H. injection H as <-. destruct (fmt_g_number 6 (p_n p)) as (y & S & N). eexists _, _, y. split; [reflexivity|]. split; [exact N|]. exact S.
    + destruct (p_nevent p) as [z|]; [|discriminate]. cbn [bind]. intros H. assert (OI : forall a b : str, Ok a = Ok b -> a = b) by congruence. apply OI in H. subst s. destruct (fmt_f_spec 1 (p_n p)) as (y & N & R). exists (fmt_f 1 (p_n p)), (L " (of " ++ int_str z ++ L ")" ++ L " craters" ++ (if false || match p_type p with Tbpoisson => true | _ => false end then L " (buffered)" else [])), y.
      split; [rewrite <- !app_assoc; reflexivity|]. split; [now left|]. split; [replace (/ 10) with (/ 10 ^ 1) by (f_equal; lra); exact R|]. exists z. eexists. split; [reflexivity|]. reflexivity.
Qed.
Print Assumptions C41_count_text.

Definition data_plot (name : str) : cplot :=
  mkPlot Tdata false false name (L "a.scc") (L "pseudo-log") 100 None false false 10 (Whole 10) (0, None) (Ok (1, 2)) None 0 (1, 1, 1) (0, 0, 0).
Definition fit_plot (name : str) : cplot :=
  mkPlot Tdfit false false name (L "a.scc") (L "pseudo-log") 100 None false false 10 (Whole 10) (1, Some 2) (Ok (1, 2)) (Some (1, 2)) 0 (1, 1, 1) (0, 0, 0).
(** a count read from a binned file, with fractions of craters *)
Definition stat_fit (n : R) (events : R) : cplot :=
  mkPlot Tdfit false false (L "x") (L "a.stat") (L "pseudo-log") 100 None false true n (Float events) (1, Some 2) (Ok (1, 2)) (Some (1, 2)) 0 (1, 1, 1) (0, 0, 0).

(** if the legend shows names but nothing of fits, the data plot before a fit loses its entry *)
Theorem C41_names_only_refuted : forall name c r, name = c :: r -> c <> ch "_" ->
  legend_entries false (L "n") 1 [data_plot name; fit_plot name] = Ok [] /\
  (name <> L "fit" -> legend_entries false (L "n") 1 [data_plot name] = Ok [([(0%nat, Symbols)], name)]).
Proof.
  intros name c r -> NU. assert (V : forall i, visible (i, Symbols, c :: r) = true). { intros i. apply visible_starts. unfold starts_ok. destruct (aeqb_spec c (ch "_")); [easy|reflexivity]. }
  split.
  - unfold legend_entries. replace (mapM _ _) with (@Ok (list (list series)) [[(1%nat, Line, L "fit"); (1%nat, Symbols, [])]; [(0%nat, Symbols, c :: r)]]) by reflexivity.
    cbn [bind concat app filter]. rewrite V. change (visible (1%nat, Line, L "fit")) with true. change (visible (1%nat, Symbols, [])) with false. cbn match. reflexivity.
  - intros NF. unfold legend_entries. replace (mapM _ _) with (@Ok (list (list series)) [[(0%nat, Symbols, c :: r)]]) by reflexivity.
    cbn [bind concat app filter]. rewrite V. cbn [aggregate snd fst]. destruct (seqb_spec (c :: r) (L "fit")) as [E|_]; [easy|]. reflexivity.
Qed.
Print Assumptions C41_names_only_refuted.

(** a count from a binned file with fractional craters cannot be fitted with a legend that shows counts, as the default does *)
Theorem C41_binned_fractions_refuted : forall n events legend ref bins_needed before after,
  In (ch "c") legend -> Rabs (events - n) >= 1 / 1000 -> (forall p, In p after -> exists r, draw_plot bins_needed legend ref (O, p) = Ok r) ->
  exists e, legend_entries bins_needed legend ref (before ++ stat_fit n events :: after) = Err e.
Proof.
  intros n events legend ref bn before after C D A.
  assert (CL : count_label (stat_fit n events) = Err ValueError).
  { unfold count_label, stat_fit. cbn [p_buffered p_nevent p_n count_value]. rewrite Rltb_false by lra. reflexivity. }
  assert (DP : forall i, draw_plot bn legend ref (i, stat_fit n events) = Err ValueError).
  { intros i. unfold draw_plot. replace (p_hide (stat_fit n events) || bn && p_nobin (stat_fit n events)) with false by (cbn; now rewrite andb_false_r).
    unfold make_legend_label. change (is_fit (p_type (stat_fit n events))) with true. cbn match. unfold has. rewrite (proj2 (mem_in _ _) C). cbn [when one]. rewrite CL. reflexivity. }
  assert (M : forall l, (exists i, In (i, stat_fit n events) l) -> exists e, mapM (draw_plot bn legend ref) l = Err e).
  { induction l as [|[j q] l IH]; intros (i & I); [destruct I|]. cbn [mapM]. destruct (draw_plot bn legend ref (j, q)) as [r|e] eqn:Q; [|eexists; reflexivity]. cbn [bind].
    destruct I as [I|I]; [injection I as -> ->; rewrite DP in Q; discriminate|]. destruct (IH (ex_intro _ i I)) as (e & ->). eexists. reflexivity. }
  unfold legend_entries. destruct (M (rev (combine (seq 0 (length (before ++ stat_fit n events :: after))) (before ++ stat_fit n events :: after)))) as (e & ->).
  { exists (length before). apply in_rev. rewrite rev_involutive.
    assert (K : forall (l : list cplot) s k p, nth_error l k = Some p -> In ((s + k)%nat, p) (combine (seq s (length l)) l)).
    { induction l as [|x l IH]; intros s [|k] p H; try discriminate; cbn [length seq combine].
      - injection H as ->. left. f_equal. lia.
      - right. replace (s + S k)%nat with (S s + k)%nat by lia. now apply IH. }
    apply (K _ 0%nat (length before)). rewrite nth_error_app2, Nat.sub_diag by lia. reflexivity. }
  eexists. reflexivity.
Qed.
Print Assumptions C41_binned_fractions_refuted.

(** a data plot whose name begins with an underscore, or is the word fit, has no entry *)
Theorem C41_underscore_refuted : forall r,
  legend_entries false (L "nacr") 1 [data_plot (ch "_" :: r)] = Ok [] /\ legend_entries false (L "n") 1 [data_plot (L "fit")] = Ok [].
Proof.
  intros r. split; [|reflexivity]. unfold legend_entries. cbn [length seq combine rev app mapM]. unfold draw_plot, make_legend_label. cbn [data_plot p_hide p_nobin p_type is_fit p_name p_area p_perimeter orb andb].
  change (has (L "nacr") (ch "n")) with true. change (has (L "nacr") (ch "a")) with true. change (has (L "nacr") (ch "p")) with false. cbn [when one bind].
  destruct (scientific_notation 100 None 3 false false km2) as [s|] eqn:E.
  - cbn [bind app join]. reflexivity.
  - exfalso. unfold scientific_notation in E. destruct (_ || _); [destruct (sigfigs_spec 100 3 ltac:(lia)) as (s & y & E2 & _); rewrite E2 in E; discriminate|]. destruct (fmt_e 3 100). discriminate.
Qed.
Print Assumptions C41_underscore_refuted.

Example C41_hypotheses_met : exists t, legend_entries false (L "nc") 1 [data_plot (L "x"); fit_plot (L "x")] = Ok [([(0%nat, Symbols)], L "x"); ([(1%nat, Line); (1%nat, Symbols)], t)].
Proof.
  destruct (C41_one_entry_per_plot false (L "nc") 1 [data_plot (L "x"); fit_plot (L "x")]) as (es & E & F).
  - intros p [<-|[<-|[]]] _; [eexists; reflexivity|]. unfold make_legend_label. cbn [fit_plot p_type is_fit]. change (has (L "nc") (ch "c")) with true. change (has (L "nc") (ch "r")) with false. change (has (L "nc") (ch "N")) with false.
    cbn [when one]. unfold count_label. cbn [p_buffered p_nevent p_n count_value fit_plot]. rewrite Rltb_true by (rewrite Rminus_eq_0, Rabs_R0; lra). eexists. reflexivity.
  - intros p l [<-|[<-|[]]] _ T H; [|discriminate]. cbn in H. injection H as <-. split; [discriminate|]. intros r H. discriminate.
  - left. left. cbn. auto.
  - rewrite E. inversion F as [|? e1 ? l1 H1 F1]; subst. inversion F1 as [|? e2 ? l2 H2 F2]; subst. inversion F2; subst.
    destruct H1 as [(_ & lb1 & M1 & ->)|[N _]]; [|exfalso; apply N; split; [reflexivity|discriminate]]. destruct H2 as [(_ & lb2 & M2 & ->)|[N _]]; [|exfalso; apply N; split; [reflexivity|discriminate]].
    cbn in M1. injection M1 as <-. exists (join (L ", ") lb2). reflexivity.
Qed.
