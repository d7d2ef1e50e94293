(** C100: a density is that of the diameter in its label. *)
From Coq Require Import String Ascii List Arith ZArith Reals Bool Lia Lra.
From Verif Require Import Base NumModel NumLemmas InterpProofs StrModel StrSpec FmtModel FmtSpec FmtProofs FmtProps ChronModel ChronSpec ChronProofs ProdModel ProdSpec ProdProofs ProdProofs2 ProdProofs3 ProdProps
  LoadModel CliModel IoSpec IoProofs LegModel LegProps LegSpec LegProofs LegProofs2 LegProps2 DenModel DenSpec.
Import ListNotations.
Local Open Scope R_scope.

(** ** The chronology and rate presentations *)
Definition has_own_a0 (pf : productionfn) : Prop := match pf with Poly a _ _ => a <> [] | Tab _ => True end.
Lemma own_value pf d : built pf -> has_own_a0 pf -> exists a y, evaluate pf "cumulative" d None = pf_value pf "cumulative" d a /\ pf_value pf "cumulative" d a = Ok (Some y) /\
  evaluate pf "cumulative" 1 None = Ok (Some (pow10 a)) /\ (forall b, pf_value pf "cumulative" d b = Ok (Some (pow10 (b - a) * y))).
Proof.
  intros B H. assert (IC : In "cumulative"%string ["cumulative"; "differential"; "R-plot"; "Hartmann"]%string) by now left.
  assert (X : exists a, effective_a0 pf None = Ok a).
  { destruct pf as [a lo hi|t]; cbn in *; [destruct a as [|a0 a]; [contradiction|eexists; reflexivity]|eexists; reflexivity]. }
  destruct X as (a & X). destruct (value_total pf "cumulative" d a B IC) as (y & Y). exists a, y. unfold evaluate. rewrite X. cbn [bind].
  split; [reflexivity|]. split; [exact Y|]. split.
  - destruct B as [l lo hi|h idx t F Hi H2 E].
    + unfold pf_value. cbn [String.eqb Ascii.eqb Bool.eqb]. now rewrite poly_C_1km.
    + cbn [effective_a0] in X. injection X as <-. destruct (C21_table_honours_every_a0 h idx t 0 F Hi E) as (_ & Q). unfold evaluate in Q. cbn [effective_a0 bind] in Q. rewrite Q.
      unfold pow10, Rpower. rewrite Rmult_0_l, exp_0. reflexivity.
  - intros b. replace b with (a + (b - a)) at 1 by ring. now apply value_scale.
Qed.
(** With another reference diameter than 1 km there are two curves.  The first, with the reference diameter in its label, shows the density of craters larger than it that the production function has
    at the age (or, as a rate, the derivative of that density by the age); the second that of craters larger than 1 km. *)
Theorem C100_chronology_curves :
  forall cf pf ref rate, built pf -> has_own_a0 pf -> ref <> 1 ->
    exists (ts : list R) (D D' : R -> R),
      chronology_curves cf (Some pf) ref rate =
        Ok [(Some (L "N(>" ++ fmt_g 6 ref ++ L " km)"), map (fun t => (t, if rate then D' t else D t)) ts);
            (Some (L "N(>1 km)"), map (fun t => (t, if rate then phi cf t else N1 cf t)) ts)] /\
      (forall t, drawn_age t <-> In t ts) /\
      (forall t, 0 < N1 cf t -> cf_a0 cf t <> 0 -> evaluate pf "cumulative" ref (Some (cf_a0 cf t)) = Ok (Some (D t)) /\ evaluate pf "cumulative" 1 (Some (cf_a0 cf t)) = Ok (Some (N1 cf t))) /\
      (forall t, derivable_pt_lim D t (D' t)) /\ (forall t, derivable_pt_lim (N1 cf) t (phi cf t)).
Proof.
  intros cf pf ref rate B H NR. destruct (own_value pf ref B H) as (a & y & E1 & E2 & E3 & E4).
  set (k := y / pow10 a). pose proof (pow10_pos a) as PA.
  exists (linspace 0 5 1000), (fun t => k * N1 cf t), (fun t => k * phi cf t). split; [|split; [|split; [|split]]].
  - unfold chronology_curves, ref_ratio. rewrite E1, E2, E3. cbn [bind]. destruct (Reqb_spec (pow10 a) 0) as [Z|_]; [lra|]. cbn [bind].
    destruct (Reqb_spec ref 1) as [Z|_]; [contradiction|]. unfold cf_plotdata. rewrite map_map. cbn [fst snd]. do 2 f_equal.
    f_equal. apply map_ext. intros t. unfold k. destruct rate; f_equal; ring.
  - intros t. split.
    + intros (i & Hi & ->). assert (Q : nth i (linspace 0 5 1000) 0 = 5 * INR i / 999).
      { rewrite linspace_nth by lia. replace (1000 - 1)%nat with 999%nat by reflexivity. replace (INR 999) with 999 by (rewrite INR_IZR_INZ; reflexivity). field. }
      rewrite <- Q. apply nth_In. rewrite linspace_length. exact Hi.
    + intros I. apply (In_nth _ _ 0) in I as (i & Hi & <-). rewrite linspace_length in Hi. exists i. split; [exact Hi|].
      rewrite linspace_nth by lia. replace (1000 - 1)%nat with 999%nat by reflexivity. replace (INR 999) with 999 by (rewrite INR_IZR_INZ; reflexivity). field.
  - intros t P NZ. split.
    + rewrite evaluate_value by exact NZ. rewrite E4. do 2 f_equal. unfold k, cf_a0. replace (pow10 (log10 (N1 cf t) - a)) with (N1 cf t / pow10 a); [field; lra|].
      unfold Rminus. rewrite pow10_plus, pow10_log10 by exact P. unfold Rdiv. f_equal. symmetry. unfold pow10. rewrite Ropp_mult_distr_l_reverse. apply exp_Ropp.
    + rewrite C19_density_at_1km by assumption. unfold cf_a0. now rewrite pow10_log10.
  - intros t. apply (derivable_pt_lim_scal (N1 cf)). apply N1_derivative.
  - intros t. apply N1_derivative.
Qed.
(** With the reference diameter 1 km there is one curve, without a label *)
Theorem C100_chronology_1km :
  forall cf pf rate, built pf -> has_own_a0 pf ->
    chronology_curves cf (Some pf) 1 rate = Ok [(None, cf_plotdata cf rate true)].
Proof.
  intros cf pf rate B H. destruct (own_value pf 1 B H) as (a & y & E1 & E2 & E3 & E4). unfold chronology_curves, ref_ratio. rewrite E3. cbn [bind].
  pose proof (pow10_pos a). destruct (Reqb_spec (pow10 a) 0) as [Z|_]; [lra|]. cbn [bind]. destruct (Reqb_spec 1 1) as [_|Z]; [reflexivity|contradiction].
Qed.
(** the title of the axis names a reference diameter of a whole number of kilometres *)
Theorem C100_title :
  forall k rate, (0 <= k)%Z -> density_title (IZR k) rate =
    (if rate then L "Crater formation rate N(>" else L "Cumulative crater density N(>") ++ int_str k ++ (if rate then L " km), km$^{-2}$ Ga$^{-1}$" else L " km), km$^{-2}$").
Proof.
  intros k rate H. assert (E : fmt_f 0 (IZR k) = int_str k).
  { unfold fmt_f, sign. apply IZR_le in H as H'. rewrite Rltb_false by lra. cbn [app Z.of_nat]. rewrite Rabs_pos_eq by lra. unfold ten. cbn [powerRZ]. rewrite Rmult_1_r, app_nil_r.
    unfold int_str. destruct (Z.ltb_spec k 0); [lia|]. f_equal. change (10 ^ 0)%Z with 1%Z. rewrite Z.div_1_r.
    unfold round_even. rewrite Rfloor_IZR. rewrite Rltb_true by lra. reflexivity. }
  unfold density_title. rewrite E. destruct rate; reflexivity.
Qed.
(** but not another one *)
Theorem C100_title_refuted : density_title (1 / 2) false = L "Cumulative crater density N(>0 km), km$^{-2}$".
Proof.
  unfold density_title. replace (fmt_f 0 (1 / 2)) with (L "0"); [reflexivity|]. unfold fmt_f, sign. rewrite Rltb_false by lra. cbn [app Z.of_nat]. rewrite Rabs_pos_eq by lra. unfold ten. cbn [powerRZ].
  rewrite Rmult_1_r, app_nil_r. unfold round_even. assert (F : Rfloor (1 / 2) = 0%Z) by (apply Rfloor_unique; cbn; lra). rewrite F. rewrite !Rltb_false by lra. reflexivity.
Qed.

(** ** The legend and the summary table *)
Lemma density_states a : exists s, density_text a false = Ok s /\ states s (pow10 (t0 a)) (pow10 (t1 a)) (pow10 (t2 a)).
Proof.
  unfold density_text, scientific_notation. set (v := pow10 (t0 a)). pose proof (pow10_pos (t0 a)) as P. fold v in P.
  assert (X : exists st m e, (if Reqb v 0 || (Rltb (-2) (log10 (Rabs v)) && Rltb (log10 (Rabs v)) 4 && negb false) then do! s <- sigfigs v 3; Ok (s, 0%Z)
                  else match 3%nat with O => Err ValueError | _ => Ok (fmt_e 3 v) end) = Ok (st, e) /\ numeral st m /\ significant 3 v (m * powerRZ 10 e)).
  { destruct (Reqb v 0 || _).
    - destruct (sigfigs_spec v 3 ltac:(lia)) as (s & y & -> & N & G). exists s, y, 0%Z. split; [reflexivity|]. split; [exact N|]. cbn [powerRZ]. now rewrite Rmult_1_r.
    - unfold fmt_e. pose proof (sci_value 3 v ltac:(lia)) as SV. destruct (sci 3 (Rabs v)) as (m & e). destruct SV as (M & M2 & G).
      destruct (digits_spec 3 m) as (D1 & D2 & D3). rewrite Z.mod_small in D3 by exact M. set (f := digits 3 m) in *.
      assert (NE : f <> []) by (intros K; rewrite K in D1; discriminate).
      exists (sign v ++ point f 1), ((if Rltb v 0 then -1 else 1) * (IZR m * ten (0 - Z.of_nat 3 + 1))), e. split; [reflexivity|]. split.
      + apply numeral_sign. assert (PP : point f 1 = placed f 0) by (apply (point_placed f 0); rewrite D1; lia). rewrite PP, <- D3. rewrite <- D1. now apply unum_placed.
      + fold (ten e). rewrite !Rmult_assoc, <- ten_add. replace (0 - Z.of_nat 3 + 1 + e)%Z with (e - Z.of_nat 3 + 1)%Z by lia. exact G. }
  destruct X as (st & m & e & X & N & G). rewrite X. cbn [bind].
  destruct (sigfigs_spec ((pow10 (t2 a) - v) / ten e) 2 ltac:(lia)) as (n1 & y1 & S1 & N1 & G1).
  destruct (sigfigs_spec ((v - pow10 (t1 a)) / ten e) 2 ltac:(lia)) as (n2 & y2 & S2 & N2 & G2).
  change (3 - 1)%nat with 2%nat. rewrite S1. cbn [bind]. rewrite S2. cbn [bind]. eexists. split; [reflexivity|].
  exists st, m, e, n1, y1, n2, y2. repeat (split; [assumption|]). reflexivity.
Qed.
(** For a reference diameter of 1 km the last part of the label of a fit, if the legend asks for it, states the density of the production function fitted at that diameter; the errors are those at the limits of the age *)
Theorem C100_legend :
  forall legend pf p parts, built pf -> t0 (p_a0 p) <> 0 -> aged p -> In (ch "N") legend -> make_legend_label legend 1 p = Ok parts ->
    exists before s w v, parts = before ++ [L "N(" ++ w ++ L ")=" ++ s] /\ decimal w 1 /\
      evaluate pf "cumulative" 1 (Some (t0 (p_a0 p))) = Ok (Some v) /\ states s v (pow10 (t1 (p_a0 p))) (pow10 (t2 (p_a0 p))).
Proof.
  intros legend pf p parts B NZ AG IN E. unfold make_legend_label in E.
  assert (IF : is_fit (p_type p) = true) by (unfold aged in AG; destruct (p_type p); [contradiction|reflexivity..]). rewrite IF in E.
  destruct (when (has legend (ch "c")) _) as [c|] in E; [|discriminate]. cbn [bind] in E. destruct (when (has legend (ch "r")) _) as [r|] in E; [|discriminate]. cbn [bind] in E.
  assert (HN : has legend (ch "N") = true) by (unfold has; now apply mem_in). rewrite HN in E. cbn [when] in E.
  destruct (density_states (p_a0 p)) as (s & DS & ST). rewrite DS in E. unfold one in E. cbn [bind] in E. injection E as <-.
  destruct (fmt_g_decimal 6 1) as (y & SG & DC).
  assert (y = 1) as -> by (apply (IoProofs3.significant_exact 6 1 y 1 0); [lia|exact SG|cbn; lra|cbn; lia]).
  exists (c ++ r), s, (fmt_g 6 1), (pow10 (t0 (p_a0 p))). split; [now rewrite <- app_assoc|]. split; [exact DC|]. split; [|exact ST]. now apply C19_density_at_1km.
Qed.
(** With another reference diameter its name appears in the label, but the density is still that at 1 km: the text after the name is the same for every reference diameter *)
Theorem C100_legend_refuted :
  (forall legend ref p before s, make_legend_label legend ref p = Ok (before ++ [s]) -> aged p -> In (ch "N") legend ->
     exists w, s = L "N(" ++ fmt_g 6 ref ++ L ")=" ++ w /\ states w (pow10 (t0 (p_a0 p))) (pow10 (t1 (p_a0 p))) (pow10 (t2 (p_a0 p)))) /\
  (exists pf, built pf /\ forall a, a <> 0 -> evaluate pf "cumulative" 10 (Some a) = Ok (Some (pow10 a / 100))).
Proof.
  split.
  - intros legend ref p before s E AG IN. unfold make_legend_label in E.
    assert (IF : is_fit (p_type p) = true) by (unfold aged in AG; destruct (p_type p); [contradiction|reflexivity..]). rewrite IF in E.
    destruct (when (has legend (ch "c")) _) as [c|] in E; [|discriminate]. cbn [bind] in E. destruct (when (has legend (ch "r")) _) as [r|] in E; [|discriminate]. cbn [bind] in E.
    assert (HN : has legend (ch "N") = true) by (unfold has; now apply mem_in). rewrite HN in E. cbn [when] in E.
    destruct (density_states (p_a0 p)) as (w & DS & ST). rewrite DS in E. unfold one in E. cbn [bind] in E. injection E as E. rewrite app_assoc in E. apply app_inj_tail in E as (_ & <-).
    exists w. split; [reflexivity|exact ST].
  - exists (Poly [-3; -2] 0 100). split; [constructor|]. intros a H. rewrite evaluate_value by exact H. unfold pf_value. cbn [String.eqb Ascii.eqb Bool.eqb]. do 2 f_equal.
    unfold poly_C, poly_C10. rewrite log10_10, poly_peval. cbn [tl peval]. replace (a + 1 * (-2 + 1 * 0)) with (a + - (2)) by ring. rewrite pow10_plus. unfold Rdiv. f_equal.
    unfold pow10. rewrite Ropp_mult_distr_l_reverse, exp_Ropp. f_equal. change (pow10 2 = 100). replace 2 with (1 + 1) by ring. rewrite pow10_plus, pow10_1. ring.
Qed.
(** In the summary table the columns named for the reference diameter show, to three figures, the densities at 1 km of the fit and of its limits *)
Lemma summary_cells show show_n mu p r k row : summary_row show show_n r mu k p = Ok row ->
  forall j a, nth_error [t0 (p_a0 p); t1 (p_a0 p); t2 (p_a0 p)] j = Some a -> exists cell, nth_error row (16 + j) = Some cell /\ shows 3 (pow10 a) cell.
Proof.
  intros E j a J. unfold summary_row in E.
  repeat match type of E with bind ?m _ = _ => destruct m; [cbn [bind] in E|discriminate] end. injection E as <-.
  destruct j as [|[|[|j]]]; cbn [nth_error] in J; [injection J as <-..|destruct j; discriminate]; (eexists; split; [reflexivity|apply shows_2e]).
Qed.
Theorem C100_summary :
  forall pf show show_n mu p r k row, built pf -> summary_row show show_n r mu k p = Ok row ->
    forall j a, nth_error [t0 (p_a0 p); t1 (p_a0 p); t2 (p_a0 p)] j = Some a -> a <> 0 ->
      exists w cell v, nth_error (summary_head 1) (16 + j) = Some (L "N(" ++ w ++ L ")" ++ nth j [[]; L "-"; L "+"] []) /\ decimal w 1 /\
        nth_error row (16 + j) = Some cell /\ evaluate pf "cumulative" 1 (Some a) = Ok (Some v) /\ shows 3 v cell.
Proof.
  intros pf show show_n mu p r k row B E j a J NZ. destruct (summary_cells _ _ _ _ _ _ _ E j a J) as (cell & C & SH).
  destruct (fmt_g_decimal 6 1) as (y & SG & DC).
  assert (y = 1) as -> by (apply (IoProofs3.significant_exact 6 1 y 1 0); [lia|exact SG|cbn; lra|cbn; lia]).
  exists (fmt_g 6 1), cell, (pow10 a). split; [|split; [exact DC|split; [exact C|split; [now apply C19_density_at_1km|exact SH]]]].
  destruct j as [|[|[|j]]]; cbn [nth_error] in J; [..|destruct j; discriminate]; unfold summary_head; cbn [plus nth_error nth]; now rewrite <- ?app_assoc, ?app_nil_r.
Qed.
(** also when they are named for another diameter *)
Theorem C100_summary_refuted :
  forall show show_n mu p r k row ref, summary_row show show_n r mu k p = Ok row ->
    forall j a, nth_error [t0 (p_a0 p); t1 (p_a0 p); t2 (p_a0 p)] j = Some a ->
      nth_error (summary_head ref) (16 + j) = Some (L "N(" ++ fmt_g 6 ref ++ L ")" ++ nth j [[]; L "-"; L "+"] []) /\
      exists cell, nth_error row (16 + j) = Some cell /\ shows 3 (pow10 a) cell.
Proof.
  intros show show_n mu p r k row ref E j a J. split; [|now apply (summary_cells _ _ _ _ _ _ _ E)].
  destruct j as [|[|[|j]]]; cbn [nth_error] in J; [..|destruct j; discriminate]; unfold summary_head; cbn [plus nth_error nth]; now rewrite <- ?app_assoc, ?app_nil_r.
Qed.
Print Assumptions C100_chronology_curves.
Print Assumptions C100_chronology_1km.
Print Assumptions C100_title.
Print Assumptions C100_title_refuted.
Print Assumptions C100_legend.
Print Assumptions C100_legend_refuted.
Print Assumptions C100_summary.
Print Assumptions C100_summary_refuted.
(** ** The hypotheses can be met *)
Definition with_a0 (a : R) : cplot :=
  mkPlot Tdfit false false (L "x") (L "a.scc") (L "pseudo-log") 100 None false false 10 (Whole 10) (1, Some 2) (Ok (1, 2)) (Some (1, 2)) 0 (1, 1, 1) (a, a - 1, a + 1).
Example C100_hypotheses_met :
  (let pf := Poly [-3; -2] 0 100 in built pf /\ has_own_a0 pf /\ (10 : R) <> 1) /\
  (let p := with_a0 (-2) in aged p /\ t0 (p_a0 p) <> 0 /\ (exists s, make_legend_label (L "N") 1 p = Ok [s]) /\
     exists row, summary_row (fun _ => []) (fun _ => []) false false 0 p = Ok row).
Proof.
  split.
  - cbv zeta. split; [constructor|]. split; [discriminate|lra].
  - cbv zeta. split; [discriminate|]. split; [cbn; lra|]. split.
    + unfold make_legend_label. cbn [with_a0 p_type is_fit has mem when bind]. destruct (density_states (p_a0 (with_a0 (-2)))) as (s & E & _).
      change (mem (ch "c") (L "N")) with false. change (mem (ch "r") (L "N")) with false. change (mem (ch "N") (L "N")) with true. cbn [when bind]. unfold one. rewrite E. eexists. reflexivity.
    + destruct (summary_row_ok (fun _ => []) (fun _ => []) false false 0 (with_a0 (-2)) (p_range (with_a0 (-2))) (L "x") eq_refl eq_refl) as (row & E & _). now exists row.
Qed.
