(** Lemmas on the correction for resurfacing. *)
From Coq Require Import String List ZArith Reals Lra Lia Bool Sorted.
From Verif Require Import Base NumModel NumLemmas BinModel BinSpec BinProofs ApplyProofs BinProps CountModel CountSpec CountProofs CountProps CountProofs2 CountProofs3.
From Verif Require Import ProdModel ProdSpec ProdProofs ProdProofs2 ProdProofs3 ProdProps PdfModel PdfSpec AgeModel AgeSpec AgeProofs AgeProofs2 AgeProps EndSpec EndProofs DfitSpec DfitProofs ResSpec.
Import ListNotations.
Local Open Scope R_scope.

Lemma series_isochron a c x : pow10 (series 0 (c :: a) (log10 x)) = pow10 c * unit_isochron a x.
Proof. unfold unit_isochron. cbn [series pow]. rewrite Rmult_1_r. apply pow10_plus. Qed.

Lemma last_map_ne (f : R -> R) (l : list R) : l <> [] -> last (map f l) 0 = f (last l 0).
Proof. induction l as [|x [|z l] IH]; intros N; [contradiction|reflexivity|]. apply IH. discriminate. Qed.

Section Correct.
  Variables (cfit : (R -> R -> R) -> list R -> list R -> list R -> R) (a0 : R) (a : list R) (plo phi : R) (y : R -> R) (d : list R).
  Hypothesis LS : solves_least_squares cfit.
  Hypothesis Hd : Forall (fun x => 0 < x) d.
  Hypothesis Hy : forall x, In x d -> 0 < y x.
  Hypothesis Hl : forall x, In x d -> y (last d 0) <= y x.
  Hypothesis NE : d <> [].
  Let pf := as_prodfn cfit (Poly (a0 :: a) plo phi).

  Lemma added_pos k x : In x d -> 0 < y x + added a0 a y d k.
  Proof.
    intros I. destruct k as [|k]; cbn [added]; [specialize (Hy x I); lra|]. unfold missing.
    pose proof (Rmult_lt_0_compat _ _ (pow10_pos (best_isochron a0 a y d (added a0 a y d k))) (pow10_pos (series 1 a (log10 (last d 0))))).
    unfold unit_isochron. specialize (Hl x I). lra.
  Qed.

  Lemma fit_found err c : length err = length d -> Forall (fun x => 0 < x) err -> (forall x, In x d -> 0 < y x + c) ->
    pf_fit pf d (map (fun y => y + c) (map y d)) err = weighted_mean (fun x => y x + c) (fun x => log10 (y x + c) - series 1 a (log10 x)) d.
  Proof.
    intros LE PE PC. rewrite map_map. unfold pf, as_prodfn. cbn [pf_fit]. set (f := fun x => y x + c) in *.
    assert (Pf : Forall (fun x => 0 < x) (map f d)) by (rewrite Forall_map, Forall_forall; exact PC).
    destruct (C23_fit_is_the_weighted_least_squares_optimum cfit (Poly (a0 :: a) plo phi) "cumulative" (fun x c => pow10 (series 0 (c :: a) (log10 x))) d (map f d) err LS (built_poly _ _ _) (or_introl eq_refl) NE
      ltac:(now rewrite map_length) ltac:(now rewrite map_length) Hd Pf PE) as (best & l & h & E & M & _).
    { intros x q _. split; [apply poly_value|apply pow10_pos]. }
    rewrite E. apply (best_fit_poly a0 a plo phi f d best NE PC).
    intros model Q. intros q. specialize (M q). cbn [String.eqb Ascii.eqb Bool.eqb] in M.
    assert (X : forall q w v, log_misfit model w d v q = log_misfit (fun x c => pow10 (series 0 (c :: a) (log10 x))) w d v q).
    { clear - Q. intros q. revert Q. induction d as [|x e IH]; intros Q w v; [destruct w, v; reflexivity|]. destruct w, v; try reflexivity. cbn [log_misfit]. rewrite IH by (intros; apply Q; now right).
      destruct (Q x q (or_introl eq_refl)) as (Q1 & _). rewrite poly_value in Q1. assert (Q2 : model x q = pow10 (series 0 (q :: a) (log10 x))) by congruence. now rewrite Q2. }
    rewrite !X. exact M.
  Qed.

  Lemma value_found n : pf_Ca0 pf (last d 0) n = pow10 (if Req_EM_T n 0 then a0 else n) * unit_isochron a (last d 0).
  Proof.
    unfold pf, as_prodfn. cbn [pf_Ca0]. rewrite <- series_isochron. destruct (Req_EM_T n 0) as [->|N].
    - unfold evaluate, effective_a0. destruct (Reqb_spec 0 0) as [_|N]; [|now contradiction N]. cbn [pyindex]. unfold pyindex. cbn. fold (pf_value (Poly (a0 :: a) plo phi) "cumulative" (last d 0) a0).
      pose proof (poly_value a0 a plo phi (last d 0) a0) as P. unfold pf_value in P. cbn [String.eqb Ascii.eqb Bool.eqb] in P. injection P as P. exact P.
    - rewrite evaluate_value, poly_value by exact N. reflexivity.
  Qed.

  Lemma iter_found err : length err = length d -> Forall (fun x => 0 < x) err ->
    forall fuel j, exists k, (k <= fuel)%nat /\ resurf_iter (Datatypes.S fuel) pf d (map y d) err (added a0 a y d j) = added a0 a y d (Datatypes.S (j + k)) /\
      ((k < fuel)%nat -> settled a0 a y d (j + k)) /\ forall i, (j <= i < j + k)%nat -> ~ settled a0 a y d i.
  Proof.
    intros LE PE. induction fuel as [|fuel IH]; intros j.
    - exists O. split; [lia|]. split; [|split; [lia|intros; lia]]. rewrite Nat.add_0_r. cbn [resurf_iter].
      rewrite fit_found by (try assumption; intros; now apply added_pos). rewrite value_found, last_map_ne by exact NE.
      destruct (Rltb _ _); reflexivity.
    - cbn [resurf_iter]. fold (resurf_iter (Datatypes.S fuel)). rewrite fit_found by (try assumption; intros; now apply added_pos). rewrite value_found, last_map_ne by exact NE.
      change (pow10 _ * unit_isochron a (last d 0) - y (last d 0)) with (added a0 a y d (Datatypes.S j)).
      destruct (Rltb_spec (Rabs (added a0 a y d j - added a0 a y d (Datatypes.S j))) (1 / 10000)) as [T|T].
      + exists O. rewrite Nat.add_0_r. split; [lia|]. split; [reflexivity|]. split; [|intros; lia]. intros _. unfold settled. rewrite Rabs_minus_sym. exact T.
      + destruct (IH (Datatypes.S j)) as (k & K & E & S1 & S2). exists (Datatypes.S k). replace (j + Datatypes.S k)%nat with (Datatypes.S j + k)%nat by lia.
        split; [lia|]. split; [cbn [resurf_iter] in E; rewrite last_map_ne in E by exact NE; exact E|]. split; [intros; apply S1; lia|]. intros i Hi. destruct (Nat.eq_dec i j) as [->|N]; [|apply S2; lia].
        unfold settled. rewrite Rabs_minus_sym. intros C. lra.
  Qed.
End Correct.

Lemma sorted_last l : StronglySorted Z.lt l -> forall z, In z l -> (z <= last l 0)%Z.
Proof.
  induction 1 as [|x l H IH F]; intros z I; [destruct I|]. destruct l as [|x' l].
  - destruct I as [->|[]]. cbn. lia.
  - change (last (x :: x' :: l) 0%Z) with (last (x' :: l) 0%Z). destruct I as [->|I]; [|now apply IH].
    assert (G : (x' <= last (x' :: l) 0)%Z) by (apply IH; now left). inversion F; subst. lia.
Qed.
Lemma last_map_Z (f : Z -> R) l : l <> [] -> last (map f l) 0 = f (last l 0%Z).
Proof. induction l as [|x [|z l] IH]; intros N; [contradiction|reflexivity|]. apply IH. discriminate. Qed.

Section Points.
  Variables (craters : list (R * R)) (area : R) (b : string) (bd : binned) (ri : option (list nat)) (lo hi : R).
  Hypothesis Hb : In b real_binnings.
  Hypothesis Hne : craters <> [].
  Hypothesis Hpos : Forall (fun c => 0 < fst c) craters.
  Hypothesis Hfr : Forall (fun c => 0 < snd c) craters.
  Hypothesis Ha : 0 < area.
  Hypothesis HA : apply_binning craters b 0 = Ok (bd, ri).
  Hypothesis Hlo : In lo (b_dmin bd).
  Hypothesis Hhi : In hi (b_dmax bd).
  Hypothesis Hlt : lo < hi.
  Hypothesis HN : (0 < number_between lo hi craters)%nat.
  Let d := map fst (bins_used craters lo hi (b_dmin bd) (b_dmax bd)).
  Let y x := fraction_from x craters / area.
  Let num x := INR (number_from x craters).

  Lemma d_last x : In x d -> x <= last d 0.
  Proof.
    intros I. destruct (C03_binning_total_and_exact craters b 0 Hb Hne Hpos) as (z0 & n & bd' & ri' & HA' & _ & E1 & E2 & CV & _).
    assert (bd' = bd) by congruence. subst bd'.
    destruct (used_numbers b craters z0 n lo hi Hb Hfr CV) as (zs & EZ & SZ & _).
    assert (ED : d = map (grid b 0) zs) by (unfold d; rewrite E1, E2, EZ, map_map; reflexivity).
    rewrite ED in *. apply in_map_iff in I. destruct I as (z & <- & I).
    rewrite last_map_Z by (intros ->; destruct I). apply grid_mono'; [exact Hb|]. now apply sorted_last.
  Qed.
  Lemma d_facts : d <> [] /\ (forall x, In x d -> 0 < x /\ 0 < y x /\ 1 <= sqrt (num x)) /\ (forall x, In x d -> y (last d 0) <= y x).
  Proof.
    pose proof (bins_nonempty craters b bd ri lo hi Hb Hne Hpos Hfr HA Hlo Hhi Hlt HN) as NE.
    split; [unfold d; intros E; apply map_eq_nil in E; contradiction|]. split.
    - intros x I. unfold d in I. apply in_map_iff in I. destruct I as (e & <- & I).
      destruct (used_edges craters b bd ri lo hi Hb Hne Hpos HA e I) as (P1 & P2 & P3 & P4 & P5). split; [exact P1|].
      pose proof (fraction_from_ge (fst e) (snd e) craters Hfr). split; [apply Rdiv_lt_0_compat; lra|].
      apply sqrt_INR_ge1. pose proof (number_of_fraction _ _ _ P5). pose proof (number_from_ge (fst e) (snd e) craters). lia.
    - intros x I. apply d_last in I. unfold y. unfold Rdiv. apply Rmult_le_compat_r; [left; now apply Rinv_0_lt_compat|].
      apply fraction_from_antitone; [exact I|]. eapply Forall_impl; [|exact Hfr]. cbn. intros; lra.
  Qed.

  Lemma range_whole : requested_bin_range bd (Some b) lo (Fin hi) (Some 1%Z) = Ok (hd 0 (b_dmin bd), hi).
  Proof.
    destruct (C03_binning_total_and_exact craters b 0 Hb Hne Hpos) as (z0 & n & bd' & ri' & HA' & _ & E1 & E2 & CV & _).
    assert (bd' = bd) by congruence. subst bd'.
    assert (H0 : b_dmin bd = grid b 0 z0 :: tl (b_dmin bd) /\ hd 0 (b_dmin bd) = grid b 0 z0).
    { rewrite E1. unfold grid_points. cbn [seq map hd tl]. replace (z0 + Z.of_nat 0)%Z with z0 by lia. split; reflexivity. }
    destruct H0 as (H0 & H1). rewrite E2 in Hhi. apply in_grid_points in Hhi. destruct Hhi as (k & K & Ek).
    rewrite H1, Ek. unfold requested_bin_range. destruct (Reqb_spec 0 0) as [_|N]; [|now contradiction N].
    rewrite H0. cbn [pyindex]. unfold pyindex at 1. cbn [Z.ltb Z.compare Z.to_nat nth_error bind].
    pose proof (requested_range_between bd b z0 k Hb ltac:(lia)) as Q. unfold requested_bin_range in Q.
    pose proof (grid_pos b 0 z0 Hb). destruct (Reqb_spec (grid b 0 z0) 0) as [|_]; [lra|]. exact Q.
  Qed.

  Lemma raised_points pf c rs : requested_bin_range bd (Some b) lo (Fin hi) rs = Ok (hd 0 (b_dmin bd), hi) ->
    plotdata_of bd area (Some b) "cumulative" c (Some (lo, Fin hi)) rs false pf
    = Ok (mkPD (map (fun x => mkPt x (y x + c) ((y x + c) / sqrt (num x))) d) (fraction_between lo hi craters) (INR (number_between lo hi craters)) (hd 0 (b_dmin bd), hi)).
  Proof.
    intros RB. destruct (fit_points craters area b bd ri lo hi Hb Hne Hpos Hfr Ha HA Hlo Hhi Hlt "cumulative" None ltac:(cbn; tauto)) as (pd & E & E1 & E2 & _ & _).
    rewrite (getplotdata_unfold _ _ _ _ _ _ _ _ _ HA) in E. unfold plotdata_of in *. cbn [negb existsb String.eqb Ascii.eqb Bool.eqb orb data_presentations] in *.
    destruct (mapM (plot_point bd area 0 None "cumulative") (select_range bd (where_pos (b_n bd)) lo (Fin hi))); [|discriminate]. cbn [bind] in E.
    destruct (requested_bin_range bd (Some b) lo (Fin hi) (Some 0%Z)); [|discriminate]. cbn [bind] in E. injection E as <-. cbn [pd_n pd_nevent] in E1, E2.
    pose proof (apply_binning_good _ _ _ _ _ Hb Hne Hpos HA) as G. pose proof (gb_len3 bd G) as L3.
    rewrite (mapM_map _ (fun i => mkPt (nth i (b_dmin bd) 0) (y (nth i (b_dmin bd) 0) + c) ((y (nth i (b_dmin bd) 0) + c) / sqrt (num (nth i (b_dmin bd) 0))))).
    2:{ intros k Hk. assert (K : (k < length (b_dmin bd))%nat) by (unfold select_range in Hk; apply filter_In in Hk; destruct Hk as [Hk _]; apply where_pos_In in Hk; lia).
        destruct (bin_values craters b 0 bd ri Hb Hne Hpos HA k K) as (l & h & V1 & _ & _ & _ & _ & _ & _ & _ & V3 & V4).
        unfold plot_point. cbn [String.eqb Ascii.eqb Bool.eqb]. rewrite V1, V3, V4. reflexivity. }
    cbn [bind]. rewrite RB. cbn [bind]. rewrite E1, E2. unfold d. rewrite <- (selected_bins craters b bd ri lo hi Hb Hne Hpos HA Hlo Hhi Hlt), !map_map. reflexivity.
  Qed.

  Lemma corrected_points cfit a0 a plo phi : solves_least_squares cfit ->
    exists c, correction a0 a y d c /\ (forall x, In x d -> 0 < y x + c) /\
      fst (getplotdata (fresh craters area) "cumulative" b (Some (lo, Fin hi)) (Some 1%Z) false (Some (as_prodfn cfit (Poly (a0 :: a) plo phi))))
      = Ok (mkPD (map (fun x => mkPt x (y x + c) ((y x + c) / sqrt (num x))) d) (fraction_between lo hi craters) (INR (number_between lo hi craters)) (hd 0 (b_dmin bd), hi)).
  Proof.
    intros LS. destruct d_facts as (NE & P & LA). set (pf := as_prodfn cfit (Poly (a0 :: a) plo phi)).
    assert (P0 : exists p0, plotdata_of bd area (Some b) "cumulative" 0 (Some (lo, Fin hi)) (Some 0%Z) false None = Ok p0 /\ map pt_d (pd_points p0) = d /\ map pt_y (pd_points p0) = map y d /\
      map pt_err (pd_points p0) = map (fun x => y x / sqrt (num x)) d).
    { destruct (fit_points craters area b bd ri lo hi Hb Hne Hpos Hfr Ha HA Hlo Hhi Hlt "cumulative" None ltac:(cbn; tauto)) as (pd & E & _ & _ & _ & EP).
      rewrite (getplotdata_unfold _ _ _ _ _ _ _ _ _ HA) in E. exists pd. split; [exact E|]. rewrite EP, !map_map. unfold d. rewrite !map_map. repeat split; reflexivity. }
    destruct P0 as (p0 & E0 & D0 & Y0 & R0).
    assert (AD : exists c, correction a0 a y d c /\ (forall x, In x d -> 0 < y x + c) /\ resurf_adj bd area (Some b) (Some pf) (Some (lo, Fin hi)) = Ok c).
    { unfold resurf_adj. rewrite E0. cbn [bind]. rewrite D0, Y0, R0. destruct (Nat.ltb_spec 1 (length d)) as [N|N].
      - destruct (iter_found cfit a0 a plo phi y d LS ltac:(rewrite Forall_forall; intros; now apply P) ltac:(intros; now apply P) LA NE (map (fun x => y x / sqrt (num x)) d) ltac:(now rewrite map_length)) with (fuel := 20%nat) (j := O) as (k & K & E & S1 & S2).
        { rewrite Forall_map, Forall_forall. intros x I. destruct (P x I) as (_ & Q1 & Q2). apply Rdiv_lt_0_compat; lra. }
        exists (added a0 a y d (Datatypes.S k)). split; [|split].
        + split; [lia|]. intros _. exists k. split; [exact K|]. split; [reflexivity|]. split; [exact S1|]. intros j Hj. apply S2. lia.
        + intros x I. apply added_pos; try assumption. intros; now apply P.
        + f_equal. exact E.
      - exists 0. split; [split; [reflexivity|lia]|]. split; [|reflexivity]. intros x I. destruct (P x I) as (_ & Q1 & _). lra. }
    destruct AD as (c & C & PC & EA). exists c. split; [exact C|]. split; [exact PC|].
    unfold getplotdata, ensure_binning, fresh, do_apply. cbn [cc_prebinned cc_binning cc_craters]. rewrite HA. cbn [fst cc_binned cc_area cc_binning cc_craters cc_prebinned].
    fold pf. rewrite EA. cbn [bind]. apply raised_points. exact range_whole.
  Qed.
End Points.
