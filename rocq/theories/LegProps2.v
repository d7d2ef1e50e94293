(** C42: the summary table of ages. *)
From Coq Require Import String List Ascii ZArith Reals Lra Lia Bool Permutation.
Import ListNotations.
From Verif Require Import Base NumModel NumLemmas StrModel StrSpec StrProofs StrProofs2 CliModel CliProofs2 FmtModel FmtSpec FmtProofs IoModel IoProofs3 LegModel LegSpec LegProofs LegProofs2 LegProps.
Local Open Scope R_scope.

(** the plots with an age, in their order *)
Definition ages_of (plots : list cplot) : list cplot := filter (fun p => is_fit (p_type p)) plots.
Lemma ages_of_in plots p : In p (ages_of plots) <-> In p plots /\ aged p.
Proof. unfold ages_of. rewrite filter_In. unfold aged. destruct (p_type p); cbn; intuition congruence. Qed.
Lemma collect_ok plots : mapM (fun p => p) (filter (fun p => match p with Ok p => is_fit (p_type p) | Err _ => true end) (map Ok plots)) = Ok (ages_of plots).
Proof. induction plots as [|p l IH]; [reflexivity|]. cbn [map filter ages_of]. fold (ages_of l). destruct (is_fit (p_type p)); [cbn [mapM bind]; now rewrite IH|exact IH]. Qed.
(** the name shown can be found *)
Definition named (p : cplot) : Prop := p_name p <> [] \/ one_line (p_source p).
Lemma named_ok p : named p -> exists name, match p_name p with [] => filename (p_source p) (L "n") None None 4 = Ok name | nm => name = nm end.
Proof.
  intros [H|H]; destruct (p_name p) as [|c r] eqn:E; try easy; try (eexists; reflexivity).
  destruct (filename_pieces (p_source p) (L "n") H) as (nm & F & _); [|now exists nm]. intros c [<-|[]]. auto.
Qed.
(** the diameters of a row: those of the bins used, if [b], or those asked for *)
Definition row_range (b : bool) (p : cplot) (r : R * option R) : Prop :=
  if b then exists lo hi, p_binrange p = Some (lo, hi) /\ r = (lo, Some hi) else r = p_range p.
Lemma rows_ok show show_n b mu : forall (s : list cplot) orders, length orders = length s ->
  (forall p, In p s -> named p) -> (b = true -> forall p, In p s -> p_binrange p <> None) ->
  exists rows, mapM (fun op => summary_row show show_n b mu (fst op) (snd op)) (combine orders s) = Ok rows /\
    Forall2 (fun op row => exists r, row_range b (snd op) r /\ row_of show show_n mu r (fst op) (snd op) (row ++ [[dq] ++ L " " ++ [dq]])) (combine orders s) rows.
Proof.
  induction s as [|p s IH]; intros [|k orders] LN NM BR; try discriminate; [exists []; split; [reflexivity|constructor]|]. cbn [combine mapM fst snd].
  destruct (IH orders ltac:(cbn in LN; lia) ltac:(intros q I; apply NM; now right) ltac:(intros B q I; apply BR; [exact B|now right])) as (rows & E & F).
  destruct (named_ok p (NM p (or_introl eq_refl))) as (name & HN).
  assert (R : exists r, range_used b p = Some r /\ row_range b p r).
  { unfold range_used, row_range. destruct b; [|eexists; split; reflexivity]. destruct (p_binrange p) as [[lo hi]|] eqn:EB; [eexists; split; [reflexivity|eauto]|exfalso; now apply (BR eq_refl p (or_introl eq_refl))]. }
  destruct R as (r & R1 & R2). destruct (summary_row_ok show show_n b mu k p r name R1 HN) as (row & E1 & RO). rewrite E1. cbn [bind]. rewrite E. cbn [bind].
  exists (row :: rows). split; [reflexivity|]. constructor; [exists r; split; [exact R2|exact RO]|exact F].
Qed.
Definition last_is_range_fit (s : list cplot) : bool :=
  match rev s with [] => false | l :: _ => match p_type l with Tcfit | Tdfit => negb (Z.eqb (p_resurf l) 1) | _ => false end end.
Lemma last_spec s : last_is_range_fit s = true <-> exists a l, s = a ++ [l] /\ (p_type l = Tcfit \/ p_type l = Tdfit) /\ p_resurf l <> 1%Z.
Proof.
  unfold last_is_range_fit. split.
  - destruct (rev s) as [|l r] eqn:E; [discriminate|]. intros H. exists (rev r), l. split; [rewrite <- (rev_involutive s), E; reflexivity|].
    destruct (p_type l); try discriminate; (split; [auto|]); destruct (Z.eqb_spec (p_resurf l) 1); easy.
  - intros (a & l & -> & T & R). rewrite rev_app_distr. cbn [rev app]. destruct (Z.eqb_spec (p_resurf l) 1); [easy|]. destruct T as [-> | ->]; reflexivity.
Qed.

(** * C42 *)
(** one row per plot with an age, in the order of the plots, if the last of them is not a fit without resurfacing correction 1
    or all of them have a bin range (which Poisson ages do not) *)
Theorem C42_rows : forall show show_n mu ref plots,
  let s := ages_of plots in
  s <> [] -> (forall p, In p s -> named p) ->
  (forall a l, s = a ++ [l] -> (p_type l = Tcfit \/ p_type l = Tdfit) -> p_resurf l <> 1%Z -> forall p, In p s -> p_binrange p <> None) ->
  exists positions rows b, summary_table show show_n mu ref (map Ok plots) = Ok (Some (summary_head ref :: rows)) /\
    length rows = length s /\ age_positions (map (fun p => fst (fst (p_t p))) s) positions /\
    Forall2 (fun kp row => exists r, row_range b (snd kp) r /\ row_of show show_n mu r (fst kp) (snd kp) row) (combine positions s) rows /\
    (b = true <-> exists a l, s = a ++ [l] /\ (p_type l = Tcfit \/ p_type l = Tdfit) /\ p_resurf l <> 1%Z).
Proof.
  intros show show_n mu ref plots s NE NM BR. unfold summary_table. rewrite collect_ok. fold s. cbn [bind].
  set (pos := sort_orders (map (fun p => t0 (p_t p)) s)). pose proof (sort_orders_positions (map (fun p => t0 (p_t p)) s)) as AP. fold pos in AP.
  assert (LP : length pos = length s) by (destruct AP as [AP _]; rewrite map_length in AP; exact AP).
  destruct (rows_ok show show_n (last_is_range_fit s) mu s pos LP NM) as (rows & E & F).
  { intros B. apply last_spec in B. destruct B as (a & l & E & T & R). now apply (BR a l). }
  exists pos, (map (fun r => r ++ [[dq] ++ L " " ++ [dq]]) rows), (last_is_range_fit s).
  split; [|split; [|split; [exact AP|split; [|apply last_spec]]]].
  - unfold last_is_range_fit in E. destruct (rev s) as [|l r] eqn:RV; [exfalso; apply NE; rewrite <- (rev_involutive s), RV; reflexivity|]. rewrite E. reflexivity.
  - rewrite map_length. assert (FL : length (combine pos s) = length rows) by (clear - F; induction F; cbn; congruence). etransitivity; [symmetry; exact FL|]. rewrite combine_length. lia.
  - clear - F. induction F as [|op row l rows H F IH]; cbn [map]; constructor; assumption.
Qed.
Print Assumptions C42_rows.

(** without a plot that has an age there is no table *)
Theorem C42_no_ages : forall show show_n mu ref plots, (forall p, In p plots -> p_type p = Tdata) -> summary_table show show_n mu ref (map Ok plots) = Ok None.
Proof.
  intros show show_n mu ref plots H. unfold summary_table. rewrite collect_ok. assert (E : ages_of plots = []). { destruct (ages_of plots) as [|p l] eqn:E; [reflexivity|]. exfalso.
    assert (I : In p (ages_of plots)) by (rewrite E; now left). apply ages_of_in in I. destruct I as [I A]. apply A, H, I. }
  rewrite E. reflexivity.
Qed.
Print Assumptions C42_no_ages.

(** the file: two lines of column titles, the header and one line per row; the commas of a line part its cells, if there are
    none in the texts of the plots *)
Theorem C42_text : forall show show_n mu ref plots rows,
  (forall p, In p (ages_of plots) -> no_comma (p_binning p) /\ no_comma (p_source p) /\ no_comma (show_n (p_n p)) /\ no_comma (show (p_nevent p)) /\
     match p_name p with [] => forall nm, filename (p_source p) (L "n") None None 4 = Ok nm -> no_comma nm | nm => no_comma nm end) ->
  (forall p, In p (ages_of plots) -> named p) ->
  summary_table show show_n mu ref (map Ok plots) = Ok (Some rows) ->
  exists text l1 l2 lines, summary_text show show_n mu ref (map Ok plots) = Ok (Some text) /\
    split_chr nl [] text = l1 :: l2 :: lines /\ map (split_chr (ch ",") []) lines = rows.
Proof.
  intros show show_n mu ref plots rows NC NM T. unfold summary_text. rewrite T. cbn [bind].
  assert (G : Forall (fun r => r <> [] /\ Forall plain r) rows).
  { unfold summary_table in T. rewrite collect_ok in T. cbn [bind] in T. set (s := ages_of plots) in *. destruct (rev s) as [|l r] eqn:RV; [discriminate|].
    set (b := match p_type l with Tcfit | Tdfit => negb (Z.eqb (p_resurf l) 1) | _ => false end) in T.
    set (pos := sort_orders (map (fun p => t0 (p_t p)) s)) in T. pose proof (sort_orders_positions (map (fun p => t0 (p_t p)) s)) as AP. fold pos in AP.
    assert (LP : length pos = length s) by (destruct AP as [AP _]; rewrite map_length in AP; exact AP). clearbody pos b. clear AP RV.
    destruct (mapM _ (combine pos s)) as [rs|e] eqn:E; [|discriminate]. cbn [bind] in T. injection T as <-. constructor.
    - split; [discriminate|]. unfold summary_head. assert (PR : plain (L "N(" ++ fmt_g 6 ref ++ L ")")) by (repeat apply plain_app; [apply plain_b; reflexivity|apply plain_g|apply plain_b; reflexivity]).
      assert (PR1 : forall t, t = L "-" \/ t = L "+" -> plain ((L "N(" ++ fmt_g 6 ref ++ L ")") ++ t)) by (intros t [-> | ->]; apply plain_app; [exact PR|apply plain_b; reflexivity|exact PR|apply plain_b; reflexivity]).
      assert (CO : forall (x : str) l, plain x -> Forall plain l -> Forall plain (x :: l)) by (intros; now constructor).
      repeat (apply CO; [first [exact PR|apply PR1; now auto|apply plain_b; reflexivity]|]). apply Forall_nil.
    - revert pos LP rs E. clearbody s. clear l r. revert NC NM. induction s as [|p s IH]; intros NC NM [|k pos] LP rs E; try discriminate; cbn [combine mapM] in E; [injection E as <-; constructor|].
      cbn [fst snd] in E. destruct (summary_row show show_n b mu k p) as [row|] eqn:ER; [|discriminate]. cbn [bind] in E. destruct (mapM _ (combine pos s)) as [rs'|] eqn:E'; [|discriminate]. cbn [bind] in E. injection E as <-.
      cbn [map]. constructor; [|apply (IH ltac:(intros q I; apply NC; now right) ltac:(intros q I; apply NM; now right) pos ltac:(cbn in LP; lia)); exact E'].
      split; [intros H; apply app_eq_nil in H; destruct H; discriminate|].
      destruct (named_ok p (NM p (or_introl eq_refl))) as (name & HN). destruct (NC p (or_introl eq_refl)) as (N1 & N2 & N3 & N4 & N5).
      destruct (range_used b p) as [rg|] eqn:RU.
      + destruct (summary_row_ok show show_n b mu k p rg name RU HN) as (row' & ER' & RO). rewrite ER in ER'. injection ER' as <-. now apply (row_plain show show_n mu rg k p).
      + exfalso. unfold range_used in RU. destruct b; [|discriminate]. destruct (p_binrange p) as [[]|] eqn:EB; [discriminate|]. unfold summary_row in ER. rewrite EB in ER.
        destruct (p_name p); [rewrite HN in ER|]; discriminate. }
  eexists _, _, _, (map (join (L ",")) rows). split; [reflexivity|]. split.
  - apply (split_chr_join nl); [discriminate|]. apply Forall_cons; [|apply Forall_cons].
    + intros H; vm_compute in H; repeat (destruct H as [H|H]; [discriminate|]); exact H.
    + intros H; vm_compute in H; repeat (destruct H as [H|H]; [discriminate|]); exact H.
    + apply Forall_forall. intros x I. apply in_map_iff in I. destruct I as (r & <- & I). rewrite Forall_forall in G. destruct (G r I) as [_ P]. clear - P.
      induction P as [|w ws H P IH]; [easy|]. assert (N : ~ In nl w) by (intros J; unfold plain in H; rewrite Forall_forall in H; apply H in J; tauto). destruct ws as [|w' ws]; [exact N|].
      change (~ In nl (w ++ L "," ++ join (L ",") (w' :: ws))). rewrite !in_app_iff. intros [J|[J|J]]; [tauto| |tauto]. destruct J as [J|[]]. discriminate.
  - rewrite map_map. rewrite <- (map_id rows) at 2. apply map_ext_in. intros r I. rewrite Forall_forall in G. destruct (G r I) as [NE P]. apply (split_chr_join (ch ",")); [exact NE|].
    eapply Forall_impl; [|exact P]. intros w H J. unfold plain in H. rewrite Forall_forall in H. apply H in J. tauto.
Qed.
Print Assumptions C42_text.

(** if the last plot with an age is a fit without resurfacing correction and there is a Poisson age among the others, there is no table *)
Theorem C42_mixed_types_refuted : forall show show_n mu ref plots a l p,
  ages_of plots = a ++ [l] -> (p_type l = Tcfit \/ p_type l = Tdfit) -> p_resurf l <> 1%Z ->
  In p a -> is_poisson p -> (forall q, In q plots -> is_poisson q -> p_binrange q = None) -> (forall q, In q plots -> named q) ->
  summary_table show show_n mu ref (map Ok plots) = Err TypeError.
Proof.
  intros show show_n mu ref plots a l p E T R I PO BN NM. unfold summary_table. rewrite collect_ok. set (s := ages_of plots) in *. cbn [bind].
  assert (B : last_is_range_fit s = true) by (apply last_spec; eauto). unfold last_is_range_fit in B. destruct (rev s) as [|l' r]; [discriminate|]. rewrite B.
  set (pos := sort_orders (map (fun p => t0 (p_t p)) s)). pose proof (sort_orders_positions (map (fun p => t0 (p_t p)) s)) as AP. fold pos in AP.
  assert (LP : length pos = length s) by (destruct AP as [AP _]; rewrite map_length in AP; exact AP). clearbody pos. clear AP.
  assert (IS : In p s) by (rewrite E; apply in_app_iff; now left).
  assert (BP : p_binrange p = None) by (apply BN; [now apply ages_of_in in IS|exact PO]).
  assert (NS : forall q, In q s -> named q) by (intros q J; apply NM; now apply ages_of_in in J).
  assert (K : mapM (fun op => summary_row show show_n true mu (fst op) (snd op)) (combine pos s) = Err TypeError).
  { clear - LP IS BP NS. clearbody s. revert s LP IS NS. induction pos as [|k pos IH]; intros [|q s] LP IS NS; try discriminate; [destruct IS|]. cbn [combine mapM fst snd].
    destruct (named_ok q (NS q (or_introl eq_refl))) as (name & HN).
    destruct (p_binrange q) as [[lo hi]|] eqn:EB.
    - assert (RU : range_used true q = Some (lo, Some hi)) by (unfold range_used; now rewrite EB). destruct (summary_row_ok show show_n true mu k q _ name RU HN) as (row & -> & _). cbn [bind].
      destruct IS as [->|IS]; [congruence|]. rewrite (IH s ltac:(cbn in LP; lia) IS ltac:(intros z J; apply NS; now right)). reflexivity.
    - assert (SR : summary_row show show_n true mu k q = Err TypeError). { unfold summary_row. rewrite EB. destruct (p_name q); [rewrite HN|]; reflexivity. } rewrite SR. reflexivity. }
  rewrite K. reflexivity.
Qed.
Print Assumptions C42_mixed_types_refuted.

(** a comma in the name of a plot gives its line more columns than the header has *)
Lemma split_chr_length c : forall s acc t, (length (split_chr c acc (s ++ c :: t)) = length (split_chr c acc s) + length (split_chr c [] t))%nat.
Proof.
  induction s as [|x s IH]; intros acc t; cbn.
  - now rewrite aeqb_refl.
  - destruct (aeqb x c); cbn [length]; rewrite IH; lia.
Qed.
Lemma split_chr_pos c : forall s acc, (1 <= length (split_chr c acc s))%nat.
Proof. induction s as [|x s IH]; intros acc; cbn; [lia|]. destruct (aeqb x c); cbn [length]; [lia|apply IH]. Qed.
Lemma split_join_length c ws : ws <> [] -> (length ws <= length (split_chr c [] (join [c] ws)))%nat.
Proof.
  induction ws as [|w ws IH]; [easy|]. intros _. destruct ws as [|w' ws]; [cbn [join length]; apply split_chr_pos|].
  change (join [c] (w :: w' :: ws)) with (w ++ c :: join [c] (w' :: ws)). rewrite split_chr_length. specialize (IH ltac:(discriminate)). pose proof (split_chr_pos c w []). cbn [length] in *. lia.
Qed.
Theorem C42_comma_refuted : forall show show_n mu r k p row x y, row_of show show_n mu r k p row -> p_name p = x ++ ch "," :: y ->
  length row = 27%nat /\ (28 <= length (split_chr (ch ",") [] (join (L ",") row)))%nat.
Proof.
  intros show show_n mu r k p row x y (name & area & dmin & dmax & age & agem & agep & a0 & a0m & a0p & n & nm & np & sort & resurf & txt & m0 & m1 & l0 & l1 & -> & NM & _) E.
  split; [reflexivity|]. assert (NE : name = x ++ ch "," :: y) by (rewrite E in NM; destruct x; exact NM). subst name.
  match goal with |- (28 <= length (split_chr _ _ (join _ (_ :: ?t))))%nat => assert (H := split_join_length (ch ",") t ltac:(discriminate)); set (rest := t) in * end.
  change (join (L ",") ((x ++ ch "," :: y) :: rest)) with ((x ++ ch "," :: y) ++ ch "," :: join (L ",") rest). rewrite <- app_assoc. cbn [app]. rewrite !split_chr_length.
  pose proof (split_chr_pos (ch ",") x []). pose proof (split_chr_pos (ch ",") y []). change (length rest) with 26%nat in H. change (L ",") with [ch ","]. lia.
Qed.
Print Assumptions C42_comma_refuted.

Definition poisson_plot (name : str) (t : R) : cplot :=
  mkPlot Tpoisson false false name (L "a.scc") (L "pseudo-log") 100 None false false 10 (Whole 10) (1, Some 2) (Ok (1, 2)) None 0 (t, t, t) (0, 0, 0).
Example C42_hypotheses_met :
  let plots := [data_plot (L "x"); fit_plot (L "x"); poisson_plot (L "y") 3] in
  (exists rows, summary_table (fun _ => []) (fun _ => []) false 1 (map Ok plots) = Ok (Some (summary_head 1 :: rows)) /\ length rows = 2%nat) /\
  summary_table (fun _ => []) (fun _ => []) false 1 (map Ok [poisson_plot (L "y") 3; fit_plot (L "x")]) = Err TypeError.
Proof.
  cbv zeta. split.
  - destruct (C42_rows (fun _ => []) (fun _ => []) false 1 [data_plot (L "x"); fit_plot (L "x"); poisson_plot (L "y") 3]) as (pos & rows & b & E & LR & _).
    + discriminate.
    + intros p [<-|[<-|[]]]; left; discriminate.
    + intros a l E T. change (ages_of _) with ([fit_plot (L "x")] ++ [poisson_plot (L "y") 3]) in E. apply app_inj_tail in E. destruct E as [_ <-]. destruct T; discriminate.
    + exists rows. split; [exact E|exact LR].
  - apply (C42_mixed_types_refuted _ _ _ _ _ [poisson_plot (L "y") 3] (fit_plot (L "x")) (poisson_plot (L "y") 3)); [reflexivity|now right|discriminate|now left|now left| |].
    + intros q [<-|[<-|[]]] [H|H]; try discriminate; reflexivity.
    + intros q [<-|[<-|[]]]; left; discriminate.
Qed.
