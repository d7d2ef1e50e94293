(** C102: the sequence diagram has one row for each fit, in the order of the plots. *)
From Coq Require Import String Ascii List Arith ZArith Reals Bool Lia Lra.
From Verif Require Import Base NumModel NumLemmas StrModel StrProofs StrProofs2 FmtModel FmtSpec FmtProps CliModel CountProofs2 SetModel SetProps3 LegModel LegSpec LegProofs SeqModel SeqSpec.
Import ListNotations.
Local Open Scope R_scope.

Lemma broken_unique s t : broken s t -> forall u, broken s u -> u = t.
Proof.
  induction 1 as [|s t B IH|c s t N B IH]; intros u U; inversion U; subst; try reflexivity.
  - f_equal. now apply IH.
  - exfalso. match goal with H : ~ _ |- _ => apply H end. split; [reflexivity|now eexists].
  - exfalso. apply N. split; [reflexivity|now eexists].
  - f_equal. now apply IH.
Qed.
Lemma replace2_broken : forall s, broken s (replace2 bsl (ch "n") nl s).
Proof.
  intros s. remember (length s) as n eqn:E. assert (LE : (length s <= n)%nat) by lia. clear E. revert s LE. induction n as [|n IH]; intros s LE.
  - destruct s; [constructor|cbn in LE; lia].
  - destruct s as [|x [|y t]]; [constructor|cbn [replace2]; constructor; [intros (_ & r & E); discriminate|constructor]|].
    cbn [replace2]. destruct (aeqb_spec x bsl) as [->|NX].
    + destruct (aeqb_spec y (ch "n")) as [->|NY]; cbn [andb].
      * apply B_break. apply IH. cbn in LE. lia.
      * apply B_char; [intros (_ & r & E); injection E as E1 _; contradiction|]. apply IH. cbn in *. lia.
    + cbn [andb]. apply B_char; [intros (E & _); contradiction|]. apply IH. cbn in *. lia.
Qed.
Lemma strip_quotes_unquoted s : unquoted s (strip_quotes s).
Proof.
  destruct s as [|c [|d w]].
  - right. split; [|reflexivity]. intros (q & w & _ & E). discriminate.
  - right. split; [|reflexivity]. intros (q & w & _ & E). cbn [app] in E. injection E as _ E. destruct w; discriminate.
  - destruct (exists_last (l := d :: w) ltac:(discriminate)) as (u & z & E). unfold strip_quotes. rewrite E.
    assert (LA : last (c :: u ++ [z]) c = z) by (change (c :: u ++ [z]) with ((c :: u) ++ [z]); apply last_last). rewrite LA, removelast_last.
    assert (BA : (~ exists q v, (q = dq \/ q = sq) /\ c :: u ++ [z] = [q] ++ v ++ [q]) -> unquoted (c :: u ++ [z]) (c :: u ++ [z])) by (intros H; right; now split).
    destruct (aeqb_spec c z) as [<-|NE]; cbn [andb].
    + destruct (aeqb_spec c dq) as [D|ND]; cbn [orb]; [left; exists c; split; [now left|reflexivity]|].
      destruct (aeqb_spec c sq) as [D|NS]; [left; exists c; split; [now right|reflexivity]|].
      apply BA. intros (q & v & Q & F). cbn [app] in F. injection F as F _. subst q. destruct Q; contradiction.
    + apply BA. intros (q & v & Q & F). cbn [app] in F. injection F as F1 F2. apply app_inj_tail in F2 as (_ & F2). congruence.
Qed.
Lemma count_filter {A} (P : A -> Prop) (f : A -> bool) l : (forall x, f x = true <-> P x) -> count_of P l (length (filter f l)).
Proof.
  intros H. induction l as [|x l IH]; cbn [filter]; [constructor|]. destruct (f x) eqn:E; cbn [length]; constructor; try exact IH; [now apply H|]. intros C. apply H in C. congruence.
Qed.
Lemma mapM_Forall2 {A B} (P : A -> B -> Prop) (f : A -> res B) l : (forall x, In x l -> exists y, f x = Ok y /\ P x y) -> exists ys, mapM f l = Ok ys /\ Forall2 P l ys.
Proof.
  induction l as [|x l IH]; intros H; [exists []; split; [reflexivity|constructor]|]. destruct (H x (or_introl eq_refl)) as (y & E & Q). destruct IH as (ys & E' & Q'); [intros z Z; apply H; now right|].
  exists (y :: ys). cbn [mapM]. rewrite E. cbn [bind]. rewrite E'. split; [reflexivity|now constructor].
Qed.
Lemma Forall2_rev {A B} (P : A -> B -> Prop) l m : Forall2 P l m -> Forall2 P (rev l) (rev m).
Proof. induction 1; cbn [rev]; [constructor|]. apply Forall2_app; [assumption|]. constructor; [assumption|constructor]. Qed.

Lemma Forall2_len {A B} (P : A -> B -> Prop) l m : Forall2 P l m -> length l = length m.
Proof. induction 1; cbn [length]; congruence. Qed.

(** a fit or Poisson age that is not hidden *)
Definition shown (p : cplot) : Prop := p_type p <> Tdata /\ p_hide p = false.
(** what is drawn on one part of the age axis for the plot [p] in the row [k] of [n] rows *)
Definition drawn_on (invert : bool) (colour : rgb) (p : cplot) (n k part : nat) (e : list seq_element) : Prop :=
  let y := 1 - (INR k + 1) / (INR n + 1) in
    (is_poisson p /\ e = [Violin part y (1 / 2 / (INR n + 1))]) \/
    (~ is_poisson p /\ exists inside, blend (35 / 100) colour (if invert then (0, 0, 0) else (1, 1, 1)) inside /\
       let h := 3 / 20 / (INR n + 1) in let '(t, tm, tp) := p_t p in
       e = [Bar part tm tp (y + h) (y - h) inside; Mark part t (y + h) (y - h)]).

(** The diagram has one row for each fit or Poisson age that is not hidden, in the order of the plots from the top; a hidden plot and a plot of data have none.  In its row a Poisson age has its
    violin, another fit a bar from its lower to its upper age with a mark at its age, on both parts of the age axis if it is in two parts, and its name and texts at the same height *)
Theorem C102_rows :
  forall crossover invert legend ref sf mu plots n, count_of shown (map fst plots) n ->
    (forall p c, In (p, c) plots -> shown p -> exists l, sequence_label legend ref sf mu p = Ok l) ->
    exists rows, sequence_elements crossover invert legend ref sf mu plots = Ok (concat (rev rows)) /\ length rows = length plots /\
      forall i p colour e, nth_error plots i = Some (p, colour) -> nth_error rows i = Some e ->
        (~ shown p -> e = []) /\
        (shown p -> exists k, count_of shown (firstn i (map fst plots)) k /\ (k < n)%nat /\
           let y := 1 - (INR k + 1) / (INR n + 1) in
           exists bare name lbl g0 g1, unquoted (p_name p) bare /\ broken bare name /\ sequence_label legend ref sf mu p = Ok lbl /\
             drawn_on invert colour p n k 0 g0 /\ drawn_on invert colour p n k 1 g1 /\
             e = g0 ++ (if crossover then g1 else []) ++ [Name y name] ++ (if lbl then [] else [Label y (join [nl] lbl)])).
Proof.
  intros crossover invert legend ref sf mu plots n CN LB.
  assert (SH : forall p, in_sequence p = true <-> shown p).
  { intros p. unfold in_sequence, shown, is_fit. destruct (p_type p), (p_hide p); cbn; split; intros H; try discriminate; try reflexivity; try (split; [discriminate|reflexivity]); destruct H as (H1 & H2); congruence. }
  assert (CU : forall l a b, count_of shown l a -> count_of shown l b -> a = b).
  { intros l a b H. revert b. induction H; intros b' Hb; inversion Hb; subst; try contradiction; auto. }
  assert (NE : length (filter in_sequence (map fst plots)) = n) by (eapply CU; [apply count_filter; exact SH|exact CN]).
  set (F := sequence_element crossover invert legend ref sf mu (map fst plots)).
  set (P := fun (ip : nat * (cplot * rgb)) (e : list seq_element) => nth_error plots (fst ip) = Some (snd ip) -> let p := fst (snd ip) in let colour := snd (snd ip) in let i := fst ip in
        (~ shown p -> e = []) /\
        (shown p -> exists k, count_of shown (firstn i (map fst plots)) k /\ (k < n)%nat /\
           let y := 1 - (INR k + 1) / (INR n + 1) in
           exists bare name lbl g0 g1, unquoted (p_name p) bare /\ broken bare name /\ sequence_label legend ref sf mu p = Ok lbl /\
             drawn_on invert colour p n k 0 g0 /\ drawn_on invert colour p n k 1 g1 /\
             e = g0 ++ (if crossover then g1 else []) ++ [Name y name] ++ (if lbl then [] else [Label y (join [nl] lbl)]))).
  destruct (mapM_Forall2 P F (rev (combine (seq 0 (length plots)) plots))) as (es & E1 & E2).
  - intros [i [p colour]] I. rewrite <- in_rev in I. pose proof (in_combine_r _ _ _ _ I) as IP. unfold F, sequence_element.
    destruct (p_hide p) eqn:HI. { exists []. split; [reflexivity|]. intros _. split; [reflexivity|]. cbn. intros (_ & C). congruence. }
    destruct (is_fit (p_type p)) eqn:FI. 2:{ exists []. split; [reflexivity|]. intros _. split; [reflexivity|]. cbn. intros (C & _). destruct (p_type p); cbn in FI; congruence. }
    assert (S1 : shown p) by (split; [destruct (p_type p); cbn in FI; congruence|exact HI]).
    destruct (LB p colour IP S1) as (lbl & EL). rewrite EL. cbn [bind]. eexists. split; [reflexivity|]. intros NT. cbn [fst snd] in *. split; [contradiction|]. intros _.
    set (k := length (filter in_sequence (firstn i (map fst plots)))). exists k. split; [apply count_filter; exact SH|].
    assert (KN : (k < n)%nat).
    { rewrite <- NE. rewrite <- (firstn_skipn i (map fst plots)). rewrite filter_app, app_length. fold k. assert (NM : nth_error (map fst plots) i = Some p) by (rewrite nth_error_map, NT; reflexivity).
      destruct (skipn i (map fst plots)) as [|p' r] eqn:SK.
      - exfalso. assert (nth_error (map fst plots) i <> None) by congruence. apply nth_error_Some in H. assert (length (skipn i (map fst plots)) = 0%nat) by now rewrite SK. rewrite skipn_length in H0. lia.
      - rewrite <- (firstn_skipn i (map fst plots)), SK in NM. rewrite nth_error_app2, firstn_length in NM by (rewrite firstn_length; lia).
        assert (i < length (map fst plots))%nat by (assert (length (skipn i (map fst plots)) <> 0%nat) by (rewrite SK; discriminate); rewrite skipn_length in *; lia).
        replace (i - Nat.min i (length (map fst plots)))%nat with 0%nat in NM by lia. cbn in NM. injection NM as ->. cbn [filter]. apply SH in S1. rewrite S1. cbn [length]. lia. }
    split; [exact KN|]. rewrite NE. cbn [sequence_row fst]. assert (N1 : 0 < INR n + 1) by (pose proof (pos_INR n); lra).
    assert (Y : (INR n - INR k) / (INR n + 1) = 1 - (INR k + 1) / (INR n + 1)) by (field; lra). rewrite Y. set (y := 1 - (INR k + 1) / (INR n + 1)). cbv zeta.
    exists (strip_quotes (p_name p)), (name_text (p_name p)), lbl.
    assert (G : forall j, drawn_on invert colour p n k j (row_graphics invert colour p (sequence_row n k) j)).
    { intros j. unfold drawn_on, row_graphics, sequence_row. rewrite Y. fold y. cbv zeta. replace (3 / 10 * (1 / 2 / (INR n + 1))) with (3 / 20 / (INR n + 1)) by (field; lra).
      destruct (p_t p) as [[t tm] tp]. unfold is_poisson. cbn [t0 t1 t2 fst snd].
      destruct (p_type p) eqn:TY; try (left; split; [now (left + right)|reflexivity]); right; (split; [intros [C|C]; discriminate|]).
      all: eexists; (split; [|reflexivity]); unfold blend, mix_colours, black, white; destruct colour as [[r g] b], invert; repeat split; lra. }
    eexists _, _. split; [apply strip_quotes_unquoted|]. split; [apply replace2_broken|]. split; [exact EL|]. split; [apply (G 0%nat)|]. split; [apply (G 1%nat)|].
    assert (SR : fst (fst (sequence_row n k)) = y) by (cbn [sequence_row fst]; exact Y). 
    destruct crossover; cbn [map concat]; rewrite ?app_nil_r, <- ?app_assoc; cbn [app]; destruct lbl; reflexivity.
  - exists (rev es). rewrite rev_involutive. apply Forall2_rev in E2 as E3. rewrite rev_involutive in E3.
    assert (LL : length (rev es) = length plots). { apply Forall2_len in E3. rewrite combine_length, seq_length, Nat.min_id in E3. lia. }
    split; [unfold sequence_elements; fold F; now rewrite E1|]. split; [exact LL|].
    intros i p colour e NP NR. assert (G : forall (l : list (cplot * rgb)) a i, nth_error l i = Some (p, colour) -> nth_error (combine (seq a (length l)) l) i = Some ((a + i)%nat, (p, colour))).
    { induction l as [|x l IH]; intros a j H; destruct j; cbn in *; try discriminate; [injection H as ->; now rewrite Nat.add_0_r|]. rewrite IH by exact H. now rewrite <- plus_n_Sm. }
    specialize (G plots 0%nat i NP). cbn [Nat.add] in G.
    assert (Q : forall l m j x e, Forall2 P l m -> nth_error l j = Some x -> nth_error m j = Some e -> P x e).
    { clear. intros l m j x e H. revert j. induction H; intros j H1 H2; destruct j; cbn in *; try discriminate; [injection H1 as <-; injection H2 as <-; assumption|eauto]. }
    exact (Q _ _ _ _ _ E3 G NR NP).
Qed.
Print Assumptions C102_rows.

(** The text of a row is, line by line, its age with errors if the legend has A, its area if the legend has a, and what the legends of the other diagrams have for the plot *)
Theorem C102_text :
  forall legend ref sf mu p t tm tp rest, p_type p <> Tdata -> p_t p = (t, tm, tp) -> (2 <= sf)%nat -> t < tp -> make_legend_label legend ref p = Ok rest ->
    (exists s, scientific_notation (p_area p) None 3 false false km2 = Ok s) ->
    exists age area, sequence_label legend ref sf mu p = Ok (age ++ area ++ rest) /\
      (~ In (ch "A") legend -> age = []) /\
      (In (ch "A") legend -> exists num y n1 y1 n2 y2 f u, best_unit t f u /\ numeral num y /\ significant sf (t / f) y /\
         numeral n1 y1 /\ significant (sf - 1) ((tp - t) / f) y1 /\ numeral n2 y2 /\ significant (sf - 1) ((t - tm) / f) y2 /\
         age = [L "$" ++ (if mu then mu_sign else []) ++ (num ++ L "^{+" ++ n1 ++ L "}_{-" ++ n2 ++ L "}") ++ L "$ " ++ u]) /\
      (~ In (ch "a") legend -> area = []) /\
      (In (ch "a") legend -> exists s, scientific_notation (p_area p) None 3 false false km2 = Ok s /\ area = [s]).
Proof.
  intros legend ref sf mu p t tm tp rest TY ET SF TP ER (sa & EA).
  destruct (C27_errors t (tp - t) (t - tm) sf mu SF ltac:(lra)) as (num & y & n1 & y1 & n2 & y2 & f & u & Q1 & Q2 & Q3 & Q4 & Q5 & Q6 & Q7 & SA).
  assert (FI : is_fit (p_type p) = true) by (destruct (p_type p); [congruence|reflexivity..]).
  set (st := L "$" ++ (if mu then mu_sign else []) ++ (num ++ L "^{+" ++ n1 ++ L "}_{-" ++ n2 ++ L "}") ++ L "$ " ++ u).
  exists (if has legend (ch "A") then [st] else []), (if has legend (ch "a") then [sa] else []).
  unfold sequence_label. rewrite ET, FI. cbn [t0 t1 t2 fst snd andb]. rewrite SA, EA, ER. unfold when, one, has. cbn [bind].
  pose proof (mem_in (ch "A") legend) as MA. pose proof (mem_in (ch "a") legend) as Ma.
  destruct (mem (ch "A") legend), (mem (ch "a") legend); cbn [bind]; (split; [reflexivity|]).
  all: repeat split; intros H; try reflexivity; try (exfalso; now apply H, MA); try (exfalso; now apply H, Ma); try (apply MA in H; discriminate); try (apply Ma in H; discriminate).
  all: try (exists sa; split; [reflexivity|reflexivity]).
  all: exists num, y, n1, y1, n2, y2, f, u; exact (conj Q1 (conj Q2 (conj Q3 (conj Q4 (conj Q5 (conj Q6 (conj Q7 eq_refl))))))).
Qed.
Print Assumptions C102_text.
(** two fits, of which the first is hidden, and a plot of data: one row, in the middle *)
Definition met_plot (ty : ptype) (hide : bool) (name : str) : cplot :=
  mkPlot ty hide false name (L "a.scc") (L "pseudo-log") 100 None false false 10 (Whole 10) (1, Some 2) (Ok (1, 2)) (Some (1, 2)) 0 (3, 2, 4) (-3, -4, -2).
Definition met_name : str := [dq] ++ L "Mare" ++ [bsl] ++ L "nImbrium" ++ [dq].
Example C102_hypotheses_met :
  let plots := [(met_plot Tcfit true (L "x"), (1, 0, 0)); (met_plot Tdata false (L "y"), (0, 0, 0)); (met_plot Tdfit false met_name, (0, 0, 1))] in
  count_of shown (map fst plots) 1 /\
  sequence_elements false false [] 1 3 true plots =
    Ok [Bar 0 2 4 (1 / 2 + 3 / 40) (1 / 2 - 3 / 40) (65 / 100, 65 / 100, 1); Mark 0 3 (1 / 2 + 3 / 40) (1 / 2 - 3 / 40); Name (1 / 2) (L "Mare" ++ [nl] ++ L "Imbrium")].
Proof.
  cbv zeta. split.
  - cbn [map fst]. apply N_no; [intros (_ & C); discriminate|]. apply N_no; [intros (C & _); now apply C|]. apply N_yes; [split; [discriminate|reflexivity]|constructor].
  - unfold sequence_elements, sequence_element, sequence_label. cbn [length seq combine rev app map fst mapM bind p_hide met_plot p_type is_fit andb has mem existsb when].
    cbn [make_legend_label is_fit p_type met_plot]. unfold make_legend_label. cbn [is_fit p_type met_plot has mem existsb when bind app].
    cbn [in_sequence filter firstn length is_fit p_type p_hide met_plot andb negb map fst concat app row_graphics sequence_row INR t0 t1 t2 p_t snd mix_colours white p_name mapM bind].
    unfold name_text. replace (replace2 bsl (ch "n") nl (strip_quotes met_name)) with (L "Mare" ++ [nl] ++ L "Imbrium") by reflexivity.
    assert (B : forall a b c d e f x a' b' c' d' e' f' x', a = a' -> b = b' -> c = c' -> d = d' -> e = e' -> f = f' -> x = x' ->
      [Bar 0 2 4 a b (c, d, e); Mark 0 3 f x] = [Bar 0 2 4 a' b' (c', d', e'); Mark 0 3 f' x']) by (intros; subst; reflexivity).
    f_equal. match goal with |- ?u :: ?v :: ?r = ?u' :: ?v' :: ?r' => change ([u; v] ++ r = [u'; v'] ++ r') end.
    apply f_equal2; [apply B; lra|]. replace ((1 - 0) / (1 + 1)) with (1 / 2) by lra. reflexivity.
Qed.
