(** C114 and C115: the page of age diagrams and maps; the ratios of ages and the texts of the uncertainty plot. *)
From Coq Require Import String Ascii List ZArith Reals Lra Lia Bool.
From Verif Require Import Base NumModel NumLemmas StrModel StrSpec TsSpec StrProofs FmtModel FmtSpec FmtProofs IoModel IoSpec IoProofs CliModel CliProofs2 PlotModel PlotProps PdfModel AaModel AaSpec AaProofs AaProofs2 PageModel.
Import ListNotations.
Local Open Scope R_scope.

(** ** specification *)
(** the place on the page, in cm, of axes given as fractions of the page *)
Definition on_page (p : page) (b : box) (left bottom width height : R) : Prop :=
  bx b * pg_x p = left /\ by_ b * pg_y p = bottom /\ bw b * pg_x p = width /\ bh b * pg_y p = height.

(** ** proofs *)
Lemma space_not_x : is_space (ch "x") = false.
Proof. reflexivity. Qed.
Lemma decimal_no_x s x : decimal s x -> ~ In (ch "x") s.
Proof.
  intros (w1 & sg & neg & ip & dot & fp & ex & e & w2 & W1 & W2 & SG & IP & FP & _ & _ & EX & -> & _) I.
  assert (WX : forall w, white w -> ~ In (ch "x") w).
  { intros w W J. unfold white in W. rewrite Forall_forall in W. apply W in J. discriminate. }
  assert (DX : forall w, all_digits w -> ~ In (ch "x") w).
  { intros w W J. unfold all_digits in W. rewrite Forall_forall in W. apply W in J. discriminate. }
  assert (SX : forall g n, sign_text g n -> ~ In (ch "x") g).
  { intros g n [([->| ->] & _)|(-> & _)] J; cbn in J; decompose [or] J; try contradiction; discriminate. }
  rewrite !in_app_iff in I. destruct I as [I|[I|[I|[I|[I|I]]]]].
  - now apply (WX w1).
  - now apply (SX sg neg).
  - now apply (DX ip).
  - destruct dot; [|contradiction]. rewrite in_app_iff in I. destruct I as [I|I]; [|now apply (DX fp)]. cbn in I. decompose [or] I; try contradiction; discriminate.
  - destruct EX as [(-> & _)|(c & sg' & n' & k & C & S' & K & _ & -> & _)]; [contradiction|].
    rewrite !in_app_iff in I. destruct I as [I|[I|I]]; [|now apply (SX sg' n')|now apply (DX k)].
    cbn in I. destruct I as [I|I]; [|contradiction]. subst c. destruct C; discriminate.
  - now apply (WX w2).
Qed.
Lemma dims_one s d : decimal s d -> dims_of s = Ok [d].
Proof.
  intros D. unfold dims_of. rewrite split_chr_none by now apply (decimal_no_x s d). cbn [rev app mapM]. now rewrite (py_float_decimal s d D).
Qed.
Lemma dims_two s t w h : decimal s w -> decimal t h -> dims_of (s ++ L "x" ++ t) = Ok [w; h].
Proof.
  intros D E. unfold dims_of. change (L "x" ++ t) with (ch "x" :: t). rewrite split_chr_app by now apply (decimal_no_x s w).
  rewrite split_chr_none by now apply (decimal_no_x t h). cbn [rev app mapM]. now rewrite (py_float_decimal s w D), (py_float_decimal t h E).
Qed.
Lemma fractions_ok p b : 0 < pg_x p -> 0 < pg_y p -> exists f, fractions p b = Ok f /\ on_page p f (bx b) (by_ b) (bw b) (bh b).
Proof.
  intros A B. unfold fractions. destruct (Reqb_spec (pg_x p) 0); [lra|]. destruct (Reqb_spec (pg_y p) 0); [lra|]. cbn [orb].
  eexists. split; [reflexivity|]. unfold on_page. cbn [bx by_ bw bh]. repeat split; field; assumption.
Qed.
(** the sizes asked for: one number, or two *)
Inductive plot_size : str -> R -> R -> Prop :=
| size_one s d : decimal s d -> 0 < d -> plot_size s (5 * d) (5 * d)
| size_two s t w h : decimal s w -> decimal t h -> 0 < w -> 0 < h -> plot_size (s ++ L "x" ++ t) w h.
Lemma plot_size_ok s w h pt : plot_size s w h -> exists ds, dims_of s = Ok ds /\ 0 < w /\ 0 < h /\
  page_of pt ds = Ok (mkPage (pt / 5) (w + 2 * (pt / 5)) (h + 2 * (pt / 5)) (h / w)).
Proof.
  intros [t d D P|s' t w' h' D E P Q].
  - exists [d]. split; [now apply dims_one|]. repeat split; try lra. unfold page_of. cbv zeta. do 2 f_equal; try lra. field. lra.
  - exists [w'; h']. split; [now apply dims_two|]. repeat split; try assumption. unfold page_of. cbv zeta. destruct (Reqb_spec w' 0); [lra|]. do 2 f_equal; lra.
Qed.

(** ** C114 *)
(** a map has the size asked for, with a margin of a fifth of the letter size all around *)
Theorem C114_map : forall s w h pt, plot_size s w h -> 0 < pt ->
  exists p b, map_page s pt = Ok (p, b) /\ on_page p b (pt / 5) (pt / 5) w h /\ pg_x p = pt / 5 + w + pt / 5 /\ pg_y p = pt / 5 + h + pt / 5 /\ pg_aspect p = h / w.
Proof.
  intros s w h pt P HP. destruct (plot_size_ok s w h pt P) as (ds & E & W & H & EP). unfold map_page. rewrite E. cbn [bind]. rewrite EP. cbn [bind].
  set (p := mkPage _ _ _ _). cbv zeta. cbn [pg_margin]. change (pg_margin p) with (pt / 5). destruct (Reqb_spec (pt / 5) 0); [lra|].
  destruct (fractions_ok p (mkBox (pt / 5 * 1) (pt / 5 * 1) (pt / 5 * (pg_x p / (pt / 5) - 2)) (pt / 5 * (pg_y p / (pt / 5) - 2)))) as (b & EB & OB); [cbn; lra|cbn; lra|].
  rewrite EB. cbn [bind]. exists p, b. split; [reflexivity|]. unfold on_page in *. cbn [bx by_ bw bh] in OB. cbn [p pg_x pg_y pg_aspect] in *.
  destruct OB as (B1 & B2 & B3 & B4). rewrite B1, B2, B3, B4. repeat split; try lra; field; lra.
Qed.
(** the parts of an age axis fill the plot of the size asked for, and an age is at the same place of the page by the axes of its part and by those of the whole *)
Theorem C114_age_axis : forall u s w h pt fuel x0 x1 a, plot_size s w h -> 0 < pt -> time_axis_params fuel x0 x1 = Some (Ok a) ->
  exists l, time_layout u s pt a = Ok l /\ let p := tp_page l in
    pg_x p = pt / 5 + w + pt / 5 /\ pg_y p = pt / 5 + h + pt / 5 /\ pg_aspect p = h / w /\
    on_page p (tp_all l) (pt / 5) (pt / 5) w h /\
    (exists x, 0 <= x <= w /\ on_page p (tp_lin l) (pt / 5) (pt / 5) x h /\ on_page p (tp_log l) (pt / 5 + x) (pt / 5) (w - x) h) /\
    (forall t x, placed a t x ->
       let q := linear_part a in
       (t_right q <= t <= t_left q /\ bx (tp_all l) + bw (tp_all l) * x = bx (tp_lin l) + bw (tp_lin l) * ((t_left q - t) / (t_left q - t_right q))) \/
       (exists q, log_part a = Some q /\ t_right q <= t <= t_left q /\
          bx (tp_all l) + bw (tp_all l) * x = bx (tp_log l) + bw (tp_log l) * ((log10 (t_left q) - log10 t) / (log10 (t_left q) - log10 (t_right q))))) /\
    (* the mark between the parts is there exactly if there are both *)
    (tp_joint l = None <-> bw (tp_lin l) = 0 \/ bw (tp_log l) = 0) /\
    (forall j, tp_joint l = Some j -> snd j = 0 /\ bx (tp_all l) + bw (tp_all l) * fst j = bx (tp_log l)).
Proof.
  intros u s w h pt fuel x0 x1 a P HP EA. assert (K := axis_kinds _ _ _ _ EA). assert (F := linear_le1 a K).
  destruct (plot_size_ok s w h pt P) as (ds & E & W & H & EP). unfold time_layout. rewrite E. cbn [bind]. rewrite EP. cbn [bind].
  set (p := mkPage _ _ _ _). cbv zeta.
  assert (PX : 0 < pg_x p) by (cbn; lra). assert (PY : 0 < pg_y p) by (cbn; lra).
  assert (FR : forall b, fractions p b = Ok (mkBox (bx b / pg_x p) (by_ b / pg_y p) (bw b / pg_x p) (bh b / pg_y p))).
  { intros b. unfold fractions. destruct (Reqb_spec (pg_x p) 0); [lra|]. destruct (Reqb_spec (pg_y p) 0); [lra|]. reflexivity. }
  assert (BAR : exists bar, (if u then do! b <- fractions p (mkBox (pg_x p - pg_margin p + 2 / 10) (pg_margin p) (2 / 10) (pg_y p - pg_margin p * 2)); Ok (Some b) else Ok None) = Ok bar).
  { destruct u; [|now exists None]. rewrite FR. cbn [bind]. eexists. reflexivity. }
  destruct BAR as (bar & EB). rewrite EB, !FR. cbn [bind]. eexists. split; [reflexivity|].
  cbn [tp_page tp_lin tp_log tp_all tp_joint bx by_ bw bh].
  change (pg_margin p) with (pt / 5). assert (XW : pg_x p - pt / 5 * 2 = w) by (cbn; lra). assert (YH : pg_y p - pt / 5 * 2 = h) by (cbn; lra).
  assert (YH' : pg_y p - 2 * (pt / 5) = h) by (cbn; lra).
  rewrite XW, YH, YH'. change (pg_aspect p) with (h / w).
  assert (EX : pg_x p = w + 2 * (pt / 5)) by reflexivity. assert (EY : pg_y p = h + 2 * (pt / 5)) by reflexivity. clearbody p.
  split; [lra|]. split; [lra|]. split; [reflexivity|]. split; [unfold on_page; cbn [bx by_ bw bh]; repeat split; field; lra|].
  split; [|split; [|split]].
  - exists (ta_linear a * w). split; [nra|]. unfold on_page. cbn [bx by_ bw bh]. repeat split; field; lra.
  - intros t x [q T ->|q Eq T ->].
    + left. split; [exact T|]. unfold along. fold q. change (x_left q) with 0. change (x_right q) with (ta_linear a).
      set (z := (t_left q - t) / (t_left q - t_right q)). unfold Rdiv. ring.
    + right. exists q. split; [exact Eq|]. split; [exact T|]. unfold along. unfold log_part in Eq. destruct (ta_log_min a) as [l|]; [|discriminate]. destruct (ta_crossover a); [|discriminate].
      injection Eq as <-. cbn [x_left x_right t_left t_right]. set (z := (log10 (ta_switch a) - log10 t) / (log10 (ta_switch a) - log10 (pow10 l))). unfold Rdiv. ring.
  - assert (Z : forall y, y * w / pg_x p = 0 <-> y = 0).
    { intros y. split; [|intros ->; unfold Rdiv; ring]. intros Q. apply (Rmult_eq_reg_r (w / pg_x p)); [|apply Rgt_not_eq; apply Rdiv_lt_0_compat; lra].
      replace (y * (w / pg_x p)) with (y * w / pg_x p) by (field; lra). rewrite Q. ring. }
    rewrite !Z. destruct K as [(C & M & S & X & _ & G & Q)|(C & S & G & _)].
    + rewrite C. cbn [andb]. rewrite S. destruct (Rltb_spec 3 (ta_max a)) as [Y|Y]; destruct (Rltb_spec (ta_min a) 3) as [V|V]; cbn [andb]; try lra.
      * split; [discriminate|]. intros [A|A]; [|lra]. apply Q in A. lra.
      * split; [|reflexivity]. intros _. left. apply Q. lra.
    + rewrite C, G. cbn [andb]. split; [|reflexivity]. intros _. right. lra.
  - intros j. destruct (ta_crossover a && _); [|discriminate]. intros E'. injection E' as <-. cbn [fst snd]. split; [reflexivity|]. field. lra.
Qed.
(** the colours are beside an uncertainty plot, 2 mm to the right of it and 2 mm wide, on the page if the letters have at least 2 points *)
Theorem C114_colour_bar : forall s w h pt a l u, plot_size s w h -> 0 < pt -> time_layout u s pt a = Ok l ->
  (u = false -> tp_bar l = None) /\
  (u = true -> exists b, tp_bar l = Some b /\ on_page (tp_page l) b (pt / 5 + w + 2 / 10) (pt / 5) (2 / 10) h /\ (bx b + bw b <= 1 <-> 2 <= pt)).
Proof.
  intros s w h pt a l u P HP EL. destruct (plot_size_ok s w h pt P) as (ds & E & W & H & EP). unfold time_layout in EL. rewrite E in EL. cbn [bind] in EL. rewrite EP in EL. cbn [bind] in EL.
  set (p := mkPage _ _ _ _) in EL. cbv zeta in EL.
  assert (PX : 0 < pg_x p) by (cbn; lra). assert (PY : 0 < pg_y p) by (cbn; lra).
  assert (FR : forall b, fractions p b = Ok (mkBox (bx b / pg_x p) (by_ b / pg_y p) (bw b / pg_x p) (bh b / pg_y p))).
  { intros b. unfold fractions. destruct (Reqb_spec (pg_x p) 0); [lra|]. destruct (Reqb_spec (pg_y p) 0); [lra|]. reflexivity. }
  rewrite !FR in EL. cbn [bind] in EL.
  assert (EX : pg_x p = w + 2 * (pt / 5)) by reflexivity. assert (EY : pg_y p = h + 2 * (pt / 5)) by reflexivity. assert (EM : pg_margin p = pt / 5) by reflexivity. clearbody p.
  split; intros ->; cbn [bind] in EL; injection EL as <-; cbn [tp_bar tp_page bx by_ bw bh]; [reflexivity|].
  eexists. split; [reflexivity|]. rewrite EM. split; [unfold on_page; cbn [bx by_ bw bh]; repeat split; rewrite ?EX, ?EY; field; lra|].
  cbn [bx bw]. replace ((pg_x p - pt / 5 + 2 / 10) / pg_x p + 2 / 10 / pg_x p) with (1 + (4 / 10 - pt / 5) / pg_x p) by (field; lra).
  assert (I : 0 < / pg_x p) by now apply Rinv_0_lt_compat. unfold Rdiv at 1. split; intros Q.
  - destruct (Rle_lt_dec 2 pt) as [V|V]; [exact V|]. exfalso. assert (0 < (4 / 10 - pt / 5) * / pg_x p) by (apply Rmult_lt_0_compat; lra). lra.
  - assert (0 <= (pt / 5 - 4 / 10) * / pg_x p) by (apply Rmult_le_pos; lra). lra.
Qed.
(** other dimensions are refused *)
Theorem C114_refused : forall ss xs pt a u, Forall2 decimal ss xs -> (2 < length ss)%nat ->
  map_page (join [ch "x"] ss) pt = Err ValueError /\ time_layout u (join [ch "x"] ss) pt a = Err ValueError.
Proof.
  intros ss xs pt a u F HL. assert (E : dims_of (join [ch "x"] ss) = Ok xs).
  { unfold dims_of. rewrite split_chr_join.
    - clear HL. induction F as [|s x ss xs D F IH]; [reflexivity|]. cbn [mapM]. rewrite (py_float_decimal s x D). cbn [bind]. now rewrite IH.
    - intros ->. cbn in HL. lia.
    - clear HL. induction F as [|s x ss xs D F IH]; constructor; [now apply (decimal_no_x s x)|exact IH]. }
  assert (LX : length xs = length ss) by (clear - F; induction F; cbn; congruence).
  unfold map_page, time_layout. rewrite E. cbn [bind]. destruct xs as [|x [|y [|z r]]]; cbn in LX; try lia. split; reflexivity.
Qed.
(** the letters of the fonts there are have the size given times the factor of the font, between 0.83 and 1, the names of axes nine tenths of that *)
Theorem C114_letters : forall font pt r, In font (map L ["Open Sans"; "Noto Sans"; "Myriad Pro"; "Verdana"; "DejaVu Sans"; "Tahoma"; "Times New Roman"]%string) -> 0 < pt ->
  exists l, letters_of font pt r = Ok l /\ 83 / 100 * pt <= lt_size l <= pt /\ lt_axis l = 9 / 10 * lt_size l /\ lt_pad l = lt_size l /\ lt_line l = 4 / 10 * r.
Proof.
  intros font pt r I HP. cbn [map] in I. destruct I as [<-|[<-|[<-|[<-|[<-|[<-|[<-|[]]]]]]]]; (eexists; split; [reflexivity|]; cbn [lt_size lt_axis lt_pad lt_line]; repeat split; lra).
Qed.
(** with any other font there is no plot *)
Theorem C114_font_refuted : forall font pt r, ~ In font (map L ["Open Sans"; "Noto Sans"; "Myriad Pro"; "Verdana"; "DejaVu Sans"; "Tahoma"; "Times New Roman"]%string) ->
  letters_of font pt r = Err KeyError.
Proof.
  intros font pt r N. unfold letters_of. enough (E : font_factor fonts font = Err KeyError) by now rewrite E.
  assert (G : forall l, ~ In font (map fst l) -> font_factor l font = Err KeyError).
  { induction l as [|(k, f) l IH]; intros M; [reflexivity|]. cbn [font_factor]. destruct (seqb_spec k font) as [->|Q]; [elim M; now left|]. apply IH. intros J. apply M. now right. }
  apply G. exact N.
Qed.
Example C114_hypotheses_met :
  plot_size (L "7.5x8") (15 / 2) 8 /\ plot_size (L "2") 10 10 /\ (exists fuel a, time_axis_params fuel (1 / 100) 4 = Some (Ok a)) /\
  letters_of (L "Arial") 9 1 = Err KeyError.
Proof.
  assert (N : forall ip fp x, ip <> [] -> all_digits ip -> all_digits fp -> x = 1 * IZR (digits_value (ip ++ fp)) / 10 ^ length fp ->
    decimal (ip ++ match fp with [] => [] | _ => L "." ++ fp end) x).
  { intros ip fp x A B C E. apply numeral_decimal. exists false, ip, fp. repeat split; assumption. }
  assert (D2 : decimal (L "2") 2) .
  { apply (N (L "2") [] 2); [discriminate|apply Forall_cons; [reflexivity|apply Forall_nil]|apply Forall_nil|change (digits_value _) with 2%Z; cbn [length L list_ascii_of_string pow]; lra]. }
  assert (D8 : decimal (L "8") 8) .
  { apply (N (L "8") [] 8); [discriminate|apply Forall_cons; [reflexivity|apply Forall_nil]|apply Forall_nil|change (digits_value _) with 8%Z; cbn [length L list_ascii_of_string pow]; lra]. }
  assert (D7 : decimal (L "7.5") (15 / 2)) .
  { apply (N (L "7") (L "5") (15 / 2)); [discriminate|apply Forall_cons; [reflexivity|apply Forall_nil]|apply Forall_cons; [reflexivity|apply Forall_nil]|change (digits_value _) with 75%Z; cbn [length L list_ascii_of_string pow]; lra]. }
  split; [apply (size_two (L "7.5") (L "8")); auto; lra|]. split; [replace 10 with (5 * 2) by lra; apply size_one; auto; lra|]. split; [|reflexivity].
  destruct (C60_time_axis (1 / 100) 4) as (f & ax & E & _). exists f, ax. apply E. lia.
Qed.
Print Assumptions C114_map.
Print Assumptions C114_age_axis.
Print Assumptions C114_colour_bar.
Print Assumptions C114_refused.
Print Assumptions C114_letters.
Print Assumptions C114_font_refuted.
