(** The text that writeSCCfile writes is the document of the expected definitions. *)
From Coq Require Import String Ascii List ZArith Reals Bool Lia Lra.
From Verif Require Import Base NumModel BinModel StrModel StrSpec StrProofs StrProofs2 CliModel CliProofs FmtModel FmtSpec FmtProofs
  TsModel TsSpec TsProofs TsProofs5 IoModel IoSpec IoProofs IoProofs2 IoProofs3 IoProofs4 SccModel.
Import ListNotations.
Local Open Scope R_scope.

(** ** Rows of words separated by spaces and tabs *)
Definition row_char (c : ascii) : bool := num_char c || mem c (L "extin").
Definition gap_char (c : ascii) : bool := aeqb c " "%char || aeqb c tab.
Lemma row_char_facts c : row_char c = true -> is_space c = false /\ is_break c = false /\ ~ In c (dq :: sq :: L ";#={}*[(") /\ c <> "a"%char.
Proof. destruct c as [[] [] [] [] [] [] [] []]; intros H; try (vm_compute in H; discriminate H); (split; [reflexivity|]; split; [reflexivity|]; split; [cbn; intuition discriminate|discriminate]). Qed.
Lemma gap_char_facts c : gap_char c = true -> is_space c = true /\ is_break c = false /\ ~ In c (dq :: sq :: L ";#={}*[(") /\ c <> "a"%char.
Proof. destruct c as [[] [] [] [] [] [] [] []]; intros H; try (vm_compute in H; discriminate H); (split; [reflexivity|]; split; [reflexivity|]; split; [cbn; intuition discriminate|discriminate]). Qed.
Definition row_word (w : str) : Prop := w <> [] /\ Forall (fun c => row_char c = true) w.
Definition gap_text (g : str) : Prop := Forall (fun c => gap_char c = true) g.
Definition spaced (l : list (str * str)) : str := concat (map (fun p => fst p ++ snd p) l).
Definition spaced_ok (l : list (str * str)) : Prop :=
  Forall (fun p => gap_text (fst p) /\ row_word (snd p)) l /\ Forall (fun p => fst p <> []) (tl l).
Lemma spaced_layout l : forall g w, spaced_ok ((g, w) :: l) -> layout is_space (map (fun p => Bare (snd p)) ((g, w) :: l)) (spaced ((g, w) :: l)).
Proof.
  induction l as [|[g' w'] l IH]; intros g w [F N]; inversion F as [|? ? [G W] F']; subst; cbn [fst snd] in *.
  - unfold spaced. cbn [map concat fst snd]. rewrite app_nil_r. apply (layout_last is_space g (Bare w)).
    eapply Forall_impl; [|exact G]. intros c K. now apply gap_char_facts.
  - cbn [tl] in N. inversion N as [|? ? NG N']; subst. cbn [fst] in NG.
    unfold spaced. cbn [map concat fst snd]. rewrite <- app_assoc.
    apply (layout_cons is_space g (Bare w) _ (spaced ((g', w') :: l))).
    + eapply Forall_impl; [|exact G]. intros c K. now apply gap_char_facts.
    + apply IH. split; [exact F'|exact N'].
    + inversion F' as [|? ? [G' W'] F'']; subst. cbn [fst snd] in *. destruct g' as [|c g']; [congruence|].
      inversion G'; subst. exists c. eexists. split; [unfold spaced; cbn [map concat fst app]; reflexivity|]. now apply gap_char_facts.
Qed.
Lemma spaced_chars l (P : ascii -> Prop) : spaced_ok l -> (forall c, row_char c = true \/ gap_char c = true -> P c) -> Forall P (spaced l).
Proof.
  intros [F _] H. unfold spaced. induction F as [|[g w] l [G W] F IH]; [constructor|]. cbn [map concat fst snd] in *. rewrite !Forall_app.
  split; [|exact IH]. split; [eapply Forall_impl; [|exact G]; auto|eapply Forall_impl; [|exact (proj2 W)]; auto].
Qed.
Lemma spaced_row w l : spaced_ok (([], w) :: l) ->
  let s := spaced (([], w) :: l) in
  row_ok (map (fun p => Bare (snd p)) (([], w) :: l), s) /\ clean s /\ starts_with (L "#") (lstrip is_space s) = false /\ ~ In "a"%char s.
Proof.
  intros OK s.
  assert (A : Forall (fun c => is_break c = false /\ ~ In c (dq :: sq :: L ";#={}*[(") /\ c <> "a"%char) s).
  { apply (spaced_chars _ _ OK). intros c [K|K]; [apply row_char_facts in K|apply gap_char_facts in K]; tauto. }
  assert (C : clean s). { eapply Forall_impl; [|exact A]. intros c (B & I & _). split; [exact B|]. intros K. apply I. cbn in *. tauto. }
  split; [|split; [exact C|split]].
  - split; [now apply spaced_layout|]. split; [discriminate|]. split; [|split; [now apply clean_one_line|]].
    + cbn [fst]. rewrite Forall_map. destruct OK as [F _]. eapply Forall_impl; [|exact F]. intros [g v] [_ [N W]]. cbn [snd token_ok] in *.
      split; [exact N|]. split; [eapply Forall_impl; [|exact W]; intros c K; now apply row_char_facts|]. left.
      split; intros K; apply (proj1 (Forall_forall _ _) W) in K; vm_compute in K; discriminate K.
    + eapply Forall_impl; [|exact A]. intros c (_ & I & _) K. apply I. cbn in *. tauto.
  - destruct OK as [F _]. inversion F as [|? ? [_ [N W]] _]; subst. cbn [snd] in *. destruct w as [|c w]; [congruence|]. inversion W; subst.
    destruct (row_char_facts c) as (S & _ & Q & _); [assumption|]. unfold s, spaced. cbn [map concat fst snd app lstrip]. rewrite S.
    unfold starts_with. cbn [length L list_ascii_of_string firstn].
    match goal with |- seqb ?a ?b = false => destruct (seqb_spec a b) as [E|_]; [|reflexivity] end.
    exfalso. apply Q. injection E as <-. cbn. tauto.
  - intros K. apply (proj1 (Forall_forall _ _) A) in K. tauto.
Qed.

Lemma num_row s : Forall (fun c => num_char c = true) s -> Forall (fun c => row_char c = true) s.
Proof. apply Forall_impl. intros c H. unfold row_char. now rewrite H. Qed.
Lemma fmt_f_number k x : exists y, rounded_to (/ 10 ^ k) x y /\ number_text (fmt_f k x) y.
Proof. destruct (fmt_f_spec k x) as (y & N & R). exists y. split; [exact R|now left]. Qed.
Lemma number_row s x : number_text s x -> row_word s.
Proof. intros N. destruct (number_chars s x N) as [A B]. split; [exact B|now apply num_row]. Qed.
Lemma int_row z : row_word (int_str z).
Proof. destruct (int_str_spec z) as [N _]. eapply number_row. left. exact N. Qed.
Lemma f_row k x : row_word (fmt_f k x).
Proof. destruct (fmt_f_number k x) as (y & _ & N). eapply number_row; exact N. Qed.
Lemma g_row k x : row_word (fmt_g k x).
Proof. destruct (fmt_g_number k x) as (y & _ & N). eapply number_row; exact N. Qed.
Definition pad (k : nat) (s : str) : str := repeat (ch " ") (k - length s).
Lemma pad_gap_text k s : gap_text (pad k s).
Proof. unfold gap_text, pad. induction (k - length s)%nat; constructor; [reflexivity|assumption]. Qed.
Lemma tab_gap_text : gap_text [tab].
Proof. repeat constructor. Qed.
Lemma gap_app a b : gap_text a -> gap_text b -> gap_text (a ++ b).
Proof. intros. apply Forall_app. auto. Qed.

Definition boundary_words (it : nat * (Z * str * (R * R))) : list (str * str) :=
  let '(k, (a, b, (x, y))) := it in
  [([], int_str (Z.of_nat k)); (pad 5 (int_str (Z.of_nat k)) ++ [tab], int_str a); (pad 5 (int_str a) ++ [tab], b);
   (pad 4 b ++ [tab] ++ pad 23 (fmt_f 15 x), fmt_f 15 x); ([tab] ++ pad 23 (fmt_f 15 y), fmt_f 15 y)].
Lemma boundary_row_words it : boundary_row it = spaced (boundary_words it).
Proof.
  destruct it as (k & [[a b] [x y]]). unfold boundary_row, boundary_words, spaced, pad_left, pad_right, pad. cbn [map concat fst snd]. rewrite app_nil_r, <- !app_assoc. reflexivity.
Qed.
Lemma boundary_spaced it : row_word (snd (fst (snd it))) -> spaced_ok (boundary_words it).
Proof.
  destruct it as (k & [[a b] [x y]]). cbn [fst snd]. intros B. split.
  - repeat (apply Forall_cons; [split; cbn [fst snd]; [repeat apply gap_app; first [apply pad_gap_text|apply tab_gap_text|constructor]|first [exact B|apply int_row|apply f_row]]|]). constructor.
  - cbn [boundary_words tl].
    repeat (apply Forall_cons; [cbn [fst]; intros E; apply (f_equal (@length ascii)) in E; rewrite ?app_length in E; cbn in E; lia|]). constructor.
Qed.
Definition crater_words (c : crater) : list (str * str) :=
  [([], fmt_g 7 (c_diam c)); (pad 12 (fmt_g 7 (c_diam c)) ++ [tab] ++ pad 9 (fmt_g 3 (c_frac c)), fmt_g 3 (c_frac c));
   ([tab] ++ pad 23 (fmt_f 15 (c_lon c)), fmt_f 15 (c_lon c)); ([tab] ++ pad 23 (fmt_f 15 (c_lat c)), fmt_f 15 (c_lat c)); ([tab], L "1")].
Lemma crater_row_words c : crater_row c = spaced (crater_words c).
Proof.
  unfold crater_row, crater_words, spaced, pad_left, pad_right, pad. cbn [map concat fst snd]. rewrite app_nil_r, <- !app_assoc. reflexivity.
Qed.
Lemma crater_spaced c : spaced_ok (crater_words c).
Proof.
  split.
  - repeat (apply Forall_cons; [split; cbn [fst snd]; [repeat apply gap_app; first [apply pad_gap_text|apply tab_gap_text|constructor]|first [apply g_row|apply f_row|split; [discriminate|repeat constructor]]]|]). constructor.
  - cbn [crater_words tl].
    repeat (apply Forall_cons; [cbn [fst]; intros E; apply (f_equal (@length ascii)) in E; rewrite ?app_length in E; cbn in E; lia|]). constructor.
Qed.
Definition words_tokens (l : list (str * str)) : list token := map (fun p => Bare (snd p)) l.
Definition boundary_table (v : list (Z * str * (R * R))) : list (list token * str) :=
  map (fun it => (words_tokens (boundary_words it), boundary_row it)) (combine (seq 1 (length v)) v).
Definition crater_table (cs : list crater) : list (list token * str) := map (fun c => (words_tokens (crater_words c), crater_row c)) cs.

(** ** The substitution *)
Fixpoint mismatch (p s : str) : bool :=
  match p, s with a :: p, b :: s => if aeqb a b then mismatch p s else true | _, _ => false end.
Lemma mismatch_starts p : forall s v, mismatch p s = true -> starts_with p (s ++ v) = false.
Proof.
  unfold starts_with. induction p as [|a p IH]; intros [|b s] v H; cbn [mismatch] in H; try discriminate H.
  cbn [app length firstn seqb]. destruct (aeqb a b); [now apply IH|reflexivity].
Qed.
Fixpoint quiet (u : str) : bool :=
  match u with [] => true | c :: t => mismatch (L "a-axis radius") u && mismatch (L "a_axis radius") u && quiet t end.
Lemma quiet_sub u v : quiet u = true -> sub_axis 0 (u ++ v) = u ++ sub_axis 0 v.
Proof.
  induction u as [|c u IH]; intros H; [reflexivity|]. cbn [quiet] in H. apply andb_prop in H as [H H3]. apply andb_prop in H as [H1 H2].
  assert (A : axis_at ((c :: u) ++ v) = false).
  { unfold axis_at. rewrite (mismatch_starts _ _ v H1), (mismatch_starts _ _ v H2). reflexivity. }
  change ((c :: u) ++ v) with (c :: (u ++ v)) in *. cbn [sub_axis]. rewrite A, IH by exact H3. reflexivity.
Qed.
Lemma quiet_no_a u : ~ In "a"%char u -> quiet u = true.
Proof.
  induction u as [|c u IH]; intros H; [reflexivity|].
  assert (E : aeqb "a"%char c = false). { unfold aeqb. destruct (Ascii.eqb_spec "a"%char c) as [<-|]; [exfalso; apply H; now left|reflexivity]. }
  cbn [quiet L list_ascii_of_string mismatch]. rewrite E. cbn [andb]. apply IH. intros K. apply H. now right.
Qed.
Lemma sub_line u v : sub_axis 0 (L "a-axis radius" ++ u ++ v) = L "oct_a_axis_radius" ++ sub_axis 0 (u ++ v).
Proof. reflexivity. Qed.

(** ** The lines and the document *)
Lemma numbered_each (v : list (Z * str * (R * R))) : Forall (fun it => row_word (snd (fst it))) v ->
  forall k, Forall (fun it => row_word (snd (fst (snd it)))) (combine (seq k (length v)) v).
Proof. intros F. induction F as [|x l H F IH]; intros k; cbn [length seq combine]; [constructor|apply Forall_cons; [exact H|apply IH]]. Qed.
Section Doc.
Variables (version : str) (from : str * str) (radius area perimeter : R) (v : list (Z * str * (R * R))) (n : Z) (craters : list crater).
Hypothesis VW : row_word version.
Hypothesis FW : one_line (fst from) /\ one_line (snd from).
Hypothesis TW : Forall (fun it => row_word (snd (fst it))) v.
Definition km (x : R) : str := fmt_g 6 x ++ L " <km>".
Definition km2 (x : R) : str := fmt_g 6 x ++ L " <km2>".
Definition scc_kept : list str :=
  [L "craterstats_version = " ++ version; L "a_axis_radius = " ++ km radius; L "Total_area = " ++ km2 area; L "Total_perimeter = " ++ km perimeter;
   L "a-axis radius = " ++ km radius; L "unit_boundary = {vertex, sub_area, tag, lon, lat"] ++ boundary_rows v ++
  [L "}"; L "crater = {diam, fraction, lon, lat, topo_scale_factor"] ++ map crater_row craters ++ [L "}"].
Definition item1 (w : str) : item := Item [] None w [].
Definition item2 (w : str) : item := Item (L " ") None w [].
Definition line_entry (k : str) (val : value) : entry := Entry [] k false (L " ") (L " ") val [].
Definition boundary_value : value :=
  Table [item1 (L "vertex"); item2 (L "sub_area"); item2 (L "tag"); item2 (L "lon"); item2 (L "lat")] (boundary_table v) [].
Definition crater_value : value :=
  Table [item1 (L "diam"); item2 (L "fraction"); item2 (L "lon"); item2 (L "lat"); item2 (L "topo_scale_factor")] (crater_table craters) [].
Definition scc_doc : list entry :=
  [line_entry (L "craterstats_version") (Word version); line_entry (L "a_axis_radius") (Word (km radius));
   line_entry (L "Total_area") (Word (km2 area)); line_entry (L "Total_perimeter") (Word (km perimeter));
   line_entry (L "oct_a_axis_radius") (Word (km radius)); line_entry (L "unit_boundary") boundary_value; line_entry (L "crater") crater_value].

Lemma boundary_each : Forall (fun it => row_word (snd (fst (snd it)))) (combine (seq 1 (length v)) v).
Proof. apply numbered_each. exact TW. Qed.
Lemma boundary_good it : row_word (snd (fst (snd it))) ->
  row_ok (words_tokens (boundary_words it), boundary_row it) /\ clean (boundary_row it) /\
  starts_with (L "#") (lstrip is_space (boundary_row it)) = false /\ ~ In "a"%char (boundary_row it).
Proof.
  intros H. rewrite boundary_row_words. apply boundary_spaced in H. destruct it as (k & [[a b] [x y]]). exact (spaced_row _ _ H).
Qed.
Lemma crater_good c : row_ok (words_tokens (crater_words c), crater_row c) /\ clean (crater_row c) /\
  starts_with (L "#") (lstrip is_space (crater_row c)) = false /\ ~ In "a"%char (crater_row c).
Proof. rewrite crater_row_words. exact (spaced_row _ _ (crater_spaced c)). Qed.

Lemma fmt_g_chars k x : Forall (fun c => num_char c = true) (fmt_g k x).
Proof. apply fmt_g_word. Qed.
Lemma version_clean : clean version.
Proof. eapply Forall_impl; [|exact (proj2 VW)]. intros c K. apply row_char_facts in K as (_ & B & I & _). split; [exact B|]. intros J. apply I. cbn in *. tauto. Qed.
Lemma kept_clean : Forall clean scc_kept.
Proof.
  assert (KM : forall x, clean (km x)) by (intros x; apply clean_app; split; [apply clean_num, fmt_g_chars|now apply clean_check]).
  assert (KM2 : forall x, clean (km2 x)) by (intros x; apply clean_app; split; [apply clean_num, fmt_g_chars|now apply clean_check]).
  unfold scc_kept. rewrite !Forall_app. split; [|split; [|split; [|split]]].
  - repeat (apply Forall_cons; [first [apply clean_app; split; [now apply clean_check|first [apply version_clean|apply KM|apply KM2]]|now apply clean_check]|]). constructor.
  - unfold boundary_rows. rewrite Forall_map. eapply Forall_impl; [|exact boundary_each]. intros it H. now apply boundary_good.
  - repeat (apply Forall_cons; [now apply clean_check|]). constructor.
  - rewrite Forall_map. apply Forall_forall. intros c _. apply crater_good.
  - repeat (apply Forall_cons; [now apply clean_check|]). constructor.
Qed.
Lemma kept_lines_eq :
  Forall one_line (scc_lines version from radius area perimeter v n craters) /\
  filter (fun e => negb (starts_with (L "#") (lstrip is_space e))) (scc_lines version from radius area perimeter v n craters) = scc_kept.
Proof.
  assert (O : Forall one_line scc_kept) by (eapply Forall_impl; [|exact kept_clean]; exact clean_one_line).
  assert (AN : Forall one_line (map (fun i => L "# Area_name " ++ int_str (Z.of_nat i) ++ L " = NULL") (seq 1 (Z.to_nat n)))).
  { rewrite Forall_map. apply Forall_forall. intros i _. apply clean_one_line. rewrite !clean_app. split; [now apply clean_check|]. split; [|now apply clean_check].
    destruct (int_str_spec (Z.of_nat i)) as [N _]. destruct (numeral_chars _ _ N) as [C _]. now apply clean_num. }
  unfold scc_kept in O. rewrite !Forall_app in O. destruct O as (O1 & O2 & O3 & O4 & O5).
  split.
  - unfold scc_lines. rewrite !Forall_app.
    inversion O1 as [|? ? Ov O1a]; subst. inversion O1a as [|? ? Or O1b]; subst. inversion O1b as [|? ? Oa O1c]; subst.
    inversion O1c as [|? ? Op O1d]; subst. inversion O1d as [|? ? Oo O1e]; subst. inversion O1e as [|? ? Ou _]; subst.
    split; [|split; [exact AN|split; [|split; [exact O2|split; [exact O3|split; [exact O4|exact O5]]]]]].
    + repeat (apply Forall_cons; [first [exact Ov|exact Or|exact Oa|exact Op|exact Oo|apply clean_one_line, clean_check; reflexivity
        |apply Forall_app; split; [repeat constructor|apply FW]]|]). constructor.
    + apply Forall_cons; [apply clean_one_line, clean_check; reflexivity|]. apply Forall_cons; [exact Ou|constructor].
  - unfold scc_lines, scc_kept. rewrite !filter_app.
    match goal with |- context [?X] => match X with filter _ (map _ (seq _ _)) => assert (F2 : X = []) end end.
    { generalize (seq 1 (Z.to_nat n)). intros l. induction l as [|i l IH]; [reflexivity|]. cbn [map filter]. replace (negb _) with false by reflexivity. exact IH. }
    rewrite F2. cbn [app].
    assert (F3 : filter (fun e => negb (starts_with (L "#") (lstrip is_space e))) (boundary_rows v) = boundary_rows v).
    { unfold boundary_rows. apply filter_all. rewrite Forall_map. eapply Forall_impl; [|exact boundary_each]. intros it H. apply boundary_good in H as (_ & _ & H & _).
      rewrite H. reflexivity. }
    assert (F4 : filter (fun e => negb (starts_with (L "#") (lstrip is_space e))) (map crater_row craters) = map crater_row craters).
    { apply filter_all. rewrite Forall_map. apply Forall_forall. intros c _. destruct (crater_good c) as (_ & _ & H & _). rewrite H. reflexivity. }
    match goal with |- ?X ++ _ = _ =>
      assert (F1 : X = [L "craterstats_version = " ++ version; L "a_axis_radius = " ++ km radius; L "Total_area = " ++ km2 area;
        L "Total_perimeter = " ++ km perimeter; L "a-axis radius = " ++ km radius]) by reflexivity; rewrite F1; clear F1 end.
    cbn [app]. do 5 f_equal. 
    match goal with |- ?X ++ _ = _ => assert (F1 : X = [L "unit_boundary = {vertex, sub_area, tag, lon, lat"]) by reflexivity; rewrite F1; clear F1 end.
    cbn [app]. f_equal. f_equal; [exact F3|].
    match goal with |- ?X ++ _ = _ => assert (F1 : X = [L "}"; L "crater = {diam, fraction, lon, lat, topo_scale_factor"]) by reflexivity; rewrite F1; clear F1 end.
    cbn [app]. do 2 f_equal. f_equal. exact F4.
Qed.
Lemma scc_read fs name : read_textfile (write_textfile fs name (scc_lines version from radius area perimeter v n craters) false) name false true true = Ok scc_kept.
Proof.
  destruct kept_lines_eq as [A B]. apply read_clean; [exact A|discriminate|exact B|exact kept_clean].
Qed.
End Doc.
