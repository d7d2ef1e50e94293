(** Properties C25, C28 and C29: file names, quoted words and text files. *)
From Coq Require Import String Ascii List ZArith Lia Bool Arith.
From Verif Require Import Base StrModel StrSpec StrProofs StrProofs2.
Import ListNotations.

(** ** C25 *)
Lemma app_split {A} (a b c d : list A) : a ++ b = c ++ d -> (length a <= length c)%nat -> exists m, c = a ++ m /\ b = m ++ d.
Proof.
  revert c. induction a as [|x a IH]; intros c E Lc; [exists c; split; [reflexivity|exact E]|].
  destruct c as [|y c]; [cbn in Lc; lia|]. cbn in E. injection E as <- E. destruct (IH c E) as (m & -> & ->); [cbn in Lc; lia|].
  exists m. split; reflexivity.
Qed.
Lemma ext_longest max p n e a e' : p ++ n ++ e = a ++ e' -> plain_name n -> extension max e -> extension max e' ->
  (forall q c, p = q ++ [c] -> ~ (is_word c = true \/ In c (L ".,= -"))) ->
  (forall n1 c n2, n = n1 ++ c :: n2 -> ~ extension max (c :: n2 ++ e)) -> (length e' <= length e)%nat.
Proof.
  intros E Pn Ee Ee' Hp Hn. destruct (le_lt_dec (length e') (length e)) as [|Lt]; [assumption|exfalso].
  pose proof (f_equal (@length _) E) as LE. rewrite !app_length in LE.
  destruct (le_lt_dec (length p) (length a)) as [La|La].
  - destruct (app_split p (n ++ e) a e' E La) as (m & -> & E2). rewrite app_length in LE.
    destruct (app_split m e' n e (eq_sym E2)) as (m2 & -> & ->); [lia|]. destruct m2 as [|c m2]; [cbn in Lt; lia|].
    apply (Hn m c m2 eq_refl). exact Ee'.
  - destruct (app_split a e' p (n ++ e) (eq_sym E)) as (m & -> & ->); [lia|].
    destruct (exists_last (l := m)) as (m' & c & ->); [intros ->; rewrite app_nil_r in La; lia|].
    apply (Hp (a ++ m') c); [now rewrite app_assoc|]. apply extension_plain in Ee'. unfold plain_name in Ee'.
    rewrite Forall_forall in Ee'. apply Ee'. rewrite !in_app_iff. left. right. now left.
Qed.

(** every file name has a path, a name and an extension, which any code (without u and b) assembles as written *)
Theorem C25_pieces :
  forall max f, no_newline f ->
    exists path name ext,
      f = path ++ name ++ ext /\ plain_name name /\ extension max ext /\
      (forall a e', f = a ++ e' -> extension max e' -> (length e' <= length ext)%nat) /\
      (forall q c, path = q ++ [c] -> ~ plain_name [c]) /\
      forall code i1 i2 o1 o2, (forall c, In c code -> c <> "u"%char /\ c <> "b"%char) ->
        (In "1"%char code -> o1 = Some i1) -> (In "2"%char code -> o2 = Some i2) ->
        filename f code o1 o2 max = Ok (flat_map (piece path name ext i1 i2) code).
Proof.
  intros max f N. destruct (file_parts_spec max f N) as (p & n & e & F & E & P1 & P2 & P3 & P4). exists p, n, e.
  split; [exact E|]. split; [exact P1|]. split; [exact P2|]. split.
  { intros a e' Ea Ee'. apply (ext_longest max p n e a e'); auto. now rewrite <- E. }
  split. { intros q c Q H. apply (P3 q c Q). inversion H; assumption. }
  intros code i1 i2 o1 o2 H H1 H2. unfold filename. rewrite F.
  rewrite (file_build_no_insert (rev code) p n e i1 i2) by (rewrite <- in_rev; assumption).
  rewrite file_build_pieces by (intros c Hc; rewrite <- in_rev in Hc; now apply H). now rewrite rev_involutive, app_nil_r.
Qed.
Print Assumptions C25_pieces.
Lemma code_letters (s : string) : forallb (fun c => negb (aeqb c "u"%char) && negb (aeqb c "b"%char)) (L s) = true ->
  forall c, In c (L s) -> c <> "u"%char /\ c <> "b"%char.
Proof.
  intros H c Hc. rewrite forallb_forall in H. apply H in Hc. apply andb_true_iff in Hc. destruct Hc as (A & B).
  split; intros ->; discriminate.
Qed.
Theorem C25_lossless :
  forall max f, no_newline f -> filename f (L "pne") None None max = Ok f.
Proof.
  intros max f N. destruct (C25_pieces max f N) as (p & n & e & E & _ & _ & _ & _ & H).
  rewrite (H (L "pne") [] []); [cbn; rewrite app_nil_r; now rewrite E|now apply code_letters| |]; cbn; intros [K|[K|[K|[]]]]; discriminate.
Qed.
Print Assumptions C25_lossless.
(** replacing the extension touches nothing before it *)
Theorem C25_replace_extension :
  forall max f new, no_newline f ->
    exists before ext, f = before ++ ext /\ extension max ext /\
      (forall a e', f = a ++ e' -> extension max e' -> (length e' <= length ext)%nat) /\
      filename f (L "pn1") (Some new) None max = Ok (before ++ new).
Proof.
  intros max f new N. destruct (C25_pieces max f N) as (p & n & e & E & _ & X & M & _ & H).
  exists (p ++ n), e. split; [now rewrite <- app_assoc|]. split; [exact X|]. split; [exact M|].
  rewrite (H (L "pn1") new []); [cbn; rewrite app_nil_r, app_assoc; reflexivity|now apply code_letters|reflexivity|].
  cbn. intros [K|[K|[K|[]]]]; discriminate.
Qed.
Print Assumptions C25_replace_extension.
(** the path is the directory if the last component has only letters, digits and _ . , = - and blanks *)
Theorem C25_directory :
  forall max dir base, no_newline dir -> plain_name base ->
    (dir = [] \/ exists d c, dir = d ++ [c] /\ (c = "/"%char \/ c = bsl \/ c = ":"%char)) ->
    filename (dir ++ base) (L "p") None None max = Ok dir /\ filename (dir ++ base) (L "ne") None None max = Ok base.
Proof.
  intros max dir base N P D.
  assert (NN : no_newline (dir ++ base)) by (apply no_newline_app; split; [exact N|now apply plain_no_newline]).
  destruct (C25_pieces max _ NN) as (p & n & e & E & P1 & P2 & _ & P3 & H).
  assert (U : dir = p /\ base = n ++ e).
  { apply parts_unique; auto.
    - unfold plain_name. apply Forall_app. split; [exact P1|]. now apply extension_plain in P2.
    - intros q c Q. destruct D as [->|(d & c' & -> & C)]; [destruct q; discriminate|]. apply app_inj_tail in Q. destruct Q as (_ & <-).
      destruct C as [->|[->| ->]]; cbn; intuition discriminate.
    - intros q c Q K. apply (P3 q c Q). now constructor. }
  destruct U as (-> & ->). split.
  - rewrite (H (L "p") [] []); [cbn; now rewrite app_nil_r|now apply code_letters| |]; cbn; intros [K|[]]; discriminate.
  - rewrite (H (L "ne") [] []); [cbn; now rewrite app_nil_r|now apply code_letters| |]; cbn; intros [K|[K|[]]]; discriminate.
Qed.
Print Assumptions C25_directory.
(** other characters, such as brackets, end up in the path *)
Theorem C25_brackets_refuted :
  ~ (forall dir base, no_newline dir -> no_newline base -> (exists d, dir = d ++ L "/") ->
       (forall c, In c base -> c <> "/"%char /\ c <> bsl) ->
       filename (dir ++ base) (L "p") None None 4 = Ok dir).
Proof.
  intros H. specialize (H (L "dir/") (L "foo(1).txt")).
  assert (K : filename (L "dir/" ++ L "foo(1).txt") (L "p") None None 4 = Ok (L "dir/foo(1)")) by (vm_compute; reflexivity).
  rewrite K in H. discriminate H.
  - intros X. cbn in X. intuition discriminate.
  - intros X. cbn in X. intuition discriminate.
  - exists (L "dir"). reflexivity.
  - intros c X. cbn in X. intuition (subst c; discriminate).
Qed.
Print Assumptions C25_brackets_refuted.

Lemma dot_nonl s : no_newline s <-> all dot s.
Proof.
  unfold no_newline, all. rewrite Forall_forall. split.
  - intros H c Hc. unfold dot, is_nl. destruct (aeqb_spec c nl) as [->|]; [contradiction|reflexivity].
  - intros H Hc. apply H in Hc. discriminate.
Qed.
Lemma parent_tail (a d : str) c : d <> [] -> no_newline d ->
  greedy_cls dot [] d (fun x _ => match x with [] => None | _ => Some (a ++ [c], x) end) = Some (a ++ [c], d).
Proof.
  intros NE N. rewrite <- (app_nil_r d) at 1. apply greedy_longest; [now apply dot_nonl|exact I|]. cbn. destruct d; [congruence|reflexivity].
Qed.
Lemma parent_match_ok a s w tl : is_sep s = true -> w <> [] -> no_newline (a ++ s :: w ++ tl) ->
  (forall c, In c w -> is_sep c = false) -> (tl = [] \/ exists c, tl = [c] /\ is_sep c = true) ->
  parent_match (a ++ s :: w ++ tl) = Some (a ++ [s], w ++ tl).
Proof.
  intros S NE N W T. pose proof N as N0. apply no_newline_app in N. destruct N as (Na & N).
  assert (Nw : no_newline (w ++ tl)) by (intros H; apply N; now right).
  unfold parent_match. destruct (greedy_cls _ _ _ _) as [r|] eqn:G.
  - apply greedy_some in G. destruct G as (w' & t' & E & Aw & K & M). cbn [rev app] in K, M.
    destruct t' as [|c u]; [discriminate|]. destruct (is_sep c) eqn:Sc; [|discriminate].
    assert (Nu : no_newline u). { rewrite E in N0. apply no_newline_app in N0. destruct N0 as (_ & N0). intros H; apply N0; now right. }
    assert (NEu : u <> []). { intros ->. cbn in K. discriminate. }
    rewrite parent_tail in K by assumption. injection K as <-.
    assert (H : w' = a).
    { destruct (lt_eq_lt_dec (length w') (length a)) as [[Lt|Eq]|Gt].
      - exfalso. destruct (app_split w' (c :: u) a (s :: w ++ tl) (eq_sym E)) as (m & -> & E2); [lia|].
        destruct m as [|x m]; [rewrite app_nil_r in Lt; lia|]. cbn in E2. injection E2 as <- ->.
        assert (AD : all dot (c :: m)) by (apply dot_nonl; apply no_newline_app in Na; apply Na).
        specialize (M c m (s :: w ++ tl) eq_refl AD). cbn match in M. rewrite S in M. rewrite parent_tail in M; [|destruct w; [congruence|discriminate]|exact Nw].
        discriminate M.
      - destruct (app_split w' (c :: u) a (s :: w ++ tl) (eq_sym E)) as (m & -> & _); [lia|]. rewrite app_length in Eq.
        destruct m; [now rewrite app_nil_r|cbn in Eq; lia].
      - exfalso. destruct (app_split a (s :: w ++ tl) w' (c :: u) E) as (m & -> & E2); [lia|].
        destruct m as [|x m]; [rewrite app_nil_r in Gt; lia|]. cbn in E2. injection E2 as <- E2.
        destruct (le_lt_dec (length w) (length m)) as [Lm|Lm].
        + destruct (app_split w tl m (c :: u) E2 Lm) as (z & -> & ->). destruct T as [T|(y & T & _)].
          * destruct z; discriminate.
          * destruct z as [|z1 [|z2 z]]; [injection T as _ ->; congruence|discriminate|destruct z; discriminate].
        + destruct (app_split m (c :: u) w tl (eq_sym E2)) as (z & -> & E3); [lia|]. destruct z as [|z1 z]; [rewrite app_nil_r in Lm; lia|].
          cbn in E3. injection E3 as <- _. rewrite (W c) in Sc; [discriminate|]. rewrite in_app_iff. right. now left. }
    subst w'. apply app_inv_head in E. now injection E as <- <-.
  - pose proof (greedy_none _ _ _ _ G a (s :: w ++ tl) eq_refl (proj1 (dot_nonl a) Na)) as K. cbn [rev app] in K.
    rewrite S in K. rewrite parent_tail in K; [discriminate|destruct w; [congruence|discriminate]|exact Nw].
Qed.
(** 'u' is the directory above the path, 'b' the last directory of the path *)
Theorem C25_parent :
  forall max up dir sep base, no_newline up -> no_newline dir -> plain_name base -> dir <> [] ->
    (forall c, In c dir -> c <> "/"%char /\ c <> bsl) -> (sep = "/"%char \/ sep = bsl) ->
    (exists d, up = d ++ L "/" \/ up = d ++ [bsl]) ->
    let f := up ++ dir ++ [sep] ++ base in
    filename f (L "u") None None max = Ok up /\
    filename f (L "b") None None max = Ok (dir ++ [sep]) /\
    filename f (L "bne") None None max = Ok (dir ++ [sep] ++ base) /\
    forall i, filename f (L "p1bne") (Some i) None max = Ok (up ++ i ++ dir ++ [sep] ++ base).
Proof.
  intros max up dir sep base Nu Nd P NE D S (d & U) f.
  assert (SS : is_sep sep = true) by (destruct S as [->| ->]; reflexivity).
  assert (Nsep : no_newline [sep]) by (intros [K|[]]; rewrite K in S; destruct S; discriminate).
  assert (NN : no_newline (up ++ dir ++ [sep])) by (rewrite !no_newline_app; auto).
  destruct (file_parts_spec max f) as (p & n & e & F & E & P1 & P2 & P3 & _).
  { unfold f. rewrite !no_newline_app. repeat split; auto. now apply plain_no_newline. }
  assert (Q : up ++ dir ++ [sep] = p /\ base = n ++ e).
  { apply parts_unique; auto.
    - rewrite <- E. unfold f. now rewrite <- !app_assoc.
    - unfold plain_name. apply Forall_app. split; [exact P1|]. now apply extension_plain in P2.
    - intros q c Hq. rewrite app_assoc in Hq. apply app_inj_tail in Hq. destruct Hq as (_ & <-).
      destruct S as [->| ->]; cbn; intuition discriminate. }
  destruct Q as (Ep & Eb).
  assert (R : exists a s, up = a ++ [s] /\ is_sep s = true) by (destruct U as [U|U]; exists d; eexists; (split; [exact U|reflexivity])).
  destruct R as (a & s & Ea & Es).
  assert (M : re_search parent_match p = Some (up, dir ++ [sep])).
  { assert (K : parent_match p = Some (up, dir ++ [sep])).
    { rewrite <- Ep, Ea, <- app_assoc. cbn [app]. apply parent_match_ok; auto.
      - rewrite <- Ep in *. rewrite Ea in NN. rewrite <- app_assoc in NN. exact NN.
      - intros c Hc. destruct (D c Hc) as (A & B). unfold is_sep. destruct (aeqb_spec c bsl); [contradiction|].
        destruct (aeqb_spec c (ch "/")); [contradiction|reflexivity].
      - right. exists sep. split; [reflexivity|exact SS]. }
    destruct p as [|x p]; cbn [re_search]; rewrite K; reflexivity. }
  unfold filename. rewrite F. cbn [rev L list_ascii_of_string app]. 
  repeat split; intros;
    repeat (cbn [file_build]; match goal with |- context [aeqb ?x (ch ?y)] => first [change (aeqb x (ch y)) with true|change (aeqb x (ch y)) with false]; cbn match; cbn [orb] end);
    rewrite ?M; repeat (cbn [file_build]; match goal with |- context [aeqb ?x (ch ?y)] => first [change (aeqb x (ch y)) with true|change (aeqb x (ch y)) with false]; cbn match; cbn [orb] end);
    cbn [file_build]; rewrite ?app_nil_r; rewrite ?Eb; rewrite <- ?app_assoc; reflexivity.
Qed.
Print Assumptions C25_parent.
(** a list of names is treated name by name, with the same code and inserts (and extensions of at most four characters) *)
Theorem C25_list :
  forall fs code i1 i2 max rs, filename_list fs code i1 i2 max = Ok rs ->
    length rs = length fs /\ forall i f r, nth_error fs i = Some f -> nth_error rs i = Some r -> filename f code i1 i2 4 = Ok r.
Proof.
  unfold filename_list. intros fs code i1 i2 max. induction fs as [|f fs IH]; intros rs H; cbn [mapM] in H.
  - injection H as <-. split; [reflexivity|]. intros [|i] f r H; discriminate.
  - destruct (filename f code i1 i2 4) as [r0|] eqn:E; [|discriminate]. cbn [bind] in H.
    destruct (mapM (fun f => filename f code i1 i2 4) fs) as [rs'|]; [|discriminate]. cbn [bind] in H. injection H as <-.
    destruct (IH rs' eq_refl) as (A & B). split; [cbn; now rewrite A|]. intros [|i] f' r' F R; cbn in F, R.
    + injection F as <-. injection R as <-. exact E.
    + exact (B i f' r' F R).
Qed.
Print Assumptions C25_list.
Example C25_hypotheses_met :
  no_newline (L "d:/tmp/fred.txt") /\ plain_name (L "fred.txt") /\ filename (L "d:/tmp/fred.txt") (L "pn1e") (Some (L "_en")) None 4 = Ok (L "d:/tmp/fred_en.txt").
Proof.
  split; [intros H; cbn in H; intuition discriminate|]. split; [|vm_compute; reflexivity].
  unfold plain_name. cbn [L list_ascii_of_string].
  repeat (apply Forall_cons; [first [left; reflexivity | right; cbn; tauto]|]). apply Forall_nil.
Qed.

(** ** C28 *)
(** words written bare or in quotes, with separators between them, are recovered *)
Theorem C28_words_recovered :
  forall sep ts s, sep dq = false -> sep sq = false -> layout sep ts s -> Forall (token_ok sep) ts ->
    quoted_split sep s = map token_word ts.
Proof. intros sep ts s H1 H2. now apply quoted_split_layout. Qed.
Print Assumptions C28_words_recovered.
(** in particular any words without backslashes, each quoted and joined by blanks *)
Theorem C28_quoting_all :
  forall words, (forall w, In w words -> ~ In bsl w) ->
    quoted_split is_space (join (L " ") (map (fun w => [dq] ++ escape dq w ++ [dq]) words)) = words.
Proof.
  intros words H. rewrite (quoted_split_layout is_space eq_refl eq_refl (map (Quoted dq) words)).
  - rewrite map_map. cbn [token_word]. apply map_id.
  - assert (G : forall g words, Forall (fun c => is_space c = true) g -> layout is_space (map (Quoted dq) words)
      (match words with [] => [] | _ => g ++ join (L " ") (map (fun w => [dq] ++ escape dq w ++ [dq]) words) end)).
    { intros g ws. revert g. induction ws as [|x [|y ws] IH]; intros g Hg.
      - constructor. constructor.
      - exact (layout_last is_space g (Quoted dq x) Hg).
      - cbn [map] in *. rewrite join_cons. apply (layout_cons is_space g (Quoted dq x)); [exact Hg| |].
        + apply (IH (L " ")). repeat constructor.
        + exists (ch " "). eexists. split; reflexivity. }
    specialize (G [] words (Forall_nil _)). destruct words; exact G.
  - apply Forall_forall. intros t Ht. apply in_map_iff in Ht. destruct Ht as (w & <- & Hw). split; [now left|]. left. now apply H.
Qed.
Print Assumptions C28_quoting_all.
(** strip_quotes removes one pair of equal quotes at the ends, and nothing else *)
Theorem C28_strip_quotes :
  (forall q w, q = dq \/ q = sq -> strip_quotes ([q] ++ w ++ [q]) = w) /\
  (forall s, (forall q w, q = dq \/ q = sq -> s <> [q] ++ w ++ [q]) -> strip_quotes s = s).
Proof.
  split; [intros q w Q; now apply strip_quotes_quoted|].
  intros s H. destruct s as [|c [|d s]]; try reflexivity. unfold strip_quotes.
  destruct (aeqb_spec c (last (c :: d :: s) c)) as [E|]; [|reflexivity]. destruct (aeqb c dq || aeqb c sq) eqn:Q; [|reflexivity].
  exfalso. assert (Q' : c = dq \/ c = sq) by (apply orb_true_iff in Q; destruct Q as [Q|Q]; [left|right]; [destruct (aeqb_spec c dq)|destruct (aeqb_spec c sq)]; congruence).
  apply (H c (removelast (d :: s)) Q'). cbn [app]. f_equal.
  rewrite (app_removelast_last c) at 1 by discriminate. do 2 f_equal. symmetry. exact E.
Qed.
Print Assumptions C28_strip_quotes.
(** a quoted word that ends in a backslash (a Windows directory) swallows the words after it *)
Theorem C28_final_backslash_refuted :
  ~ (forall q w v, q = dq -> ~ In dq w -> ~ In sq w -> quoted_split is_space ([q] ++ w ++ [q] ++ L " " ++ [q] ++ v ++ [q]) = [w; v]).
Proof.
  intros H. specialize (H dq (L "d:\") (L "x") eq_refl).
  assert (K : quoted_split is_space ([dq] ++ L "d:\" ++ [dq] ++ L " " ++ [dq] ++ L "x" ++ [dq]) = [L "d:" ++ [dq] ++ L " "; L "x" ++ [dq]]) by (vm_compute; reflexivity).
  rewrite K in H. discriminate H; cbn; intuition discriminate.
Qed.
Print Assumptions C28_final_backslash_refuted.
Example C28_hypotheses_met :
  layout is_space [Bare (L "a"); Quoted dq (L "b c"); Quoted sq (L "d:\x y")] (L "a " ++ [dq] ++ L "b c" ++ [dq] ++ L "  " ++ [sq] ++ L "d:\x y" ++ [sq]) /\
  Forall (token_ok is_space) [Bare (L "a"); Quoted dq (L "b c"); Quoted sq (L "d:\x y")].
Proof.
  split.
  - apply (layout_cons is_space [] (Bare (L "a"))); [constructor| |exists (ch " "); eexists; split; reflexivity].
    apply (layout_cons is_space (L " ") (Quoted dq (L "b c"))); [repeat constructor| |exists (ch " "); eexists; split; reflexivity].
    apply (layout_last is_space (L "  ") (Quoted sq (L "d:\x y"))). repeat constructor.
  - constructor; [|constructor; [|constructor; [|constructor]]].
    + split; [discriminate|]. split; [repeat constructor|]. left. split; intros [K|[]]; discriminate.
    + split; [now left|]. left. intros K. cbn in K. intuition discriminate.
    + split; [now right|]. right. split; [split; intros K; cbn in K; intuition discriminate|discriminate].
Qed.

(** ** C29 *)
Theorem C29_round_trip :
  forall fs name lines, Forall one_line lines -> lines <> [[]] ->
    read_textfile (write_textfile fs name lines false) name false false false = Ok lines.
Proof.
  intros fs name lines H NE. unfold read_textfile, write_textfile. rewrite file_get_set. cbn match. f_equal. now rewrite read_text_join.
Qed.
Print Assumptions C29_round_trip.
(** one empty line is read back as no line *)
Theorem C29_single_empty_line_refuted :
  ~ (forall fs name lines, Forall one_line lines ->
       read_textfile (write_textfile fs name lines false) name false false false = Ok lines).
Proof.
  intros H. specialize (H [] (L "f") [[]]). assert (K : Forall one_line [[]]) by (repeat constructor). specialize (H K).
  vm_compute in H. discriminate.
Qed.
Print Assumptions C29_single_empty_line_refuted.
(** appending keeps what is there and adds the new text at its end *)
Theorem C29_append :
  forall fs name lines,
    (forall old, file_get fs name = Some old -> file_get (write_textfile fs name lines true) name = Some (old ++ join [nl] lines)) /\
    (file_get fs name = None -> file_get (write_textfile fs name lines true) name = Some (join [nl] lines)) /\
    file_get (write_textfile fs name lines false) name = Some (join [nl] lines).
Proof.
  intros fs name lines. unfold write_textfile. rewrite !file_get_set.
  split; [intros old ->; reflexivity|]. split; [intros ->; reflexivity|reflexivity].
Qed.
Print Assumptions C29_append.
(** other files are left alone *)
Theorem C29_other_files_unchanged :
  forall fs name name' lines app b h s, name' <> name ->
    read_textfile (write_textfile fs name lines app) name' b h s = read_textfile fs name' b h s.
Proof. intros. unfold read_textfile, write_textfile. rewrite file_get_set_other by assumption. reflexivity. Qed.
Print Assumptions C29_other_files_unchanged.
(** ignore_hash and ignore_blank keep the order and drop exactly the comment lines and the empty lines *)
Theorem C29_comments_dropped :
  forall fs name lines blank hash, Forall one_line lines -> lines <> [[]] ->
    exists keep, read_textfile (write_textfile fs name lines false) name blank hash false = Ok (filter keep lines) /\
      forall l, keep l = false <-> (blank = true /\ l = []) \/ (hash = true /\ comment_line l).
Proof.
  intros fs name lines b h H NE.
  exists (fun l => negb (b && seqb l []) && negb (h && starts_with (L "#") (lstrip is_space l))). split.
  - unfold read_textfile, write_textfile. rewrite file_get_set. cbn match. f_equal. rewrite read_text_join by assumption. cbv zeta.
    assert (FF : forall (p q : str -> bool) l, filter q (filter p l) = filter (fun x => p x && q x) l).
    { intros p q l. induction l as [|x l IH]; [reflexivity|]. cbn. destruct (p x); cbn; [destruct (q x); now rewrite IH|exact IH]. }
    destruct b, h; cbn [andb negb]; rewrite ?FF; try reflexivity.
    + apply filter_ext. intros l. now rewrite andb_true_r.
    + induction lines as [|x l IH]; [reflexivity|]. cbn. f_equal. inversion H; subst. clear - l. induction l as [|y l IH]; [reflexivity|cbn; now rewrite <- IH].
  - intros l. rewrite andb_false_iff, !negb_false_iff, !andb_true_iff, comment_test.
    destruct (seqb_spec l []) as [->|N]; intuition (try discriminate; try congruence).
Qed.
Print Assumptions C29_comments_dropped.
(** comment stripping: the text before the first semicolon outside quotes *)
Theorem C29_trailing_comment_stripped :
  forall fs name segs comment, Forall segment_ok segs ->
    let line := concat (map segment_text segs) ++ L ";" ++ comment in one_line line ->
    read_textfile (write_textfile fs name [line] false) name false false true = Ok [concat (map segment_text segs)].
Proof.
  intros fs name segs comment OK line H. unfold read_textfile, write_textfile. rewrite file_get_set. cbn match. f_equal.
  rewrite read_text_join; [|intros K; injection K as K; apply (f_equal (@length _)) in K; unfold line in K; rewrite app_length in K; cbn in K; lia|now constructor].
  cbv zeta. cbn [map]. f_equal. unfold line. apply strip_comment_segments; [exact OK|right; eauto|lia].
Qed.
Print Assumptions C29_trailing_comment_stripped.
Theorem C29_no_comment_untouched :
  forall fs name segs, Forall segment_ok segs -> let line := concat (map segment_text segs) in one_line line -> line <> [] ->
    read_textfile (write_textfile fs name [line] false) name false false true = Ok [line].
Proof.
  intros fs name segs OK line H NE. unfold read_textfile, write_textfile. rewrite file_get_set. cbn match. f_equal.
  rewrite read_text_join; [|intros K; injection K as K; contradiction|now constructor].
  cbv zeta. cbn [map]. f_equal. unfold line.
  pose proof (strip_comment_segments segs (S (length (concat (map segment_text segs)))) [] OK (or_introl eq_refl)) as Q.
  rewrite app_nil_r in Q. apply Q. lia.
Qed.
Print Assumptions C29_no_comment_untouched.
Example C29_hypotheses_met :
  Forall one_line [L "1"; []; L "# x"] /\ [L "1"; []; L "# x"] <> [[]] /\ comment_line (L " # x") /\
  Forall segment_ok [Plain (L "a = "); InQuotes dq (L "x;y"); Plain (L " ")].
Proof.
  split; [repeat constructor|]. split; [discriminate|]. split; [exists (L " "), (L " x"); split; [repeat constructor|reflexivity]|].
  repeat constructor; try (now left); intros K; cbn in K; intuition discriminate.
Qed.
