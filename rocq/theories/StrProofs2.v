From Coq Require Import String Ascii List ZArith Lia Bool Arith.
From Verif Require Import Base StrModel StrSpec StrProofs.
Import ListNotations.

Lemma quoted_body_unfold q acc s : quoted_body q acc s =
  let stop := match s with
              | c :: t => if aeqb c q then Some (rev (c :: acc), t) else None
              | [] => None
              end in
  let one := match s with
             | c :: t => if aeqb c q then stop
                         else match quoted_body q (c :: acc) t with Some r => Some r | None => stop end
             | [] => stop
             end in
  match s with
  | c :: (d :: t) => if aeqb c bsl && dot d then
                       match quoted_body q (d :: c :: acc) t with Some r => Some r | None => one end
                     else one
  | _ => one
  end.
Proof. destruct s as [|c [|d t]]; reflexivity. Qed.

Lemma quoted_body_stop q acc t : q <> bsl -> quoted_body q acc (q :: t) = Some (rev acc ++ [q], t).
Proof.
  intros N. rewrite quoted_body_unfold. cbv zeta. rewrite aeqb_refl. cbn [rev]. destruct t as [|d t]; [reflexivity|].
  destruct (aeqb_spec q bsl); [contradiction|]. reflexivity.
Qed.
Lemma quoted_body_char q acc c t r : c <> bsl -> c <> q ->
  quoted_body q (c :: acc) t = Some r -> quoted_body q acc (c :: t) = Some r.
Proof.
  intros N1 N2 H. rewrite quoted_body_unfold. cbv zeta. destruct (aeqb_spec c q); [contradiction|]. rewrite H.
  destruct t as [|d t]; [reflexivity|]. destruct (aeqb_spec c bsl); [contradiction|]. reflexivity.
Qed.
Lemma quoted_body_pair q acc d t r : d <> nl ->
  quoted_body q (d :: bsl :: acc) t = Some r -> quoted_body q acc (bsl :: d :: t) = Some r.
Proof.
  intros N H. rewrite quoted_body_unfold. cbv zeta. rewrite aeqb_refl. unfold dot, is_nl. destruct (aeqb_spec d nl); [contradiction|].
  cbn [andb negb]. now rewrite H.
Qed.
Lemma quoted_body_bsl_nl q acc t r : q <> bsl ->
  quoted_body q (bsl :: acc) (nl :: t) = Some r -> quoted_body q acc (bsl :: nl :: t) = Some r.
Proof.
  intros N H. rewrite quoted_body_unfold. cbv zeta. destruct (aeqb_spec bsl q); [congruence|]. rewrite H.
  rewrite aeqb_refl. reflexivity.
Qed.

Definition is_quote q := q = dq \/ q = sq.
Lemma quote_facts q : is_quote q -> q <> bsl /\ q <> nl.
Proof. intros [->| ->]; split; discriminate. Qed.

Lemma body_escape q w : forall acc t, is_quote q -> ~ In bsl w ->
  quoted_body q acc (escape q w ++ q :: t) = Some (rev acc ++ escape q w ++ [q], t).
Proof.
  intros acc t Q N. destruct (quote_facts q Q) as (Q1 & Q2). revert acc. induction w as [|c w IH]; intros acc.
  - now apply quoted_body_stop.
  - cbn [escape flat_map]. assert (Nc : c <> bsl) by (intros ->; apply N; now left).
    assert (Nw : ~ In bsl w) by (intros H; apply N; now right). destruct (ascii_dec c q) as [->|Nq].
    + cbn [app]. apply quoted_body_pair; [exact Q2|]. fold (escape q w). rewrite IH by exact Nw.
      cbn [rev]. rewrite <- !app_assoc. reflexivity.
    + cbn [app]. apply quoted_body_char; auto. fold (escape q w). rewrite IH by exact Nw. cbn [rev]. rewrite <- !app_assoc. reflexivity.
Qed.
Lemma escape_none q w : ~ In q w -> escape q w = w.
Proof.
  induction w as [|c w IH]; intros N; [reflexivity|]. cbn. destruct (ascii_dec c q) as [->|_]; [exfalso; apply N; now left|].
  cbn. f_equal. apply IH. intros H; apply N; now right.
Qed.
Lemma body_backslash q n : forall w acc t, length w <= n -> is_quote q -> ~ In q w -> last w zero <> bsl ->
  quoted_body q acc (w ++ q :: t) = Some (rev acc ++ w ++ [q], t).
Proof.
  induction n as [|n IH]; intros w acc t Ln Q N Hl; destruct (quote_facts q Q) as (Q1 & Q2).
  - destruct w; [|cbn in Ln; lia]. now apply quoted_body_stop.
  - destruct w as [|c w]; [now apply quoted_body_stop|]. cbn [length] in Ln.
    assert (Nc : c <> q) by (intros ->; apply N; now left).
    assert (Nw : ~ In q w) by (intros H; apply N; now right).
    destruct (ascii_dec c bsl) as [->|Nb].
    + destruct w as [|d w]; [cbn in Hl; congruence|].
      assert (Hl' : last (d :: w) zero <> bsl) by exact Hl. cbn [length] in Ln. cbn [app].
      destruct (ascii_dec d nl) as [->|Nn].
      * apply quoted_body_bsl_nl; [exact Q1|]. change (nl :: w ++ q :: t) with ((nl :: w) ++ q :: t). rewrite IH; auto; [|cbn; lia].
        cbn [rev]. rewrite <- app_assoc. reflexivity.
      * apply quoted_body_pair; [exact Nn|]. rewrite IH; auto; [|lia|intros H; apply Nw; now right|].
        { cbn [rev]. rewrite <- !app_assoc. reflexivity. }
        destruct w as [|e w]; [discriminate|exact Hl'].
    + cbn [app]. apply quoted_body_char; auto. rewrite IH; auto; [|lia|].
      { cbn [rev]. rewrite <- !app_assoc. reflexivity. }
      destruct w as [|d w]; [discriminate|exact Hl].
Qed.

Lemma last_app_cons (s : str) (c x d : ascii) : last (x :: s ++ [c]) d = c.
Proof. change (x :: s ++ [c]) with ((x :: s) ++ [c]). apply last_last. Qed.
Lemma strip_quotes_quoted q w : is_quote q -> strip_quotes ([q] ++ w ++ [q]) = w.
Proof.
  intros Q. cbn [app]. unfold strip_quotes. destruct w as [|c w].
  - cbn. rewrite aeqb_refl. destruct Q as [->| ->]; reflexivity.
  - cbn [app]. replace (last (q :: c :: w ++ [q]) q) with q by (symmetry; exact (last_app_cons (c :: w) q q q)). rewrite aeqb_refl.
    replace (aeqb q dq || aeqb q sq) with true by (destruct Q as [->| ->]; reflexivity). cbn [andb].
    change (c :: w ++ [q]) with ((c :: w) ++ [q]). apply removelast_last.
Qed.
Lemma strip_quotes_bare w : hd zero w <> dq -> hd zero w <> sq -> strip_quotes w = w.
Proof.
  destruct w as [|c [|d w]]; intros H1 H2; try reflexivity. unfold strip_quotes. cbn [hd] in *.
  destruct (aeqb_spec c dq); [contradiction|]. destruct (aeqb_spec c sq); [contradiction|]. now rewrite andb_false_r.
Qed.
Lemma replace2_no_a a b r s : ~ In a s -> replace2 a b r s = s.
Proof.
  induction s as [|x s IH]; intros N; [reflexivity|]. cbn [replace2]. destruct s as [|y t]; [reflexivity|].
  destruct (aeqb_spec x a) as [->|_]; [exfalso; apply N; now left|]. cbn [andb]. f_equal. apply IH. intros H; apply N; now right.
Qed.
Lemma replace2_no_b a b r s : ~ In b s -> replace2 a b r s = s.
Proof.
  induction s as [|x s IH]; intros N; [reflexivity|]. cbn [replace2]. destruct s as [|y t]; [reflexivity|].
  destruct (aeqb_spec y b) as [->|_]; [exfalso; apply N; right; now left|]. rewrite andb_false_r. f_equal. apply IH. intros H; apply N; now right.
Qed.
Lemma replace2_cons a b r x s : x <> a -> replace2 a b r (x :: s) = x :: replace2 a b r s.
Proof.
  intros N. cbn [replace2]. destruct s as [|y t]; [reflexivity|]. destruct (aeqb_spec x a); [contradiction|]. reflexivity.
Qed.
Lemma replace2_escape q w : ~ In bsl w -> replace2 bsl q q (escape q w) = w.
Proof.
  induction w as [|c w IH]; intros N; [reflexivity|]. cbn [escape flat_map]. fold (escape q w).
  assert (Nc : c <> bsl) by (intros ->; apply N; now left). assert (Nw : ~ In bsl w) by (intros H; apply N; now right).
  destruct (ascii_dec c q) as [->|Nq].
  - cbn [app replace2]. rewrite !aeqb_refl. cbn [andb]. f_equal. now apply IH.
  - cbn [app]. rewrite replace2_cons by exact Nc. f_equal. now apply IH.
Qed.
Lemma replace2_skip a b r x y s : y <> b -> replace2 a b r (x :: y :: s) = x :: replace2 a b r (y :: s).
Proof. intros N. cbn [replace2]. destruct (aeqb_spec y b); [contradiction|]. rewrite andb_false_r. reflexivity. Qed.
(** the other quote is never preceded by a backslash in an escaped word *)
Lemma replace2_escape_other q q' w : q <> q' -> q <> bsl -> ~ In bsl w -> replace2 bsl q' q' (escape q w) = escape q w.
Proof.
  intros D QB. induction w as [|c w IH]; intros N; [reflexivity|]. cbn [escape flat_map]. fold (escape q w).
  assert (Nc : c <> bsl) by (intros ->; apply N; now left). assert (Nw : ~ In bsl w) by (intros H; apply N; now right).
  destruct (ascii_dec c q) as [->|Nq].
  - cbn [app]. rewrite replace2_skip by exact D.
    rewrite replace2_cons by exact QB. do 2 f_equal. now apply IH.
  - cbn [app]. rewrite replace2_cons by exact Nc. f_equal. now apply IH.
Qed.

Section Split.
  Variable sep : ascii -> bool.
  Hypothesis sep_dq : sep dq = false.
  Hypothesis sep_sq : sep sq = false.

  Definition word_of (p : str) : str := replace2 bsl sq sq (replace2 bsl dq dq (strip_quotes p)).
  Lemma word_of_token t : token_ok sep t -> word_of (token_text t) = token_word t.
  Proof.
    destruct t as [w|q w]; cbn [token_ok token_text token_word]; unfold word_of.
    - intros (NE & S & Q). assert (H : hd zero w <> dq /\ hd zero w <> sq).
      { destruct Q as [(Q1 & Q2)|(_ & Q)]; [|exact Q]. destruct w as [|c w]; [congruence|]. cbn. split; intros ->; [apply Q1|apply Q2]; now left. }
      rewrite strip_quotes_bare by apply H. destruct Q as [(Q1 & Q2)|(Q & _)].
      + rewrite (replace2_no_b bsl dq) by exact Q1. now apply replace2_no_b.
      + rewrite (replace2_no_a bsl dq) by exact Q. now apply replace2_no_a.
    - intros (Q & H). rewrite strip_quotes_quoted by exact Q. destruct H as [H|((H1 & H2) & Hl)].
      + destruct Q as [->| ->].
        * rewrite replace2_escape by exact H. now apply replace2_no_a.
        * rewrite replace2_escape_other; [|discriminate|discriminate|exact H]. now apply replace2_escape.
      + rewrite escape_none by (destruct Q as [->| ->]; assumption).
        rewrite (replace2_no_b bsl dq) by exact H1. now apply replace2_no_b.
  Qed.
  Lemma quoted_token_ok t r : token_ok sep t -> (r = [] \/ exists c r', r = c :: r' /\ sep c = true) ->
    quoted_token sep (token_text t ++ r) = Some (token_text t, r).
  Proof.
    destruct t as [w|q w]; cbn [token_ok token_text].
    - intros (NE & S & Q) R.
      assert (B : greedy_cls (fun c => negb (sep c)) [] (w ++ r) (fun w r => match w with [] => None | _ => Some (w, r) end) = Some (w, r)).
      { apply greedy_longest.
        - unfold all. eapply Forall_impl; [|exact S]. intros c Hc. cbn in Hc |- *. now rewrite Hc.
        - destruct R as [->|(c & r' & -> & Hc)]; [exact I|]. now rewrite Hc.
        - cbn. destruct w; [congruence|reflexivity]. }
      destruct w as [|c w]; [congruence|]. cbn [app] in *. unfold quoted_token.
      assert (H : c <> dq /\ c <> sq).
      { destruct Q as [(Q1 & Q2)|(_ & Q)]; [|exact Q]. split; intros ->; [apply Q1|apply Q2]; now left. }
      destruct (aeqb_spec c dq); [tauto|]. destruct (aeqb_spec c sq); [tauto|]. exact B.
    - intros (Q & H) R.
      assert (B : quoted_body q [q] (escape q w ++ q :: r) = Some (q :: escape q w ++ [q], r)).
      { destruct H as [H|((H1 & H2) & Hl)].
        - rewrite body_escape by assumption. reflexivity.
        - assert (N : ~ In q w) by (destruct Q as [->| ->]; assumption). rewrite escape_none by exact N.
          rewrite (body_backslash q (length w)); auto. }
      cbn [app]. unfold quoted_token. rewrite <- app_assoc. cbn [app]. destruct Q as [->| ->].
      + rewrite aeqb_refl. now rewrite B.
      + change (aeqb sq dq) with false. rewrite aeqb_refl. cbn match. now rewrite B.
  Qed.
  Lemma quoted_token_sep c t : sep c = true -> quoted_token sep (c :: t) = None.
  Proof.
    intros H. unfold quoted_token. destruct (aeqb_spec c dq) as [->|_]; [congruence|]. destruct (aeqb_spec c sq) as [->|_]; [congruence|].
    cbn [greedy_cls]. now rewrite H.
  Qed.
  Lemma findall_gap g : forall f s, Forall (fun c => sep c = true) g -> length (g ++ s) < f ->
    exists f', length s < f' /\ findall f (quoted_token sep) (g ++ s) = findall f' (quoted_token sep) s.
  Proof.
    induction g as [|c g IH]; intros f s H Lf; [exists f; split; [exact Lf|reflexivity]|].
    inversion H; subst. destruct f as [|f]; [cbn in Lf; lia|]. cbn [app findall].
    rewrite quoted_token_sep by assumption. cbn match. apply IH; [assumption|]. cbn in Lf. lia.
  Qed.
  Lemma findall_nil f : findall f (quoted_token sep) [] = [].
  Proof. destruct f; reflexivity. Qed.
  Lemma token_text_ne t : token_ok sep t -> 0 < length (token_text t).
  Proof. destruct t as [w|q w]; cbn; [intros (NE & _); destruct w; [congruence|cbn; lia]|lia]. Qed.
  Lemma findall_layout ts s : layout sep ts s -> Forall (token_ok sep) ts -> forall f, length s < f ->
    findall f (quoted_token sep) s = map token_text ts.
  Proof.
    induction 1 as [g G|g t G|g t ts s G H IH (c & s' & -> & Hc)]; intros OK f Lf.
    - destruct (findall_gap g f [] G) as (f' & _ & E); [now rewrite app_nil_r|]. rewrite app_nil_r in E. rewrite E. apply findall_nil.
    - inversion OK; subst. destruct (findall_gap g f (token_text t) G Lf) as (f' & Lf' & ->).
      destruct f' as [|f']; [lia|]. cbn [findall].
      pose proof (quoted_token_ok t [] H1 (or_introl eq_refl)) as Q. rewrite app_nil_r in Q. rewrite Q. now rewrite findall_nil.
    - inversion OK; subst. destruct (findall_gap g f _ G Lf) as (f' & Lf' & ->).
      destruct f' as [|f']; [lia|]. cbn [findall]. rewrite quoted_token_ok; [|assumption|right; eauto]. cbn [map]. f_equal.
      apply IH; [assumption|]. rewrite app_length in Lf'. pose proof (token_text_ne t H2). lia.
  Qed.
  Theorem quoted_split_layout ts s : layout sep ts s -> Forall (token_ok sep) ts -> quoted_split sep s = map token_word ts.
  Proof.
    intros H OK. unfold quoted_split. rewrite (findall_layout ts s H OK) by lia. rewrite map_map. apply map_ext_in.
    intros t Ht. rewrite Forall_forall in OK. exact (word_of_token t (OK t Ht)).
  Qed.
End Split.

(** ** Text files *)
Lemma break_cr c : is_break c = false -> c <> cr /\ c <> nl.
Proof. intros H. split; intros ->; discriminate. Qed.
Lemma universal_id s : (forall c, In c s -> c <> cr) -> universal s = s.
Proof.
  induction s as [|c s IH]; intros H; [reflexivity|]. cbn [universal].
  destruct (aeqb_spec c cr) as [->|_]; [exfalso; apply (H cr); [now left|reflexivity]|]. f_equal. apply IH. intros d Hd. apply H. now right.
Qed.
Lemma join_cons sep x y l : join sep (x :: y :: l) = x ++ sep ++ join sep (y :: l).
Proof. reflexivity. Qed.
Lemma In_join c sep ls : In c (join sep ls) -> In c sep \/ exists l, In l ls /\ In c l.
Proof.
  induction ls as [|x [|y ls] IH]; cbn [join]; intros H.
  - contradiction.
  - right. exists x. split; [now left|exact H].
  - apply in_app_or in H. destruct H as [H|H]; [right; exists x; split; [now left|exact H]|].
    apply in_app_or in H. destruct H as [H|H]; [now left|]. destruct (IH H) as [A|(l & A & B)]; [now left|]. right. exists l. split; [now right|exact B].
Qed.
Lemma splitlines_line l : forall acc s, one_line l -> splitlines acc (l ++ nl :: s) = (rev acc ++ l) :: splitlines [] s.
Proof.
  induction l as [|c l IH]; intros acc s H.
  - cbn. now rewrite app_nil_r.
  - inversion H; subst. cbn [app splitlines]. rewrite H2. rewrite IH by assumption. cbn [rev]. now rewrite <- app_assoc.
Qed.
Lemma splitlines_last l : forall acc, one_line l -> splitlines acc l = match rev acc ++ l with [] => [] | x => [x] end.
Proof.
  induction l as [|c l IH]; intros acc H.
  - cbn [splitlines]. rewrite app_nil_r. destruct acc as [|a acc]; [reflexivity|]. destruct (rev (a :: acc)) eqn:E; [|reflexivity].
    apply (f_equal (@length _)) in E. rewrite rev_length in E. discriminate.
  - inversion H; subst. cbn [splitlines]. rewrite H2. rewrite IH by assumption. cbn [rev]. now rewrite <- app_assoc.
Qed.
Definition last_line (content : str) : list str := match rev content with c :: _ => if is_nl c then [[]] else [] | [] => [] end.
Lemma last_line_app a b : b <> [] -> last_line (a ++ b) = last_line b.
Proof.
  intros H. unfold last_line. rewrite rev_app_distr. destruct (rev b) eqn:E; [|reflexivity].
  apply (f_equal (@rev _)) in E. rewrite rev_involutive in E. contradiction.
Qed.
Lemma last_line_one l : one_line l -> last_line l = [].
Proof.
  intros H. unfold last_line. destruct (rev l) as [|c r] eqn:E; [reflexivity|].
  assert (In c l) by (apply in_rev; rewrite E; now left). unfold one_line in H. rewrite Forall_forall in H. apply H in H0.
  apply break_cr in H0. unfold is_nl. destruct (aeqb_spec c nl); [tauto|reflexivity].
Qed.
Lemma read_join ls : ls <> [[]] -> Forall one_line ls ->
  splitlines [] (join [nl] ls) ++ last_line (join [nl] ls) = ls.
Proof.
  induction ls as [|x [|y ls] IH]; intros NE H.
  - reflexivity.
  - inversion H; subst. cbn [join]. rewrite splitlines_last, last_line_one by assumption. cbn [rev app]. destruct x; [congruence|reflexivity].
  - inversion H; subst. rewrite join_cons. cbn [app]. rewrite splitlines_line by assumption. cbn [rev app].
    destruct (list_eq_dec (list_eq_dec ascii_dec) (y :: ls) [[]]) as [E|E].
    + injection E as -> ->. cbn [join]. unfold last_line. rewrite rev_app_distr. reflexivity.
    + transitivity (x :: (splitlines [] (join [nl] (y :: ls)) ++ last_line (join [nl] (y :: ls)))); [|now rewrite (IH E H3)].
      rewrite (last_line_app x); [|discriminate]. cbn [app]. f_equal. f_equal.
      change (nl :: join [nl] (y :: ls)) with ([nl] ++ join [nl] (y :: ls)).
      destruct (join [nl] (y :: ls)) as [|c t] eqn:J; [|apply last_line_app; discriminate].
      exfalso. destruct ls as [|z ls]; [cbn in J; subst y; congruence|]. rewrite join_cons in J. apply app_eq_nil in J. destruct J as (_ & J). discriminate.
Qed.
Lemma join_no_cr ls : Forall one_line ls -> forall c, In c (join [nl] ls) -> c <> cr.
Proof.
  intros H c Hc. apply In_join in Hc. destruct Hc as [[<-|[]]|(l & Hl & Hc)]; [discriminate|].
  rewrite Forall_forall in H. specialize (H l Hl). unfold one_line in H. rewrite Forall_forall in H. now apply (break_cr c (H c Hc)).
Qed.
Lemma file_get_set fs n c : file_get (file_set fs n c) n = Some c.
Proof.
  induction fs as [|(m, d) fs IH]; cbn; [now rewrite seqb_refl|]. destruct (seqb m n) eqn:E; cbn; now rewrite E.
Qed.
Lemma file_get_set_other fs n m c : m <> n -> file_get (file_set fs n c) m = file_get fs m.
Proof.
  intros N. induction fs as [|(k, d) fs IH]; cbn.
  - destruct (seqb_spec n m); [congruence|reflexivity].
  - destruct (seqb_spec k n) as [->|K]; cbn.
    + destruct (seqb_spec n m); [congruence|reflexivity].
    + destruct (seqb k m); [reflexivity|exact IH].
Qed.
Lemma read_text_join ls b h s : ls <> [[]] -> Forall one_line ls ->
  read_text (join [nl] ls) b h s =
    let ls := if b then filter (fun e => negb (seqb e [])) ls else ls in
    let ls := if h then filter (fun e => negb (starts_with (L "#") (lstrip is_space e))) ls else ls in
    if s then map (fun e => strip_comment (S (length e)) e) ls else ls.
Proof.
  intros NE H. unfold read_text. rewrite universal_id by (now apply join_no_cr).
  fold (last_line (join [nl] ls)). rewrite (read_join ls NE H). reflexivity.
Qed.

Lemma lstrip_spec p s : exists ws, Forall (fun c => p c = true) ws /\ s = ws ++ lstrip p s /\
  match lstrip p s with c :: _ => p c = false | [] => True end.
Proof.
  induction s as [|c s (ws & A & B & C)]; [exists []; repeat split; constructor|]. cbn [lstrip]. destruct (p c) eqn:P.
  - exists (c :: ws). split; [now constructor|]. split; [cbn; now rewrite <- B|exact C].
  - exists []. split; [constructor|]. split; [reflexivity|exact P].
Qed.
Lemma comment_test e : starts_with (L "#") (lstrip is_space e) = true <-> comment_line e.
Proof.
  unfold starts_with, comment_line. cbn [L list_ascii_of_string length]. destruct (lstrip_spec is_space e) as (ws & A & B & C).
  split.
  - intros H. destruct (lstrip is_space e) as [|c r] eqn:E; [discriminate|]. cbn [firstn] in H.
    destruct (seqb_spec ["#"%char] [c]) as [K|]; [|discriminate]. injection K as <-. exists ws, r. split; [exact A|exact B].
  - intros (ws' & r & A' & ->).
    replace (lstrip is_space (ws' ++ ["#"%char] ++ r)) with ("#"%char :: r); [reflexivity|].
    clear - A'. induction ws' as [|c ws IH]; [reflexivity|]. inversion A'; subst. cbn [app lstrip]. rewrite H1. now apply IH.
Qed.

(** ** Comment stripping *)
Lemma until_quote_ok q w : forall acc t, ~ In q w -> until_quote q acc (w ++ q :: t) = Some (rev acc ++ w ++ [q], t).
Proof.
  induction w as [|c w IH]; intros acc t N; cbn [app until_quote].
  - now rewrite aeqb_refl.
  - destruct (aeqb_spec c q) as [->|_]; [exfalso; apply N; now left|]. rewrite IH by (intros H; apply N; now right).
    cbn [rev]. now rewrite <- app_assoc.
Qed.
Lemma strip_comment_segments segs : forall f tail, Forall segment_ok segs ->
  (tail = [] \/ exists r, tail = L ";" ++ r) -> length (concat (map segment_text segs) ++ tail) < f ->
  strip_comment f (concat (map segment_text segs) ++ tail) = concat (map segment_text segs).
Proof.
  induction segs as [|sg segs IH]; intros f tail OK T Lf.
  - cbn [map concat app] in *. destruct f as [|f]; [lia|]. destruct T as [->|(r & ->)]; reflexivity.
  - inversion OK; subst. cbn [map concat] in *. rewrite <- app_assoc in *. destruct sg as [w|q w]; cbn [segment_text segment_ok] in *.
    + destruct H1 as (N1 & N2 & N3). clear OK. revert f Lf. induction w as [|c w IHw]; intros f Lf; [cbn [app]; apply IH; assumption|].
      destruct f as [|f]; [lia|]. cbn [app strip_comment].
      destruct (aeqb_spec c dq) as [->|_]; [exfalso; apply N1; now left|].
      destruct (aeqb_spec c sq) as [->|_]; [exfalso; apply N2; now left|].
      destruct (aeqb_spec c (ch ";")) as [->|_]; [exfalso; apply N3; now left|].
      f_equal. apply IHw; [intros H; apply N1; now right|intros H; apply N2; now right|intros H; apply N3; now right|].
      cbn [app length] in Lf. lia.
    + destruct H1 as (Q & N). destruct f as [|f]; [lia|].
      replace (([q] ++ w ++ [q]) ++ concat (map segment_text segs) ++ tail) with (q :: w ++ q :: concat (map segment_text segs) ++ tail) in *
        by (cbn [app]; rewrite <- !app_assoc; reflexivity).
      assert (Lf' : length (concat (map segment_text segs) ++ tail) < f).
      { cbn [length] in Lf. rewrite app_length in Lf. cbn [length] in Lf. lia. }
      cbn [strip_comment]. destruct Q as [->| ->].
      * rewrite aeqb_refl. rewrite until_quote_ok by exact N. cbn [rev app]. rewrite IH by assumption. cbn [app]. now rewrite <- app_assoc.
      * change (aeqb sq dq) with false. rewrite aeqb_refl. cbn match. rewrite until_quote_ok by exact N. cbn [rev app]. rewrite IH by assumption. cbn [app]. now rewrite <- app_assoc.
Qed.
