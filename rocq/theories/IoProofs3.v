(** Merging crater counts. *)
From Coq Require Import String Ascii List ZArith Reals Bool Lia Lra Permutation Sorted.
From Verif Require Import Base NumModel NumLemmas BinModel CountModel StrModel StrSpec StrProofs StrProofs2 StrProps CliModel FmtModel FmtSpec FmtProofs
  TsModel TsSpec TsProofs TsProofs2 TsProofs3 TsProofs4 TsProofs5 IoModel IoSpec IoProofs IoProofs2.
Import ListNotations.
Local Open Scope R_scope.

(** ** The characters of numbers *)
Definition num_char (c : ascii) : bool := is_digit c || mem c (L "+-.e").
Definition number_text (s : str) (x : R) : Prop := numeral s x \/ exponent_numeral s x.
Lemma digits_num s : all_digits s -> Forall (fun c => num_char c = true) s.
Proof. intros H. eapply Forall_impl; [|exact H]. intros c D. unfold num_char. now rewrite D. Qed.
Lemma numeral_chars s x : numeral s x -> Forall (fun c => num_char c = true) s /\ s <> [].
Proof.
  intros (neg & ip & fp & N & IP & FP & -> & _). split.
  - rewrite !Forall_app. split; [destruct neg; repeat constructor|]. split; [now apply digits_num|].
    destruct fp; [constructor|]. apply Forall_app. split; [repeat constructor|now apply digits_num].
  - destruct neg; [discriminate|]. destruct ip; [congruence|discriminate].
Qed.
Lemma number_chars s x : number_text s x -> Forall (fun c => num_char c = true) s /\ s <> [].
Proof.
  intros [N|(m & y & es & e & N & -> & _ & k & DK & NK & C)]; [now apply (numeral_chars s x)|].
  destruct (numeral_chars m y N) as [A B]. split.
  - rewrite !Forall_app. split; [exact A|]. split; [repeat constructor|].
    destruct C as [[-> _]|[-> _]]; rewrite !Forall_app; (split; [repeat constructor|now apply digits_num]).
  - destruct m; [congruence|discriminate].
Qed.
Lemma number_decimal s x : number_text s x -> decimal s x.
Proof. intros [N|N]; [now apply numeral_decimal|now apply exponent_numeral_decimal]. Qed.
Lemma fmt_g_number p x : exists y, significant (Nat.max p 1) x y /\ number_text (fmt_g p x) y.
Proof. destruct (fmt_g_spec p x) as (y & S & N & _). exists y. split; [exact S|exact N]. Qed.
Lemma num_char_facts c : num_char c = true ->
  is_space c = false /\ is_break c = false /\ ~ In c (dq :: sq :: L ";#={}*[(").
Proof. destruct c as [[] [] [] [] [] [] [] []]; intros H; try (vm_compute in H; discriminate H); (split; [reflexivity|]; split; [reflexivity|]; cbn; intuition discriminate). Qed.
Lemma num_Forall (P : ascii -> Prop) s : (forall c, num_char c = true -> P c) -> Forall (fun c => num_char c = true) s -> Forall P s.
Proof. intros H K. eapply Forall_impl; [|exact K]. exact H. Qed.

(** ** Lines without quotes and semicolons keep their text *)
Lemma strip_plain s : ~ In dq s -> ~ In sq s -> ~ In (ch ";") s -> strip_comment (S (length s)) s = s.
Proof.
  intros A B C. pose proof (strip_comment_segments [Plain s] (S (length s)) [] ltac:(repeat constructor; auto) (or_introl eq_refl)) as Q.
  cbn [map segment_text concat] in Q. rewrite !app_nil_r in Q. apply Q. lia.
Qed.
Definition clean (s : str) : Prop := Forall (fun c => is_break c = false /\ ~ In c (dq :: sq :: L ";")) s.
Lemma clean_one_line s : clean s -> one_line s.
Proof. intros H. eapply Forall_impl; [|exact H]. now intros c [A _]. Qed.
Lemma clean_strip s : clean s -> strip_comment (S (length s)) s = s.
Proof.
  intros H. apply strip_plain; intros K; apply (proj1 (Forall_forall _ _) H) in K; destruct K as [_ K]; apply K; cbn; auto.
Qed.
Lemma clean_app a b : clean (a ++ b) <-> clean a /\ clean b.
Proof. apply Forall_app. Qed.
Lemma clean_num s : Forall (fun c => num_char c = true) s -> clean s.
Proof.
  apply num_Forall. intros c H. destruct (num_char_facts c H) as (_ & A & B). split; [exact A|]. intros K. apply B. cbn in *. tauto.
Qed.
Definition clean_b (s : str) : bool := forallb (fun c => negb (is_break c) && negb (mem c (dq :: sq :: L ";"))) s.
Lemma clean_check s : clean_b s = true -> clean s.
Proof.
  unfold clean_b. rewrite forallb_forall. intros H. apply Forall_forall. intros c I. specialize (H c I). apply andb_prop in H. destruct H as [A B].
  apply negb_true_iff in A, B. split; [exact A|]. intros K. apply mem_In in K. congruence.
Qed.
(** reading a written file in which [keep] are the lines that are not comments *)
Lemma read_clean fs name ls keep : Forall one_line ls -> ls <> [[]] ->
  filter (fun e => negb (starts_with (L "#") (lstrip is_space e))) ls = keep -> Forall clean keep ->
  read_textfile (write_textfile fs name ls false) name false true true = Ok keep.
Proof.
  intros O N F C. unfold read_textfile, write_textfile. rewrite file_get_set. cbn match. f_equal. rewrite read_text_join by assumption. cbv zeta.
  rewrite F. rewrite <- (map_id keep) at 2. apply map_ext_in. intros e I. apply clean_strip. exact (proj1 (Forall_forall _ _) C e I).
Qed.

(** ** The merged file *)
Lemma pad_right_gap k s : exists n, pad_right k s = s ++ repeat (ch " ") n.
Proof. exists (k - length s)%nat. reflexivity. Qed.
Lemma repeat_blank n : Forall (fun c => is_space c = true) (repeat (ch " ") n) /\ clean (repeat (ch " ") n).
Proof. induction n as [|n [A B]]; cbn [repeat]; split; constructor; auto. split; [reflexivity|]. cbn. intuition discriminate. Qed.
Definition row_tokens (p : R * R) : list token := [Bare (fmt_g 6 (fst p)); Bare (fmt_g 6 (snd p))].
Lemma without_num bad s : Forall (fun c => num_char c = true) s -> Forall (fun c => In c (dq :: sq :: L ";#={}*[(")) bad -> without bad s.
Proof.
  intros H K. eapply num_Forall; [|exact H]. intros c N I. destruct (num_char_facts c N) as (_ & _ & B). apply B.
  exact (proj1 (Forall_forall _ _) K c I).
Qed.
Lemma bare_number s x : number_text s x -> token_ok is_space (Bare s).
Proof.
  intros N. destruct (number_chars s x N) as [A B]. split; [exact B|]. split; [eapply num_Forall; [|exact A]; intros c K; now apply num_char_facts|].
  left. split; intros K; apply (proj1 (Forall_forall _ _) A) in K; destruct (num_char_facts _ K) as (_ & _ & Q); apply Q; cbn; auto.
Qed.
Lemma merge_row_ok p : row_ok (row_tokens p, merge_row p) /\ clean (merge_row p) /\ starts_with (L "#") (lstrip is_space (merge_row p)) = false.
Proof.
  destruct (fmt_g_number 6 (fst p)) as (y1 & _ & N1). destruct (fmt_g_number 6 (snd p)) as (y2 & _ & N2).
  destruct (number_chars _ _ N1) as [A1 B1]. destruct (number_chars _ _ N2) as [A2 B2].
  unfold merge_row, row_tokens. destruct (pad_right_gap 12 (fmt_g 6 (fst p))) as [n ->]. destruct (repeat_blank n) as [RB RC].
  set (g1 := fmt_g 6 (fst p)) in *. set (g2 := fmt_g 6 (snd p)) in *. clearbody g1 g2. rewrite <- !app_assoc.
  assert (C : clean (g1 ++ repeat (ch " ") n ++ L "  " ++ g2)).
  { rewrite !clean_app. split; [now apply clean_num|]. split; [exact RC|]. split; [now apply clean_check|now apply clean_num]. }
  split; [|split; [exact C|]].
  - unfold row_ok. cbn [fst snd]. split; [|split; [discriminate|split; [apply Forall_cons; [exact (bare_number _ _ N1)|apply Forall_cons; [exact (bare_number _ _ N2)|constructor]]|split; [now apply clean_one_line|]]]].
    + apply (layout_cons is_space [] (Bare g1) [Bare g2] (repeat (ch " ") n ++ L "  " ++ g2)); [constructor| |].
      * rewrite app_assoc. apply layout_last. apply Forall_app. split; [exact RB|repeat constructor].
      * destruct n; cbn; eexists _, _; split; reflexivity.
    + unfold without. rewrite !Forall_app.
      split; [apply (without_num (L "={}")); [exact A1|repeat constructor; cbn; tauto]|].
      split; [|split; [repeat constructor; cbn; intuition discriminate|apply (without_num (L "={}")); [exact A2|repeat constructor; cbn; tauto]]].
      clear. induction n; cbn; constructor; auto. cbn. intuition discriminate.
  - destruct g1 as [|c g1]; [congruence|]. inversion A1; subst. destruct (num_char_facts c H1) as (S & _ & Q).
    cbn [app lstrip]. rewrite S. unfold starts_with. cbn [length L list_ascii_of_string firstn].
    match goal with |- seqb ?a ?b = false => destruct (seqb_spec a b) as [E|_]; [|reflexivity] end.
    exfalso. apply Q. injection E as <-. cbn. tauto.
Qed.
Definition merged_doc (show : R -> str) (a p : R) (craters : list (R * R)) : list entry :=
  [Entry [] (L "area") false (L " ") (L " ") (Word (show a)) [];
   Entry [] (L "perimeter") false (L " ") (L " ") (Word (show p)) [];
   Entry [] (L "crater") false (L " ") (L " ")
     (Table [Item [] None (L "diameter") []; Item (L " ") None (L "fraction") []] (map (fun c => (row_tokens c, merge_row c)) craters) []) []].
Definition kept_lines (show : R -> str) (a p : R) (craters : list (R * R)) : list str :=
  [L "area = " ++ show a; L "perimeter = " ++ show p; L "crater = {diameter, fraction"] ++ map merge_row craters ++ [L "}"].
Lemma join_rows (h : str) rows t : join [nl] (h :: rows ++ [t]) = h ++ [nl] ++ concat (map (fun r => r ++ [nl]) rows) ++ t.
Proof.
  revert h. induction rows as [|r rows IH]; intros h; [reflexivity|]. cbn [app]. rewrite join_cons, IH. cbn [map concat]. now rewrite <- !app_assoc.
Qed.
Lemma merged_text show a p craters : join [nl] (kept_lines show a p craters) = document (merged_doc show a p craters) [].
Proof.
  unfold kept_lines, document, merged_doc. cbn [map app]. rewrite !join_cons. rewrite join_rows. cbn [join].
  rewrite app_nil_r. cbn [entry_text value_text app map]. rewrite !app_nil_r.
  rewrite !map_map. cbn [snd].
  reflexivity.
Qed.

Lemma word_number deep s x : number_text s x -> deep = false -> flat_ok deep (Word s).
Proof.
  intros N ->. destruct (number_chars s x N) as [A B]. cbn [flat_ok].
  assert (H : forall c, In c s -> num_char c = true) by (apply (proj1 (Forall_forall _ _)); exact A).
  assert (HD : num_char (hd " "%char s) = true) by (destruct s; [congruence|apply H; now left]).
  assert (LS : num_char (last s " "%char) = true) by (apply H; destruct (exists_last B) as (u & v & ->); rewrite last_last; apply in_or_app; right; now left).
  split; [intros K; exfalso; apply H in K; vm_compute in K; discriminate|].
  split; [now apply num_char_facts|]. split; [now apply num_char_facts|].
  split. { intros K. destruct (num_char_facts _ HD) as (_ & _ & Q). apply Q. cbn in *. tauto. }
  split; [|discriminate]. intros q u Hq E. assert (K : In q s) by (rewrite E; now left). apply H in K.
  destruct (num_char_facts q K) as (_ & _ & Q). apply Q. destruct Hq; subst; cbn; auto.
Qed.
Lemma merged_ok show a p craters : number_text (show a) a -> number_text (show p) p ->
  Forall entry_ok (merged_doc show a p craters) /\ repeats_ok (merged_doc show a p craters).
Proof.
  intros NA NP. split.
  - assert (KF : forall k, Forall (fun c => is_word c = true) k -> k <> [] -> key_ok k).
    { intros k H N. split; [exact N|]. eapply Forall_impl; [|exact H]. auto. }
    assert (FO : forall k v, Forall (fun c => is_word c = true) k -> k <> [] -> frame_ok (Entry [] k false (L " ") (L " ") v [])).
    { intros k v H N. cbn [frame_ok]. split; [constructor|]. split; [now apply KF|]. split; [repeat constructor|]. split; [repeat constructor|].
      split; [cbn; intuition discriminate|constructor]. }
    unfold merged_doc. apply Forall_cons; [|apply Forall_cons; [|apply Forall_cons; [|constructor]]].
    + split; [apply FO; [repeat constructor|discriminate]|]. cbn [value_of]. eapply word_number; [eassumption|reflexivity].
    + split; [apply FO; [repeat constructor|discriminate]|]. cbn [value_of]. eapply word_number; [eassumption|reflexivity].
    + split; [apply FO; [repeat constructor|discriminate]|]. cbn [value_of flat_ok].
      split; [discriminate|]. split. { cbn [map item_word]. repeat constructor; cbn; intuition discriminate. }
      split.
      { assert (IT : forall b w, blanks b -> Forall (fun c => is_alpha c = true) w -> w <> [] ->
          item_ok (L " ") (L ",{}=") (Item b None w []) /\ one_line (item_word (Item b None w [])) /\ (@None ascii) = None).
        { intros b w Hb Hw Nw. assert (AL : forall c, is_alpha c = true -> is_break c = false /\ c <> " "%char /\ ~ In c (L ",{}=") /\ c <> dq /\ c <> sq).
          { clear. intros [[] [] [] [] [] [] [] []] H; try (vm_compute in H; discriminate H); (split; [reflexivity|]; split; [discriminate|]; split; [cbn; intuition discriminate|split; discriminate]). }
          cbn [item_ok item_word]. split; [|split; [|reflexivity]].
          - split; [eapply Forall_impl; [|exact Hb]; intros c ->; cbn; auto|]. split; [constructor|].
            split; [eapply Forall_impl; [|exact Hw]; intros c K; now apply AL|].
            split; [destruct w; [congruence|]; inversion Hw; subst; cbn; now apply AL|].
            split; [destruct (exists_last Nw) as (u & v & E); rewrite E, last_last; apply AL; apply (proj1 (Forall_forall _ _) Hw); rewrite E; apply in_or_app; right; now left|].
            intros q u Hq E. assert (K : In q w) by (rewrite E; now left). apply (proj1 (Forall_forall _ _) Hw) in K. apply AL in K. destruct Hq; subst; tauto.
          - eapply Forall_impl; [|exact Hw]. intros c K. now apply AL. }
        apply Forall_cons; [apply IT; [constructor|repeat constructor|discriminate]|].
        apply Forall_cons; [apply IT; [repeat constructor|repeat constructor|discriminate]|constructor]. }
      split; [reflexivity|]. split; [discriminate|]. split; [|constructor].
      rewrite Forall_map. apply Forall_forall. intros c _. apply merge_row_ok.
  - intros l1 e l2 E (x & y & z & V). exfalso. unfold merged_doc in E.
    destruct l1 as [|? [|? [|? [|? ?]]]]; cbn in E; injection E; intros; subst; cbn in V; discriminate.
Qed.

(** ** merge_cratercounts *)
Definition total (f : count -> R) (cs : list count) : R := fold_right Rplus 0 (map f cs).
Definition all_craters (cs : list count) : list (R * R) := flat_map (fun c => cc_craters (ct c)) cs.
Definition perimeter_of (c : count) : R := match ct_perimeter c with Some p => p | None => 0 end.
Lemma merge_loop_ok shp fs names cs : forall cr a p,
  Forall2 (fun n c => open_count shp fs n = Ok c /\ cc_prebinned (ct c) = false /\ ct_perimeter c <> None) names cs ->
  merge_loop shp fs names cr a p = Ok (cr ++ all_craters cs, a + total (fun c => cc_area (ct c)) cs, p + total perimeter_of cs).
Proof.
  intros cr a p F. revert cr a p. induction F as [|n c names cs (O & B & P) F IH]; intros cr a p; cbn [merge_loop].
  - unfold all_craters, total. cbn. rewrite app_nil_r, !Rplus_0_r. reflexivity.
  - rewrite O. cbn [bind]. rewrite B. destruct (ct_perimeter c) as [q|] eqn:Q; [|congruence]. rewrite IH.
    unfold all_craters, total, perimeter_of. cbn [flat_map map fold_right]. rewrite Q, <- app_assoc. rewrite !Rplus_assoc. reflexivity.
Qed.
Lemma merge_loop_none shp fs names1 cs1 n c names2 : forall cr a p,
  Forall2 (fun n c => open_count shp fs n = Ok c /\ cc_prebinned (ct c) = false /\ ct_perimeter c <> None) names1 cs1 ->
  open_count shp fs n = Ok c -> cc_prebinned (ct c) = false -> ct_perimeter c = None ->
  merge_loop shp fs (names1 ++ n :: names2) cr a p = Err TypeError.
Proof.
  intros cr a p F O B P. revert cr a p. induction F as [|n' c' names cs (O' & B' & P') F IH]; intros cr a p; cbn [merge_loop app].
  - rewrite O. cbn [bind]. now rewrite B, P.
  - rewrite O'. cbn [bind]. rewrite B'. destruct (ct_perimeter c') as [q|]; [|congruence]. apply IH.
Qed.
Lemma merge_loop_prebinned shp fs names1 cs1 n c names2 : forall cr a p,
  Forall2 (fun n c => open_count shp fs n = Ok c /\ cc_prebinned (ct c) = false /\ ct_perimeter c <> None) names1 cs1 ->
  open_count shp fs n = Ok c -> cc_prebinned (ct c) = true ->
  merge_loop shp fs (names1 ++ n :: names2) cr a p = Err SysExit.
Proof.
  intros cr a p F O B. revert cr a p. induction F as [|n' c' names cs (O' & B' & P') F IH]; intros cr a p; cbn [merge_loop app].
  - rewrite O. cbn [bind]. now rewrite B.
  - rewrite O'. cbn [bind]. rewrite B'. destruct (ct_perimeter c') as [q|]; [|congruence]. apply IH.
Qed.
Lemma one_line_no_newline s : one_line s -> no_newline s.
Proof. intros H K. apply (proj1 (Forall_forall _ _) H) in K. discriminate K. Qed.
Lemma filename_pieces f code : one_line f -> (forall c, In c code -> c = "p"%char \/ c = "n"%char \/ c = "e"%char) ->
  exists r, filename f code None None 4 = Ok r /\ one_line r.
Proof.
  intros O C. destruct (C25_pieces 4 f (one_line_no_newline f O)) as (p & n & e & E & _ & _ & _ & _ & H).
  exists (flat_map (piece p n e [] []) code). split.
  - apply H.
    + intros c I. destruct (C c I) as [->|[->| ->]]; split; discriminate.
    + intros I. destruct (C _ I) as [K|[K|K]]; discriminate.
    + intros I. destruct (C _ I) as [K|[K|K]]; discriminate.
  - subst f. unfold one_line in O. rewrite !Forall_app in O. destruct O as (O1 & O2 & O3).
    apply Forall_flat_map. apply Forall_forall. intros c I. destruct (C c I) as [->|[->| ->]]; assumption.
Qed.
Lemma filename_mapM code names : Forall one_line names -> (forall c, In c code -> c = "p"%char \/ c = "n"%char \/ c = "e"%char) ->
  exists rs, mapM (fun f => filename f code None None 4) names = Ok rs /\ Forall one_line rs.
Proof.
  intros O C. induction O as [|f names O _ (rs & M & OR)]; [exists []; split; [reflexivity|constructor]|].
  destruct (filename_pieces f code O C) as (r & F & ORr). exists (r :: rs). split; [|now constructor]. cbn. rewrite F. cbn [bind]. now rewrite M.
Qed.
Lemma merge_code f : one_line f -> exists r, filename f (L "pn1") (Some (L ".diam")) None 4 = Ok (r ++ L ".diam").
Proof.
  intros O. destruct (C25_replace_extension 4 f (L ".diam") (one_line_no_newline f O)) as (b & e & _ & _ & _ & H). eauto.
Qed.
Lemma join_one_line sep ls : one_line sep -> Forall one_line ls -> one_line (join sep ls).
Proof.
  intros S F. apply Forall_forall. intros c I. apply In_join in I. destruct I as [I|(l & Il & I)].
  - exact (proj1 (Forall_forall _ _) S c I).
  - apply (proj1 (Forall_forall _ _) F) in Il. exact (proj1 (Forall_forall _ _) Il c I).
Qed.
Lemma sole_merged show a p craters e : In e (merged_doc show a p craters) -> sole (merged_doc show a p craters) e.
Proof.
  unfold merged_doc. intros [<-|[<-|[<-|[]]]].
  - eexists [], _. split; [reflexivity|]. cbn. repeat constructor; cbn; discriminate.
  - eexists [_], _. split; [reflexivity|]. cbn. repeat constructor; cbn; discriminate.
  - eexists [_; _], _. split; [reflexivity|]. cbn. repeat constructor; cbn; discriminate.
Qed.
Definition six (p q : R * R) : Prop := significant 6 (fst p) (fst q) /\ significant 6 (snd p) (snd q).
Lemma merged_numbers craters : exists out, Forall2 six craters out /\
  numbers_in [L "diameter"; L "fraction"] (map (fun c => (row_tokens c, merge_row c)) craters) (L "diameter") (map fst out) /\
  numbers_in [L "diameter"; L "fraction"] (map (fun c => (row_tokens c, merge_row c)) craters) (L "fraction") (map snd out).
Proof.
  assert (K : exists out, Forall2 (fun c q => six c q /\ decimal (fmt_g 6 (fst c)) (fst q) /\ decimal (fmt_g 6 (snd c)) (snd q)) craters out).
  { induction craters as [|c craters (out & IH)]; [exists []; constructor|].
    destruct (fmt_g_decimal 6 (fst c)) as (y1 & S1 & D1). destruct (fmt_g_decimal 6 (snd c)) as (y2 & S2 & D2).
    exists ((y1, y2) :: out). constructor; [|exact IH]. cbn [fst snd]. repeat split; assumption. }
  destruct K as (out & K). exists out. split; [|split].
  - induction K; constructor; tauto.
  - exists 0%nat. split; [reflexivity|]. induction K as [|c q cs qs H K IH]; cbn; constructor; [|exact IH]. unfold cell. cbn. tauto.
  - exists 1%nat. split; [reflexivity|]. induction K as [|c q cs qs H K IH]; cbn; constructor; [|exact IH]. unfold cell. cbn. tauto.
Qed.
Lemma combine_fst_snd {A B} (l : list (A * B)) : combine (map fst l) (map snd l) = l.
Proof. induction l as [|[a b] l IH]; [reflexivity|]. cbn. now rewrite IH. Qed.
Lemma merged_kept show ns a p craters : Forall one_line ns ->
  number_text (show a) a -> number_text (show p) p ->
  Forall one_line (merge_lines show ns a p craters) /\
  filter (fun e => negb (starts_with (L "#") (lstrip is_space e))) (merge_lines show ns a p craters) = kept_lines show a p craters /\
  Forall clean (kept_lines show a p craters).
Proof.
  intros NS NA NP. destruct (number_chars _ _ NA) as [CA _]. destruct (number_chars _ _ NP) as [CP _].
  assert (C : Forall clean (kept_lines show a p craters)).
  { unfold kept_lines. apply Forall_app. split.
    - apply Forall_cons; [apply clean_app; split; [now apply clean_check|now apply clean_num]|].
      apply Forall_cons; [apply clean_app; split; [now apply clean_check|now apply clean_num]|].
      apply Forall_cons; [now apply clean_check|constructor].
    - apply Forall_app. split; [rewrite Forall_map; apply Forall_forall; intros c _; apply merge_row_ok|].
      apply Forall_cons; [now apply clean_check|constructor]. }
  split; [|split; [|exact C]].
  - assert (O : Forall one_line (kept_lines show a p craters)) by (eapply Forall_impl; [|exact C]; exact clean_one_line).
    unfold kept_lines in O. unfold merge_lines. rewrite !Forall_app in *. destruct O as (O1 & O2 & O3).
    inversion O1 as [|? ? Oa O1']; subst. inversion O1' as [|? ? Op O1'']; subst. inversion O1'' as [|? ? Oc _]; subst.
    split; [repeat (apply Forall_cons; [apply clean_one_line, clean_check; reflexivity|]); constructor|].
    split. { rewrite Forall_map. eapply Forall_impl; [|exact NS]. intros n On. apply Forall_app. split; [repeat constructor|exact On]. }
    split; [|split; assumption].
    apply Forall_cons; [apply clean_one_line, clean_check; reflexivity|]. apply Forall_cons; [exact Oa|]. apply Forall_cons; [exact Op|].
    apply Forall_cons; [apply clean_one_line, clean_check; reflexivity|]. apply Forall_cons; [exact Oc|constructor].
  - unfold merge_lines. rewrite !filter_app.
    assert (F1 : filter (fun e => negb (starts_with (L "#") (lstrip is_space e))) [L "# Merged crater diameter file"; L "#----------------------------"; L "#"] = []) by reflexivity.
    rewrite F1.
    match goal with |- context [?X] => match X with filter _ (map _ ns) => assert (F2 : X = []) end end.
    { clear. induction ns as [|n ns IH]; [reflexivity|]. cbn [map filter]. replace (negb _) with false by reflexivity. exact IH. }
    rewrite F2. cbn [app].
    match goal with |- ?X ++ ?Y ++ _ = _ =>
      assert (F3 : X = [L "area = " ++ show a; L "perimeter = " ++ show p; L "crater = {diameter, fraction"]) by reflexivity;
      assert (F4 : Y = map merge_row craters) end.
    { clear. induction craters as [|c cs IH]; [reflexivity|]. cbn [map filter]. destruct (merge_row_ok c) as (_ & _ & ->). cbn [negb]. now rewrite IH. }
    rewrite F3, F4. reflexivity.
Qed.
Theorem merge_spec show shp fs arg out ts cs :
  layout is_space ts arg -> Forall (token_ok is_space) ts -> (2 <= length ts)%nat ->
  Forall one_line (map token_word ts) -> (forall o, out = Some o -> one_line o) ->
  Forall2 (fun n c => open_count shp fs n = Ok c /\ cc_prebinned (ct c) = false /\ ct_perimeter c <> None) (map token_word ts) cs ->
  let a := total (fun c => cc_area (ct c)) cs in let p := total perimeter_of cs in
  number_text (show a) a -> number_text (show p) p -> all_craters cs <> [] ->
  exists fs' dest sixes c,
    merge_cratercounts show shp fs arg out = Ok (fs', dest) /\ (exists r, dest = r ++ L ".diam") /\
    (forall o, out = Some o -> o <> [] -> filename o (L "pn1") (Some (L ".diam")) None 4 = Ok dest) /\
    (forall n, n <> dest -> file_get fs' n = file_get fs n) /\
    read_diam fs' dest = Ok c /\ ct_buffered c = false /\
    Forall2 six (all_craters cs) sixes /\ cc_craters (ct c) = sort (fun p q => pair_leb q p) sixes /\ cc_area (ct c) = a.
Proof.
  intros LY TK N2 OL OO F a p NA NP NE. set (names := map token_word ts) in *.
  assert (QS : quoted_split is_space arg = names).
  { unfold names. eapply quoted_split_layout; eauto. }
  destruct (filename_mapM (L "n") names OL) as (ns0 & M0 & O0); [cbn; intuition|].
  destruct (filename_mapM (L "ne") names OL) as (ns & M & ON); [cbn; intuition|].
  set (out0 := match out with Some (c :: o) => c :: o | _ => join (L "_") (sort str_leb ns0) end).
  assert (OUT : one_line out0).
  { assert (J : one_line (join (L "_") (sort str_leb ns0))).
    { apply join_one_line; [repeat constructor|]. eapply Permutation_Forall; [apply sort_perm|exact O0]. }
    unfold out0. destruct out as [[|c o]|]; auto. }
  destruct (merge_code out0 OUT) as (r & FN).
  destruct (merged_numbers (all_craters cs)) as (sixes & SX & D1 & D2).
  destruct (merged_kept show ns a p (all_craters cs) ON NA NP) as (K1 & K2 & K3).
  set (fs' := write_textfile fs (r ++ L ".diam") (merge_lines show ns a p (all_craters cs)) false).
  assert (RT : read_textfile fs' (r ++ L ".diam") false true true = Ok (kept_lines show a p (all_craters cs))).
  { apply read_clean; auto. discriminate. }
  destruct (merged_ok show a p (all_craters cs) NA NP) as (E1 & E2).
  assert (SF : structure_file fs' (r ++ L ".diam") (merged_doc show a p (all_craters cs))).
  { exists (kept_lines show a p (all_craters cs)), []. split; [exact RT|]. split; [apply merged_text|]. split; [discriminate|]. split; [exact E1|]. split; [exact E2|now left]. }
  assert (TE : table_entry (merged_doc show a p (all_craters cs)) (L "crater") [L "diameter"; L "fraction"] (map (fun c => (row_tokens c, merge_row c)) (all_craters cs))).
  { eexists (nth 2 (merged_doc show a p (all_craters cs)) (Entry [] [] false [] [] (Word []) [])), _, _. split; [apply sole_merged; cbn; auto|]. split; [reflexivity|]. split; reflexivity. }
  assert (TX : text_entry (merged_doc show a p (all_craters cs)) (L "area") (show a)).
  { eexists (nth 0 (merged_doc show a p (all_craters cs)) (Entry [] [] false [] [] (Word []) [])). split; [apply sole_merged; cbn; auto|]. split; [reflexivity|left; reflexivity]. }
  exists fs', (r ++ L ".diam"), sixes. eexists. split; [|split; [|split; [|split; [|split; [|split; [|split; [|split]]]]]]].
  - unfold merge_cratercounts. rewrite QS. destruct (Nat.ltb_spec (length names) 2) as [Q|_]; [unfold names in Q; rewrite map_length in Q; lia|].
    assert (X : (match out with
                | Some (c :: o) => Ok (c :: o)
                | _ => do! ns <- filename_list names (L "n") None None 4; Ok (join (L "_") (sort str_leb ns))
                end) = Ok out0).
    { unfold filename_list. rewrite M0. unfold out0. destruct out as [[|c o]|]; reflexivity. }
    rewrite X. cbn [bind]. rewrite FN. cbn [bind]. rewrite (merge_loop_ok shp fs names cs [] 0 0 F). cbn [bind app]. rewrite !Rplus_0_l.
    rewrite M. cbn [bind]. reflexivity.
  - eauto.
  - intros o -> No. unfold out0 in FN. destruct o; [congruence|exact FN].
  - intros n Nn. unfold fs', write_textfile. now apply file_get_set_other.
  - rewrite (read_diam_normal fs' _ _ _ _ SF TE ltac:(destruct (all_craters cs); [congruence|discriminate]) (map fst sixes) (map snd sixes) (show a) a); [reflexivity|exact D1|left; exact D2|cbn; intuition discriminate|exact TX|now apply number_decimal].
  - reflexivity.
  - exact SX.
  - cbn. now rewrite combine_fst_snd.
  - reflexivity.
Qed.
(** six figures or fewer survive unchanged *)
Lemma significant_exact d x y m k : (1 <= d)%nat -> significant d x y -> x = IZR m * powerRZ 10 k -> (Z.abs m < 10 ^ Z.of_nat d)%Z -> y = x.
Proof.
  intros D [[-> ->]|(e & [B1 B2] & (n & -> & H & _))] E M; [reflexivity|].
  set (u := powerRZ 10 (e - Z.of_nat d + 1)) in *. assert (U : 0 < u) by (apply powerRZ_lt; lra).
  assert (K : (e - Z.of_nat d + 1 <= k)%Z).
  { apply Znot_gt_le. intros G. assert (A : Rabs x < powerRZ 10 e).
    { rewrite E, Rabs_mult, (Rabs_pos_eq (powerRZ 10 k)) by (left; apply powerRZ_lt; lra).
      apply Rlt_le_trans with (powerRZ 10 (Z.of_nat d) * powerRZ 10 k).
      - apply Rmult_lt_compat_r; [apply powerRZ_lt; lra|]. rewrite <- abs_IZR. change (powerRZ 10 (Z.of_nat d)) with (ten (Z.of_nat d)). rewrite ten_IZR by lia. now apply IZR_lt.
      - rewrite <- powerRZ_add by lra. destruct (Z.eq_dec (Z.of_nat d + k) e) as [->|N]; [lra|]. left. apply ten_lt. lia. }
    lra. }
  assert (X : exists m', x = IZR m' * u).
  { exists (m * 10 ^ (k - (e - Z.of_nat d + 1)))%Z. rewrite E, mult_IZR, <- ten_IZR by lia. unfold u, ten. rewrite Rmult_assoc, <- powerRZ_add by lra. do 2 f_equal. lia. }
  destruct X as [m' X]. rewrite X in *. replace (IZR m' * u - IZR n * u) with (IZR (m' - n) * u) in H by (rewrite minus_IZR; ring).
  rewrite Rabs_mult, (Rabs_pos_eq u) in H by lra. rewrite <- abs_IZR in H.
  assert (Q : IZR (Z.abs (m' - n)) <= 1 / 2) by (apply Rmult_le_reg_r with u; lra).
  assert (Q' : (Z.abs (m' - n) < 1)%Z) by (apply lt_IZR; lra). replace n with m' by lia. reflexivity.
Qed.
