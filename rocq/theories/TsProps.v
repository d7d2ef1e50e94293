(** C30 *)
From Coq Require Import String Ascii List Arith Bool Lia.
From Verif Require Import Base StrModel StrSpec TsModel TsSpec TsProofs5.
Import ListNotations.

(** C30.  A text of definitions — words, quoted texts, lists, tables, structures — is read as a dictionary that has exactly
    the keys written, each with its value, or the list of its values in the order of the text when it is written several
    times.  [means] and [holds] say what the value of each definition and the resulting dictionary are. *)
Theorem C30_reading : forall l tail, l <> [] -> Forall entry_ok l -> repeats_ok l -> tail_ok tail ->
  exists d ts, read_structure (document l tail) = Ok (Some d) /\ Forall2 means l ts /\ holds d l ts.
Proof. exact read_document. Qed.

(** the same from a file, once its comments are taken off *)
Theorem C30_file : forall fs name lines l tail,
  read_textfile fs name false true true = Ok lines -> join [nl] lines = document l tail ->
  l <> [] -> Forall entry_ok l -> repeats_ok l -> tail_ok tail ->
  exists d ts, read_textstructure fs name = Ok (Some d) /\ Forall2 means l ts /\ holds d l ts.
Proof.
  intros fs name lines l tail E J N F R T. unfold read_textstructure. rewrite E. cbn [bind]. rewrite J. now apply read_document.
Qed.

Lemma plain_frame k v : key_ok k -> frame_ok (Entry [] k false (L " ") (L " ") v []).
Proof.
  intros K. cbn [frame_ok]. split; [constructor|]. split; [exact K|]. split; [repeat constructor|]. split; [repeat constructor|].
  split; [intros [X|[]]; discriminate X|constructor].
Qed.
(** in words, for 'key = value' lines with bare values: no more, no less than what was written, in order *)
Theorem C30_lines : forall kvs : list (str * str), kvs <> [] ->
  Forall (fun kv => key_ok (fst kv) /\ flat_ok false (Word (snd kv))) kvs ->
  exists d, read_structure (join [nl] (map (fun kv => fst kv ++ L " = " ++ snd kv) kvs)) = Ok (Some d) /\ NoDup (map fst d) /\
    forall k, match map snd (filter (fun kv => if list_eq_dec ascii_dec (fst kv) k then true else false) kvs) with
              | [] => ~ In k (map fst d)
              | [v] => In (k, TStr v) d
              | vs => In (k, TList (map TStr vs)) d
              end.
Proof.
  intros kvs N F. set (mk := fun kv : str * str => Entry [] (fst kv) false (L " ") (L " ") (Word (snd kv)) []).
  destruct (read_document (map mk kvs) []) as (d & ts & E & M & ND & H).
  - now destruct kvs.
  - apply Forall_map. eapply Forall_impl; [|exact F]. intros kv (K & V). split; [|exact V]. apply plain_frame; exact K.
  - intros l1 e l2 El (a & b & l & A) _. exfalso. assert (I : In e (map mk kvs)) by (rewrite El; apply in_or_app; right; now left).
    apply in_map_iff in I as (kv & <- & _). discriminate A.
  - now left.
  - exists d. split; [|split; [exact ND|]].
    + rewrite <- E. unfold document. rewrite app_nil_r, map_map. f_equal. f_equal. apply map_ext. intros kv. cbn [mk entry_text value_text app].
      rewrite app_nil_r. reflexivity.
    + assert (Ts : ts = map (fun kv => TStr (snd kv)) kvs).
      { clear - M. revert ts M. induction kvs as [|kv kvs IH]; intros ts M; inversion M as [|? x ? ts' Mx Ms]; subst; [reflexivity|].
        unfold means in Mx. cbn in Mx. subst x. cbn [map]. f_equal. exact (IH ts' Ms). }
      intros k. specialize (H k).
      assert (V : values_of k (map mk kvs) ts = map TStr (map snd (filter (fun kv => if list_eq_dec ascii_dec (fst kv) k then true else false) kvs))).
      { subst ts. clear. induction kvs as [|kv kvs IH]; [reflexivity|]. cbn [map]. rewrite values_cons. cbn [filter]. change (key_of (mk kv)) with (fst kv).
        destruct (list_eq_dec ascii_dec (fst kv) k); cbn [map app]; rewrite IH;
          match goal with |- context [if (if ?x then true else false) then _ else _] => destruct x end; try contradiction; reflexivity. }
      match goal with |- match ?x with _ => _ end => assert (V' : values_of k (map mk kvs) ts = map TStr x) by exact V; rewrite V' in H;
        clear V V'; destruct x as [|v [|v2 vs]]; cbn [map collected] in H end.
      * intros I. apply in_map_iff in I as ([k' v] & <- & I). apply H in I. discriminate.
      * now apply H.
      * now apply H.
Qed.

(** and for a table: every column has the cells of its column, one for every row, empty where a row is short *)
Theorem C30_table : forall indent key tags rows foot tail,
  white indent -> key_ok key -> flat_ok false (Table tags rows foot) -> tail_ok tail ->
  exists cols, read_structure (indent ++ key ++ L "=" ++ value_text (Table tags rows foot) ++ tail) = Ok (Some [(key, TDict cols)]) /\
    map fst cols = map item_word tags /\
    forall i t, nth_error tags i = Some t -> In (item_word t, TList (map (fun r => TStr (cell i r)) rows)) cols.
Proof.
  intros indent key tags rows foot tail I K F T. set (e := Entry indent key false [] [] (Table tags rows foot) []).
  destruct (read_document [e] tail) as (d & ts & E & M & ND & H).
  - discriminate.
  - constructor; [|constructor]. split; [|exact F]. cbn [frame_ok e]. split; [exact I|]. split; [exact K|]. split; [constructor|]. split; [constructor|]. split; [easy|constructor].
  - intros l1 e0 l2 El (a & b & l & A) (e' & J & _). destruct l1 as [|x [|y l1]]; [easy|discriminate El|discriminate El].
  - exact T.
  - inversion M as [|? x ? ts' Mx Ms]; subst. inversion Ms; subst. cbn in Mx. subst x.
    assert (D : d = [(key, flat_meaning (Table tags rows foot))]).
    { assert (A : In (key, flat_meaning (Table tags rows foot)) d). { apply H. rewrite values_cons. cbn [key_of e app]. now destruct (list_eq_dec ascii_dec key key). }
      assert (B : forall p, In p d -> p = (key, flat_meaning (Table tags rows foot))).
      { intros [k v] J. apply H in J. rewrite values_cons in J. cbn [key_of e app] in J. destruct (list_eq_dec ascii_dec key k) as [<- |_]; cbn in J; [now injection J as <-|discriminate]. }
      destruct d as [|p [|q d]]; [easy|now rewrite (B p) by now left|]. exfalso. pose proof (B p ltac:(now left)). pose proof (B q ltac:(right; now left)). subst.
      inversion ND as [|? ? X]. apply X. now left. }
    exists (map (fun it => (item_word (snd it), TList (map (fun r => TStr (cell (fst it) r)) rows))) (combine (seq 0 (length tags)) tags)).
    split; [|split].
    + rewrite <- D at 1. rewrite <- E. unfold document. cbn [map join entry_text e app]. f_equal. rewrite app_nil_r, <- !app_assoc. reflexivity.
    + rewrite map_map. cbn [fst snd]. clear. generalize 0. induction tags as [|t l IH]; intros n; [reflexivity|]. cbn [length seq combine map]. f_equal. apply IH.
    + intros i t J. apply in_map_iff. exists (i, t). split; [reflexivity|]. clear - J.
      assert (G : forall s i, nth_error tags i = Some t -> In (s + i, t) (combine (seq s (length tags)) tags)).
      { clear. induction tags as [|a l IH]; intros s [|i] J; cbn in J |- *; try discriminate.
        - injection J as ->. left. now rewrite Nat.add_0_r.
        - right. replace (s + S i) with (S s + i) by lia. now apply IH. }
      now apply (G 0).
Qed.

(** a text with every kind of definition meets the hypotheses *)
Definition sample : list entry :=
  [Entry [nl] (L "name") false (L " ") (L " ") (Word (L "Mars = 4")) [];
   Entry (L "  ") (L "pts") true [] [] (Array true false [Item [] None (L "1") []; Item (L " ") (Some sq) (L "b b") [nl]]) (L " ");
   Entry [] (L "a.b") false [] [] (InQuote dq (L "x ")) [];
   Entry [] (L "cf") false (L " ") (L " ")
     (Struct [nl; " "%char]
        [Entry (L " ") (L "d") false [] [] (Word (L "1")) [];
         Entry [nl] (L "t") false [] [] (Table [Item [] None (L "p") []; Item (L " ") None (L "q") []] [([Bare (L "5"); Quoted dq (L "6 7")], L "5 ""6 7"""); ([Bare (L "8")], L " 8")] (L " ")) (L " ");
         Entry [] (L "d") false [] [] (Word (L "2")) []] (L " ")) [];
   Entry [] (L "name") false [] [] (Word (L "Moon")) []].
Lemma no_quote_start c w : c <> dq -> c <> sq -> unquoted (c :: w).
Proof. intros A B q u [-> | ->] E; injection E as E _; contradiction. Qed.
Ltac all_ok := repeat (constructor; [cbn; intuition discriminate|]); constructor.
Ltac frame := cbn [frame_ok]; split; [all_ok|split; [split; [discriminate|repeat constructor; left; reflexivity]|split; [all_ok|split; [all_ok|split; [cbn; intuition discriminate|all_ok]]]]].
Example C30_hypotheses_met : sample <> [] /\ Forall entry_ok sample /\ repeats_ok sample /\ tail_ok [nl; nl] /\
  read_structure (document sample [nl; nl]) = Ok (Some
    [(L "name", TList [TStr (L "Mars = 4"); TStr (L "Moon")]);
     (L "cf", TDict [(L "d", TList [TStr (L "1"); TStr (L "2")]);
                     (L "t", TDict [(L "p", TList [TStr (L "5"); TStr (L "8")]); (L "q", TList [TStr (L "6 7"); TStr []])])]);
     (L "a.b", TStr (L "x ")); (L "ptr_pts", TList [TStr (L "1"); TStr (L "b b")])]).
Proof.
  split; [discriminate|]. split; [|split; [|split; [right; exists [nl]; repeat constructor|vm_compute; reflexivity]]].
  - unfold sample. constructor; [|constructor; [|constructor; [|constructor; [|constructor; [|constructor]]]]]; unfold entry_ok; cbn [value_of].
    + split; [frame|]. cbn [flat_ok]. split; [intros K; exfalso; revert K; cbn; intuition discriminate|]. repeat split; try discriminate; try (cbn; intuition discriminate). apply no_quote_start; discriminate.
    + split; [frame|]. cbn [flat_ok]. split; [discriminate|]. split; [|cbn; intuition discriminate].
      constructor; [|constructor; [|constructor]]; cbn [item_ok].
      * split; [all_ok|]. split; [all_ok|]. split; [all_ok|]. split; [discriminate|]. split; [discriminate|apply no_quote_start; discriminate].
      * split; [all_ok|]. split; [all_ok|]. split; [all_ok|now right].
    + split; [frame|]. cbn [flat_ok]. split; [now left|]. split; [cbn; intuition discriminate|discriminate].
    + split; [frame|]. split; [discriminate|]. split; [all_ok|]. split; [all_ok|]. split; [discriminate|]. split.
      { intros l1 e l2 E (a & b & l & A) _. exfalso. assert (I : In e (l1 ++ e :: l2)) by (apply in_or_app; right; now left). rewrite <- E in I.
        destruct I as [<- |[<- |[<- |[]]]]; discriminate A. }
      constructor; [|constructor; [|constructor; [|constructor]]]; cbn [value_of].
      * split; [frame|]. cbn [flat_ok]. split; [intros K; exfalso; revert K; cbn; intuition discriminate|]. repeat split; try discriminate; try (cbn; intuition discriminate); [apply no_quote_start; discriminate|intros _; all_ok].
      * split; [frame|]. cbn [flat_ok]. split; [discriminate|]. split; [repeat constructor; cbn; intuition discriminate|].
        split; [|split; [reflexivity|split; [reflexivity|split; [|all_ok]]]].
        -- constructor; [|constructor; [|constructor]]; (split; [cbn [item_ok]|split; [repeat constructor|reflexivity]]);
             (split; [all_ok|]; split; [all_ok|]; split; [all_ok|]; split; [discriminate|]; split; [discriminate|apply no_quote_start; discriminate]).
        -- constructor; [|constructor; [|constructor]]; unfold row_ok; cbn [fst snd].
           ++ split; [apply (layout_cons is_space [] (Bare (L "5")) [Quoted dq (L "6 7")] (L " ""6 7""")); [constructor|apply (layout_last is_space (L " ") (Quoted dq (L "6 7"))); repeat constructor|now eexists _, _]|].
              split; [discriminate|]. split; [|split; [repeat constructor|all_ok]].
              constructor; [|constructor; [|constructor]].
              ** cbn. split; [discriminate|]. split; [repeat constructor|]. left. split; cbn; intuition discriminate.
              ** cbn. split; [now left|]. left. intuition discriminate.
           ++ split; [apply (layout_last is_space (L " ") (Bare (L "8"))); repeat constructor|].
              split; [discriminate|]. split; [|split; [repeat constructor|all_ok]].
              constructor; [|constructor]. cbn. split; [discriminate|]. split; [repeat constructor|]. left. split; cbn; intuition discriminate.
      * split; [frame|]. cbn [flat_ok]. split; [intros K; exfalso; revert K; cbn; intuition discriminate|]. repeat split; try discriminate; try (cbn; intuition discriminate); [apply no_quote_start; discriminate|intros _; all_ok].
    + split; [frame|]. cbn [flat_ok]. split; [intros K; exfalso; revert K; cbn; intuition discriminate|]. repeat split; try discriminate; try (cbn; intuition discriminate). apply no_quote_start; discriminate.
  - intros l1 e l2 E (a & b & l & A) (e' & I & K). exfalso. unfold sample in E.
    destruct l1 as [|e1 l1]; [easy|]. injection E as <- E. destruct l1 as [|e1 l1].
    { injection E as <- E. destruct I as [<- |[]]. discriminate K. }
    injection E as <- E. assert (J : In e (l1 ++ e :: l2)) by (apply in_or_app; right; now left). rewrite <- E in J.
    destruct J as [<- |[<- |[<- |[]]]]; discriminate A.
Qed.

(** C30 without its restrictions is false.  A key whose last value is a list takes the earlier values into that list: *)
Theorem C30_repeated_list_refuted :
  read_structure (L "a=1" ++ nl :: L "a=[2,3]") = Ok (Some [(L "a", TList (map TStr [L "1"; L "2"; L "3"]))]) /\
  read_structure (L "a=[1,2]" ++ nl :: L "a=[3,4]") = Ok (Some [(L "a", TList [TList [TStr (L "1"); TStr (L "2")]; TStr (L "3"); TStr (L "4")])]).
Proof. split; vm_compute; reflexivity. Qed.
(** an empty value takes the next line as its value if that is indented: *)
Theorem C30_empty_value_refuted :
  read_structure (L "a=" ++ nl :: L "  b=1" ++ nl :: L "c=2") = Ok (Some [(L "c", TStr (L "2")); (L "a", TStr (L "b=1"))]).
Proof. vm_compute. reflexivity. Qed.
(** a text block ends at the last line of the file that starts with a quotation mark, not at its own end: *)
Theorem C30_text_block_refuted :
  exists t, read_structure (L "a=""" ++ nl :: L "x" ++ nl :: L """" ++ nl :: L "b=""" ++ nl :: L "y" ++ nl :: L """") = Ok (Some [(L "a", TStr t)]).
Proof. eexists. vm_compute. reflexivity. Qed.
(** a structure inside a structure is cut off: d and e belong to s, and s has no other keys than d, p, e *)
Theorem C30_nested_refuted :
  exists v, read_structure (L "s={" ++ nl :: L "d=1" ++ nl :: L "p={" ++ nl :: L "q=2" ++ nl :: L "}" ++ nl :: L "e=3" ++ nl :: L "}") = Ok (Some v) /\
  forall w, v <> [(L "s", w)].
Proof. eexists. split; [vm_compute; reflexivity|]. discriminate. Qed.
Print Assumptions C30_reading.
Print Assumptions C30_file.
Print Assumptions C30_lines.
Print Assumptions C30_table.
