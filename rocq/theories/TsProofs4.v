(** Structures and whole texts. *)
From Coq Require Import String Ascii List Arith Bool Lia.
From Verif Require Import Base StrModel StrSpec StrProofs StrProofs2 CliModel CliSpec CliProofs CliProofs2 CliProofs3 TsModel TsSpec TsProofs TsProofs2 TsProofs3.
Import ListNotations.

Lemma in_join_items c l : In c (join (L ",") (map item_text l)) -> c = ","%char \/ exists p, In p l /\ In c (item_text p).
Proof.
  intros I. apply In_join in I as [I|(s & I & J)]; [left; cbn in I; intuition|right].
  apply in_map_iff in I as (p & <- & I). eauto.
Qed.
(** ** The text of a value *)
Lemma flat_last deep v : flat_ok deep v -> is_space (last (value_text v) " "%char) = false.
Proof.
  destruct v as [w|q w|star round l|tags rows foot|]; cbn [flat_ok value_text].
  - tauto.
  - intros (Q & _). cbn [app]. rewrite app_comm_cons, last_last. destruct Q as [-> | ->]; reflexivity.
  - intros _. rewrite !app_assoc. destruct round; cbn [L list_ascii_of_string]; now rewrite last_last.
  - intros _. rewrite !app_assoc. cbn [L list_ascii_of_string]. now rewrite last_last.
  - easy.
Qed.
Definition table_body (tags : list item) (rows : list (list token * str)) (foot : str) : str :=
  join (L ",") (map item_text tags) ++ [nl] ++ concat (map (fun r => snd r ++ [nl]) rows) ++ foot.
Lemma table_text tags rows foot : value_text (Table tags rows foot) = "{"%char :: table_body tags rows foot ++ ["}"%char].
Proof. unfold table_body. cbn [value_text]. now rewrite <- !app_assoc. Qed.
Lemma table_body_no deep tags rows foot c : flat_ok deep (Table tags rows foot) -> In c (L "={}") -> ~ In c (table_body tags rows foot).
Proof.
  intros (_ & _ & F & _ & _ & R & B) C I. unfold table_body in I.
  assert (C2 : In c (L ",{}=")) by (cbn in C |- *; tauto).
  apply in_app_or in I as [I|I].
  { apply in_join_items in I as [-> |(p & I & J)]; [cbn in C; intuition discriminate|].
    revert J. apply tag_no; [|exact C2]. now apply (proj1 (Forall_forall _ _) F). }
  apply in_app_or in I as [[<- |[]]|I]; [cbn in C; intuition discriminate|].
  apply in_app_or in I as [I|I].
  - apply in_concat in I as (x & I & J). apply in_map_iff in I as (r & <- & I). apply (proj1 (Forall_forall _ _) R) in I as (_ & _ & _ & _ & W).
    apply in_app_or in J as [J|[<- |[]]]; [|cbn in C; intuition discriminate]. now apply (proj1 (Forall_forall _ _) W) in J.
  - apply (proj1 (Forall_forall _ _) B) in I. subst c. cbn in C; intuition discriminate.
Qed.
Lemma flat_eq deep v : flat_ok deep v -> In nl (value_text v) -> ~ In "="%char (value_text v) \/ continued (value_text v).
Proof.
  destruct v as [w|q w|star round l|tags rows foot|].
  - intros (N & _) I. right. now apply N.
  - intros (Q & N & _) I. exfalso. cbn in I. destruct I as [I|I]; [destruct Q as [-> | ->]; discriminate|].
    apply in_app_or in I as [I|[I|[]]]; [contradiction|destruct Q as [-> | ->]; discriminate].
  - intros (_ & _ & H) I. left. now apply H.
  - intros K _. left. rewrite table_text. intros [I|I]; [discriminate|]. apply in_app_or in I as [I|[I|[]]]; [|discriminate].
    revert I. apply (table_body_no deep); [exact K|cbn; tauto].
  - easy.
Qed.
Lemma flat_brace deep v : flat_ok deep v -> hd " "%char (value_text v) = "{"%char -> exists c t, value_text v = "{"%char :: c :: t /\ is_space c = false.
Proof.
  destruct v as [w|q w|star round l|tags rows foot|].
  - intros (_ & _ & _ & N & _) E. exfalso. apply N. cbn [value_text] in E. rewrite E. now left.
  - intros (Q & _) E. cbn in E. destruct Q as [-> | ->]; discriminate.
  - intros _ E. destruct star, round; discriminate E.
  - intros (_ & _ & _ & H & _) _. cbn [value_text]. destruct (join (L ",") (map item_text tags)) as [|c t]; [discriminate H|]. cbn [hd] in H.
    eexists c, _. split; [reflexivity|exact H].
  - easy.
Qed.
Lemma flat_quote deep v : flat_ok deep v -> hd " "%char (value_text v) = dq -> exists w, value_text v = dq :: w ++ [dq] /\ ~ In nl w.
Proof.
  destruct v as [w|q w|star round l|tags rows foot|].
  - intros (_ & _ & _ & N & _) E. exfalso. apply N. cbn [value_text] in E. rewrite E. apply in_or_app. right. now left.
  - intros (Q & N & _) E. cbn in E. subst q. now exists w.
  - intros _ E. destruct star, round; discriminate E.
  - intros _ E. discriminate E.
  - easy.
Qed.
Lemma flat_hd deep v : flat_ok deep v -> is_space (hd " "%char (value_text v)) = false.
Proof.
  destruct v as [w|q w|star round l|tags rows foot|].
  - now intros (_ & H & _).
  - intros (Q & _). cbn. destruct Q as [-> | ->]; reflexivity.
  - intros _. destruct star, round; reflexivity.
  - reflexivity.
  - easy.
Qed.
Lemma value_re_flat deep v b trail more r : flat_ok deep v -> bol b = false -> blanks trail -> key_line more r ->
  value_re b (value_text v ++ trail ++ nl :: more) = Some (FValue (value_text v ++ trail ++ [nl]), r).
Proof.
  intros K B T KL. apply value_line; auto.
  - now apply (flat_last deep).
  - now apply (flat_eq deep).
  - now apply (flat_brace deep).
  - now apply (flat_quote deep).
Qed.

(** ** The inside of a structure *)
Section Walk.
  Variables (K : str -> str -> option (found * str)) (res : found * str).
  Lemma walk_plain x : forall f b s, length (x ++ s) <= f -> ~ In "{"%char x -> ~ In "}"%char x ->
    (forall x1 x2, x = x1 ++ x2 -> x2 <> [] -> K (rev x1 ++ b) (x2 ++ s) = None) ->
    (forall f, length s <= f -> zstruct f (rev x ++ b) s K = Some res) ->
    zstruct f b (x ++ s) K = Some res.
  Proof.
    induction x as [|c x IH]; intros f b s Lf N1 N2 N G; [now apply G|].
    destruct f as [|f]; [cbn in Lf; lia|]. cbn [app zstruct]. rewrite (N [] (c :: x) eq_refl ltac:(easy) : K b (c :: x ++ s) = None).
    replace (aeqb c (ch "{")) with false by (symmetry; apply aeqb_neq; intros ->; apply N1; now left).
    replace (aeqb c (ch "}")) with false by (symmetry; apply aeqb_neq; intros ->; apply N2; now left).
    apply IH.
    - cbn in Lf. lia.
    - intros I. apply N1. now right.
    - intros I. apply N2. now right.
    - intros x1 x2 -> H. specialize (N (c :: x1) x2 eq_refl H). cbn [rev] in N. now rewrite <- app_assoc in N.
    - intros f' Lf'. specialize (G f' Lf'). cbn [rev] in G. now rewrite <- app_assoc in G.
  Qed.
  Lemma walk_table x a f b s : length ("{"%char :: a :: x ++ "}"%char :: s) <= f -> is_alpha a = true -> ~ In "}"%char x ->
    K b ("{"%char :: a :: x ++ "}"%char :: s) = None ->
    (forall f, length s <= f -> zstruct f (rev ("{"%char :: a :: x ++ ["}"%char]) ++ b) s K = Some res) ->
    zstruct f b ("{"%char :: a :: x ++ "}"%char :: s) K = Some res.
  Proof.
    intros Lf A N KN G. destruct f as [|f]; [cbn in Lf; lia|]. cbn [zstruct]. rewrite KN.
    replace (aeqb "{"%char (ch "{")) with true by reflexivity. cbv iota. rewrite A. apply zlazy_first.
    - apply Forall_forall. reflexivity.
    - intros w1 w2 -> H. destruct w2 as [|c w2]; [easy|]. cbn [app]. apply zchar_miss. intros ->. apply N. apply in_or_app. right. now left.
    - rewrite (zchar_hit "}"%char).
      assert (Ls : length s <= f). { cbn in Lf. rewrite app_length in Lf. cbn in Lf. lia. }
      specialize (G f Ls). cbn [rev] in G. rewrite rev_app_distr in G. rewrite <- !app_assoc in G. exact G.
  Qed.
End Walk.
Definition close (b1 : str) (b2 s2 : str) : option (found * str) :=
  if bol b2 then
    zgreedy is_space b2 s2 (fun b3 s3 => zchar (ch "}") b3 s3 (fun b4 s4 => zlazy any b4 s4 (with_next (FStruct (between b1 b2)))))
  else None.
Lemma close_mid b1 b2 s2 : bol b2 = false -> close b1 b2 s2 = None.
Proof. unfold close. now intros ->. Qed.
Lemma close_solid b1 b2 x s : ~ In "}"%char x -> solid x -> close b1 b2 (x ++ s) = None.
Proof.
  intros N (c & I & Sc). unfold close. destruct (bol b2); [|reflexivity]. apply zgreedy_none. intros w t E W.
  unfold zchar. destruct t as [|y t]; [reflexivity|]. destruct (aeqb y (ch "}")) eqn:Ey; [|reflexivity]. exfalso. apply aeqb_eq in Ey. subst y.
  apply in_split in I as (x1 & x2 & ->). rewrite <- app_assoc in E. cbn in E.
  revert x1 N E. induction W as [|a w Ha W IH]; intros x1 N E.
  - cbn in E. destruct x1 as [|y x1]; cbn in E; injection E as -> E; apply N; now left.
  - destruct x1 as [|y x1]; cbn in E; injection E as -> E; [congruence|]. apply (IH x1); [|exact E]. intros J. apply N. now right.
Qed.
Lemma close_ok b1 w foot trail more r : bol (rev w ++ b1) = true -> white foot -> blanks trail -> key_line more r ->
  close b1 (rev w ++ b1) (foot ++ "}"%char :: trail ++ nl :: more) = Some (FStruct w, r).
Proof.
  intros B F T KL. unfold close. rewrite B. apply zgreedy_run; [exact F|reflexivity|]. rewrite (zchar_hit "}"%char). rewrite between_app.
  replace (trail ++ nl :: more) with ((trail ++ [nl]) ++ more) by now rewrite <- app_assoc. apply zlazy_first.
  - apply Forall_forall. reflexivity.
  - intros w1 w2 E N. unfold with_next. rewrite next_key_mid; [reflexivity|]. apply bol_mid; [|reflexivity].
    intros J. apply app_eq_app in E as (u & [[E1 E2]|[E1 E2]]).
    + apply (blanks_no_nl trail T). rewrite E1. apply in_or_app. now left.
    + destruct u as [|c u].
      * rewrite app_nil_r in E1. subst w1. now apply (blanks_no_nl trail T).
      * cbn in E2. injection E2 as <- E2. symmetry in E2. apply app_eq_nil in E2 as [-> ->]. easy.
  - unfold with_next. rewrite (next_key_ok _ more r); [reflexivity| |exact KL]. rewrite rev_app_distr. reflexivity.
Qed.

(** one definition inside a structure *)
Definition head_text (i k : str) (caret : bool) (s1 s2 : str) : str := i ++ k ++ caret_text caret ++ s1 ++ "="%char :: s2.
Lemma entry_split i k caret s1 s2 v t : entry_text (Entry i k caret s1 s2 v t) = head_text i k caret s1 s2 ++ value_text v ++ t.
Proof. unfold head_text. cbn [entry_text]. rewrite <- !app_assoc. reflexivity. Qed.
Lemma head_no_brace i k caret s1 s2 : white i -> key_ok k -> blanks s1 -> white s2 ->
  ~ In "{"%char (head_text i k caret s1 s2) /\ ~ In "}"%char (head_text i k caret s1 s2).
Proof.
  intros I K S1 S2. assert (A : forall c, c = "{"%char \/ c = "}"%char -> ~ In c (head_text i k caret s1 s2)).
  { intros c C J. unfold head_text in J.
    assert (Wh : forall w, white w -> ~ In c w). { intros w W X. apply (proj1 (Forall_forall _ _) W) in X. destruct C as [-> | ->]; discriminate X. }
    apply in_app_or in J as [J|J]; [now apply (Wh i)|].
    apply in_app_or in J as [J|J].
    { apply (proj1 (Forall_forall _ _) (proj2 K)) in J. apply white_stop_key in J as (_ & _ & _ & X & Y). destruct C; contradiction. }
    apply in_app_or in J as [J|J]; [destruct caret; [destruct J as [J|[]]; subst c; destruct C; discriminate|easy]|].
    apply in_app_or in J as [J|[J|J]]; [now apply (Wh s1 (blanks_white _ S1))|subst c; destruct C; discriminate|now apply (Wh s2)]. }
  split; apply A; tauto.
Qed.
Lemma flat_no_brace v : flat_ok true v -> (forall t r f, v <> Table t r f) -> ~ In "{"%char (value_text v) /\ ~ In "}"%char (value_text v).
Proof.
  intros F NT. assert (A : forall c, c = "{"%char \/ c = "}"%char -> ~ In c (value_text v)).
  { intros c C J. assert (CB : In c (L "{}")) by (destruct C as [-> | ->]; cbn; tauto).
    destruct v as [w|q w|star round l|tags rows foot|].
    - destruct F as (_ & _ & _ & _ & _ & W). specialize (W eq_refl). now apply (proj1 (Forall_forall _ _) W) in J.
    - destruct F as (Q & _ & W). specialize (W eq_refl). cbn in J. destruct J as [J|J]; [subst q; destruct Q, C; subst; discriminate|].
      apply in_app_or in J as [J|[J|[]]]; [now apply (proj1 (Forall_forall _ _) W) in J|subst q; destruct Q, C; subst; discriminate].
    - destruct F as (_ & F & _). cbn [value_text] in J.
      apply in_app_or in J as [J|J]; [destruct star; [destruct J as [J|[]]; subst c; destruct C; discriminate|easy]|].
      apply in_app_or in J as [J|J]; [destruct round; destruct J as [J|[]]; subst c; destruct C; discriminate|].
      apply in_app_or in J as [J|J]; [|destruct round; destruct J as [J|[]]; subst c; destruct C; discriminate].
      apply in_join_items in J as [-> |(p & I & J)]; [destruct C; discriminate|]. apply (proj1 (Forall_forall _ _) F) in I.
      destruct p as [a q w b]. destruct I as (A & B & W & Q). cbn [item_text] in J.
      apply in_app_or in J as [J|J]; [apply (proj1 (Forall_forall _ _) A) in J; destruct C as [-> | ->]; cbn in J; intuition discriminate|].
      apply in_app_or in J as [J|J]; [|apply (proj1 (Forall_forall _ _) B) in J; destruct C as [-> | ->]; cbn in J; intuition discriminate].
      assert (Jw : In c w).
      { destruct q as [q|]; [|exact J]. cbn in J. destruct J as [J|J]; [subst q; destruct Q, C; subst; discriminate|].
        apply in_app_or in J as [J|[J|[]]]; [exact J|subst q; destruct Q, C; subst; discriminate]. }
      apply (proj1 (Forall_forall _ _) W) in Jw. apply Jw. rewrite !in_app_iff. right. right. right. exact CB.
    - now apply (NT tags rows foot).
    - easy. }
  split; apply A; tauto.
Qed.
Lemma bol_last x b : x <> [] -> is_space (last x " "%char) = false -> bol (rev x ++ b) = false.
Proof.
  intros N H. destruct x as [|c x] using rev_ind; [easy|]. rewrite last_last in H. rewrite rev_app_distr. cbn. apply aeqb_neq. intros ->. discriminate.
Qed.
Lemma blanks_no_brace t c : blanks t -> c <> " "%char -> ~ In c t.
Proof. intros T N I. apply (proj1 (Forall_forall _ _) T) in I. contradiction. Qed.
Lemma walk_entry res b1 e f b s : frame_ok e -> flat_ok true (value_of e) -> length (entry_text e ++ nl :: s) <= f ->
  (forall f, length s <= f -> zstruct f (rev (entry_text e ++ [nl]) ++ b) s (close b1) = Some res) ->
  zstruct f b (entry_text e ++ nl :: s) (close b1) = Some res.
Proof.
  destruct e as [i k caret s1 s2 v t]. intros (I & K & S1 & S2 & N2 & T) V Lf G. cbn [value_of] in V. rewrite entry_split in *.
  set (h := head_text i k caret s1 s2) in *. pose proof (head_no_brace i k caret s1 s2 I K S1 S2) as [H1 H2]. fold h in H1, H2.
  (* the rest of the line after the value *)
  assert (Tail : forall x f, x ++ t = h ++ value_text v ++ t -> x <> [] -> is_space (last x " "%char) = false -> length (t ++ nl :: s) <= f ->
    zstruct f (rev x ++ b) (t ++ nl :: s) (close b1) = Some res).
  { intros x f' Ex Nx Lx Lf'. replace (t ++ nl :: s) with ((t ++ [nl]) ++ s) in * by now rewrite <- app_assoc.
    apply walk_plain; [exact Lf'| | | |].
    - intros J. apply in_app_or in J as [J|[J|[]]]; [|discriminate]. revert J. now apply blanks_no_brace.
    - intros J. apply in_app_or in J as [J|[J|[]]]; [|discriminate]. revert J. now apply blanks_no_brace.
    - intros x1 x2 E N. apply close_mid. apply bol_mid; [|now apply bol_last].
      intros J. apply app_eq_app in E as (u & [[E1 E2]|[E1 E2]]).
      + apply (blanks_no_nl t T). rewrite E1. apply in_or_app. now left.
      + destruct u as [|c u]; [rewrite app_nil_r in E1; subst x1; now apply (blanks_no_nl t T)|].
        cbn in E2. injection E2 as <- E2. symmetry in E2. apply app_eq_nil in E2 as [-> ->]. easy.
    - intros f'' L''. specialize (G f'' L''). rewrite <- Ex in G. rewrite app_assoc, <- rev_app_distr, app_assoc. exact G. }
  assert (TV : {tg : list item & {rw : list (list token * str) & {ft : str | v = Table tg rw ft}}} + (forall t r f, v <> Table t r f)).
  { destruct v; try (right; discriminate). left. now exists tags, rows, foot. }
  destruct TV as [(tg & rw & ft & ->)|NT].
  - (* a table *)
    rewrite table_text in *. pose proof V as (_ & _ & _ & _ & Al & _). specialize (Al eq_refl).
    destruct (table_body tg rw ft) as [|a x] eqn:EB.
    { unfold table_body in EB. apply app_eq_nil in EB as [_ EB]. discriminate EB. }
    assert (Aa : is_alpha a = true).
    { unfold table_body in EB. destruct (join (L ",") (map item_text tg)) as [|c0 j]; [discriminate Al|]. cbn in EB, Al. injection EB as -> _. exact Al. }
    assert (NB : ~ In "}"%char (a :: x)). { rewrite <- EB. apply (table_body_no true); [exact V|cbn; tauto]. }
    rewrite <- !app_assoc in *. cbn [app] in *.
    replace (h ++ "{"%char :: a :: (x ++ ["}"%char]) ++ t ++ nl :: s) with (h ++ "{"%char :: a :: x ++ "}"%char :: t ++ nl :: s) in * by now rewrite <- app_assoc.
    replace (h ++ "{"%char :: a :: (x ++ ["}"%char]) ++ t) with (h ++ "{"%char :: a :: x ++ "}"%char :: t) in * by now rewrite <- app_assoc.
    apply walk_plain; [exact Lf|exact H1|exact H2| |].
    + intros x1 x2 E N. change ("{"%char :: a :: x ++ "}"%char :: t ++ nl :: s) with (["{"%char] ++ a :: x ++ "}"%char :: t ++ nl :: s). rewrite app_assoc.
      apply close_solid.
      * intros J. apply in_app_or in J as [J|[J|[]]]; [|discriminate]. apply H2. rewrite E. apply in_or_app. now right.
      * exists "{"%char. split; [apply in_or_app; right; now left|reflexivity].
    + intros f' Lf'. apply walk_table; [exact Lf'|exact Aa|intros J; apply NB; now right| |].
      * change ("{"%char :: a :: x ++ "}"%char :: t ++ nl :: s) with (["{"%char] ++ a :: x ++ "}"%char :: t ++ nl :: s).
        apply close_solid; [intros [J|[]]; discriminate|]. exists "{"%char. split; [now left|reflexivity].
      * intros f'' Lf''. rewrite app_assoc, <- rev_app_distr. apply Tail; [|now destruct h| |exact Lf''].
        -- rewrite <- !app_assoc. cbn [app]. rewrite <- app_assoc. reflexivity.
        -- rewrite !app_comm_cons, app_assoc, last_last. reflexivity.
  - (* a value without braces *)
    destruct (flat_no_brace v V NT) as [V1 V2]. pose proof (flat_last true v V) as VL.
    assert (VN : value_text v <> []). { intros E. rewrite E in VL. discriminate. }
    assert (Sx : h ++ value_text v ++ t ++ nl :: s = (h ++ value_text v) ++ t ++ nl :: s) by now rewrite <- !app_assoc.
    rewrite <- !app_assoc in Lf |- *. rewrite Sx in Lf |- *.
    assert (LX : is_space (last (h ++ value_text v) " "%char) = false).
    { destruct (exists_last VN) as (u & z & E). rewrite E in VL |- *. rewrite app_assoc, last_last. now rewrite last_last in VL. }
    apply walk_plain; [exact Lf| | | |].
    + intros J. apply in_app_or in J as [J|J]; contradiction.
    + intros J. apply in_app_or in J as [J|J]; contradiction.
    + intros x1 x2 E N. apply close_solid.
      * intros J. assert (J' : In "}"%char (h ++ value_text v)) by (rewrite E; apply in_or_app; now right). apply in_app_or in J' as [J'|J']; contradiction.
      * exists (last (h ++ value_text v) " "%char). split; [|exact LX]. rewrite E. destruct (exists_last N) as (u & z & ->).
        rewrite app_assoc, last_last. apply in_or_app. right. now left.
    + intros f' Lf'. apply Tail; [now rewrite <- app_assoc|now destruct (h ++ value_text v) eqn:E; [apply app_eq_nil in E as [_ E]; contradiction|]|exact LX|exact Lf'].
Qed.
Definition body_text (l : list entry) : str := concat (map (fun e => entry_text e ++ [nl]) l).
Lemma walk_body b1 foot trail more r l : white foot -> blanks trail -> key_line more r ->
  Forall (fun e => frame_ok e /\ flat_ok true (value_of e)) l -> forall done f,
  (l = [] -> bol (rev done ++ b1) = true) ->
  length (body_text l ++ foot ++ "}"%char :: trail ++ nl :: more) <= f ->
  zstruct f (rev done ++ b1) (body_text l ++ foot ++ "}"%char :: trail ++ nl :: more) (close b1) = Some (FStruct (done ++ body_text l), r).
Proof.
  intros F T KL. induction 1 as [|e l [Fe Ve] R IH]; intros done f B Lf.
  - cbn [body_text map concat app] in *. rewrite app_nil_r. destruct f; cbn [zstruct]; now rewrite (close_ok b1 done foot trail more r (B eq_refl) F T KL).
  - unfold body_text in *. cbn [map concat] in *. rewrite <- !app_assoc in *. cbn [app] in *.
    apply walk_entry; [exact Fe|exact Ve|exact Lf|]. intros f' Lf'. rewrite app_assoc, <- rev_app_distr.
    rewrite IH; [|intros _; rewrite !app_assoc, rev_app_distr; reflexivity|exact Lf']. rewrite <- !app_assoc. reflexivity.
Qed.
Definition undent (e : entry) : entry := match e with Entry i k c s1 s2 v t => Entry [] k c s1 s2 v t end.
Definition indent_of (e : entry) : str := match e with Entry i k c s1 s2 v t => i end.
Lemma value_re_struct b gap e l foot trail more r : gap <> [] -> white gap -> white foot -> blanks trail -> key_line more r ->
  Forall (fun e => frame_ok e /\ flat_ok true (value_of e)) (e :: l) ->
  value_re b (value_text (Struct gap (e :: l) foot) ++ trail ++ nl :: more) = Some (FStruct (body_text (undent e :: l)), r).
Proof.
  intros Ng G F T KL R. inversion R as [|x y [Fe Ve] R']; subst.
  assert (R1 : Forall (fun e => frame_ok e /\ flat_ok true (value_of e)) (undent e :: l)).
  { constructor; [|exact R']. destruct e as [i k c s1 s2 v t]. cbn in *. intuition. constructor. }
  assert (E : value_text (Struct gap (e :: l) foot) ++ trail ++ nl :: more = "{"%char :: gap ++ indent_of e ++ body_text (undent e :: l) ++ foot ++ "}"%char :: trail ++ nl :: more).
  { cbn [value_text]. unfold body_text. cbn [map concat]. destruct e as [i k c s1 s2 v t]. cbn [undent indent_of entry_text].
    rewrite <- !app_assoc. cbn [app]. reflexivity. }
  rewrite E. clear E. unfold value_re. rewrite (zchar_hit "{"%char). destruct gap as [|c gap]; [easy|]. inversion G; subst. cbn [app]. rewrite H1.
  assert (I : white (indent_of e)) by (destruct e; cbn in *; tauto).
  assert (St : stops is_space (body_text (undent e :: l) ++ foot ++ "}"%char :: trail ++ nl :: more)).
  { unfold body_text. cbn [map concat]. destruct e as [i k c' s1 s2 v t]. cbn [undent entry_text app]. rewrite <- !app_assoc. apply key_stop. cbn in Fe. tauto. }
  set (B1 := rev (gap ++ indent_of e) ++ c :: "{"%char :: b).
  assert (W : zstruct (length (body_text (undent e :: l) ++ foot ++ "}"%char :: trail ++ nl :: more)) B1
                (body_text (undent e :: l) ++ foot ++ "}"%char :: trail ++ nl :: more) (close B1) = Some (FStruct (body_text (undent e :: l)), r)).
  { apply (walk_body B1 foot trail more r (undent e :: l) F T KL R1 []); [discriminate|apply le_n]. }
  rewrite (app_assoc gap).
  rewrite (zgreedy_run is_space _ (FStruct (body_text (undent e :: l)), r) (gap ++ indent_of e)); [reflexivity| |exact St|exact W].
  apply Forall_app. now split.
Qed.
