(** Tables. *)
From Coq Require Import String Ascii List Arith Bool Lia.
From Verif Require Import Base StrModel StrSpec StrProofs StrProofs2 CliModel CliSpec CliProofs CliProofs2 CliProofs3 TsModel TsSpec TsProofs TsProofs2.
Import ListNotations.

(** ** One row *)
Fixpoint index_of (t : str) (ts : list str) : option nat :=
  match ts with [] => None | u :: r => if seqb t u then Some 0 else option_map S (index_of t r) end.
Lemma index_of_in t ts i : index_of t ts = Some i -> In t ts.
Proof.
  revert i. induction ts as [|u r IH]; intros i H; [discriminate|]. cbn in H. destruct (seqb_spec t u) as [-> |D]; [now left|].
  destruct (index_of t r); [right; now apply (IH n)|discriminate].
Qed.
Lemma index_of_nth ts : forall i t, NoDup ts -> nth_error ts i = Some t -> index_of t ts = Some i.
Proof.
  induction ts as [|u r IH]; intros i t N H; [now destruct i|]. inversion N; subst. destruct i as [|i]; cbn in H |- *.
  - injection H as ->. now rewrite seqb_refl.
  - rewrite seqb_false; [now rewrite (IH i t)|]. intros ->. apply nth_error_In in H. contradiction.
Qed.
Definition grown (ts cells : list str) (p : str * list str) : str * list str :=
  match index_of (fst p) ts with Some i => (fst p, snd p ++ [nth i cells []]) | None => p end.
Lemma add_row_map ts : forall cells r, NoDup ts -> add_row ts cells r = map (grown ts cells) r.
Proof.
  induction ts as [|t ts IH]; intros cells r N; cbn [add_row].
  - symmetry. etransitivity; [apply map_ext; intros a; reflexivity|apply map_id].
  - inversion N; subst. rewrite IH by assumption. rewrite map_map. apply map_ext. intros [k col]. unfold grown. cbn [fst snd index_of].
    destruct (seqb_spec k t) as [-> |D]; cbn [fst snd].
    + destruct (index_of t ts) as [i|] eqn:E; [now apply index_of_in in E|]. now destruct cells.
    + destruct (index_of k ts) as [i|]; cbn [option_map]; [|reflexivity]. f_equal. f_equal. f_equal. destruct cells as [|c cells]; cbn; [now destruct i|reflexivity].
Qed.

(** ** All rows *)
Definition columns (tags : list str) (rows : list (list token * str)) : list (str * list str) :=
  map (fun it => (snd it, map (cell (fst it)) rows)) (combine (seq 0 (length tags)) tags).
Lemma combine_seq_nth {A} (l : list A) : forall s i x, In (i, x) (combine (seq s (length l)) l) -> exists j, i = s + j /\ nth_error l j = Some x.
Proof.
  induction l as [|a l IH]; intros s i x H; [easy|]. cbn in H. destruct H as [H|H].
  - injection H as -> ->. exists 0. now rewrite Nat.add_0_r.
  - destruct (IH (S s) i x H) as (j & -> & E). exists (S j). split; [lia|exact E].
Qed.
Lemma columns_row tags done r : NoDup tags -> add_row tags (map token_word (fst r)) (columns tags done) = columns tags (done ++ [r]).
Proof.
  intros N. rewrite add_row_map by exact N. unfold columns. rewrite map_map. apply map_ext_in. intros [i t] I.
  apply combine_seq_nth in I as (j & -> & E). cbn [Nat.add]. unfold grown. cbn [fst snd]. rewrite (index_of_nth tags j t N E), map_app. reflexivity.
Qed.
Lemma escape_In q c w : In c w -> In c (escape q w).
Proof.
  induction w as [|x w IH]; [easy|]. intros [-> |H]; cbn.
  - destruct (ascii_dec c q) as [-> |D]; [right; now left|now left].
  - apply in_or_app. right. now apply IH.
Qed.
Lemma layout_In sep ts s t c : layout sep ts s -> In t ts -> In c (token_word t) -> In c s.
Proof.
  intros Ly I J. assert (T : forall t, In c (token_word t) -> In c (token_text t)).
  { intros [w|q w]; cbn [token_word token_text]; [exact (fun H => H)|]. intros H. apply in_or_app. right. apply in_or_app. left. now apply escape_In. }
  induction Ly as [g|g u|g u us s G Ly IH X].
  - easy.
  - destruct I as [-> |[]]. apply in_or_app. right. now apply T.
  - apply in_or_app. right. destruct I as [-> |I]; [apply in_or_app; left; now apply T|apply in_or_app; right; now apply IH].
Qed.
Lemma row_cells r : row_ok r -> exists c cs, quoted_split is_space (snd r) = c :: cs /\ c :: cs = map token_word (fst r) /\ c <> L "}".
Proof.
  intros (Ly & N & F & O & W). rewrite (quoted_split_layout _ eq_refl eq_refl _ _ Ly F). destruct (fst r) as [|t ts]; [easy|].
  exists (token_word t), (map token_word ts). repeat split. intros E. assert (I : In "}"%char (snd r)).
  { apply (layout_In _ _ _ t _ Ly); [now left|]. rewrite E. now left. }
  apply (proj1 (Forall_forall _ _) W) in I. apply I. cbn. tauto.
Qed.
Lemma foot_cells foot trail : blanks foot -> blanks trail -> quoted_split is_space (foot ++ L "}" ++ trail) = [L "}"].
Proof.
  intros F T. assert (K : token_ok is_space (Bare (L "}"))).
  { cbn. repeat split; [discriminate|repeat constructor|]. left. split; cbn; intuition discriminate. }
  change [L "}"] with (map token_word [Bare (L "}")]). destruct trail as [|c trail].
  - apply quoted_split_layout; [reflexivity|reflexivity| |now constructor]. rewrite app_nil_r. apply (layout_last is_space foot (Bare (L "}"))). now apply blanks_white.
  - apply quoted_split_layout; [reflexivity|reflexivity| |now constructor]. apply (layout_cons is_space foot (Bare (L "}")) [] (c :: trail)).
    + now apply blanks_white.
    + constructor. now apply blanks_white.
    + inversion T; subst. now exists " "%char, trail.
Qed.
Lemma add_rows_ok tags foot trail more : NoDup tags -> blanks foot -> blanks trail -> forall rows done, Forall row_ok rows ->
  add_rows tags (map snd rows ++ (foot ++ L "}" ++ trail) :: more) (columns tags done) = Ok (columns tags (done ++ rows)).
Proof.
  intros N F T. induction rows as [|r rows IH]; intros done R; cbn [map app add_rows].
  - change ("}"%char :: trail) with (L "}" ++ trail). rewrite foot_cells by assumption. rewrite seqb_refl. now rewrite app_nil_r.
  - inversion R; subst. destruct (row_cells r H1) as (c & cs & -> & E & D). rewrite (seqb_false _ _ D), E, columns_row by exact N.
    rewrite IH by assumption. now rewrite <- app_assoc.
Qed.

(** ** The lines of a table *)
Lemma blanks_one_line w : blanks w -> one_line w.
Proof. intros F. eapply Forall_impl; [|exact F]. now intros c ->. Qed.
Lemma table_lines tags rows foot trail : one_line (join (L ",") (map item_text tags)) -> Forall row_ok rows -> blanks foot -> blanks trail ->
  splitlines [] (value_text (Table tags rows foot) ++ trail ++ [nl]) = (L "{" ++ join (L ",") (map item_text tags)) :: map snd rows ++ [foot ++ L "}" ++ trail].
Proof.
  intros O R F T. cbn [value_text]. rewrite <- !app_assoc. rewrite (app_assoc (L "{")). cbn [app].
  rewrite (splitlines_line (L "{" ++ join (L ",") (map item_text tags)) []).
  2: { apply Forall_app. split; [repeat constructor|exact O]. }
  cbn [rev app]. f_equal. induction R as [|r rows H R IH].
  - cbn [map concat app]. replace (foot ++ L "}" ++ trail ++ [nl]) with ((foot ++ L "}" ++ trail) ++ nl :: []) by now rewrite <- !app_assoc.
    rewrite splitlines_line; [reflexivity|]. repeat (apply Forall_app; split); [now apply blanks_one_line|repeat constructor|now apply blanks_one_line].
  - cbn [map concat app]. rewrite <- !app_assoc. cbn [app]. rewrite splitlines_line by apply H. cbn [rev app]. f_equal. apply IH.
Qed.

(** ** Column names *)
Definition tag_strip (c : ascii) : bool := mem c (L "{ ").
Definition tag_ok (p : item) : Prop := item_ok (L " ") (L ",{}=") p /\ one_line (item_word p) /\ let '(Item _ q _ _) := p in q = None.
Lemma tag_value p o : tag_ok p -> Forall (fun c => tag_strip c = true) o -> strip tag_strip (o ++ item_text p) = item_word p.
Proof.
  destruct p as [a q w b]. intros ((A & B & W & Q) & O & ->) P. cbn [item_text item_word quoted]. destruct Q as (H1 & H2 & _).
  assert (X : forall a, Forall (fun c => In c (L " ")) a -> Forall (fun c => tag_strip c = true) a).
  { intros x. apply Forall_impl. cbn. now intros c [<- |[]]. }
  rewrite app_assoc. apply strip_around.
  - apply Forall_app. auto.
  - auto.
  - destruct w as [|c w]; [easy|]. cbn in H1. inversion W; subst. cbn [stops]. destruct (tag_strip c) eqn:E; [|reflexivity]. exfalso.
    apply mem_In in E. cbn in E, H3. destruct E as [<- |[<- |[]]]; tauto.
  - destruct w as [|c w] using rev_ind; [easy|]. rewrite last_last in H2. rewrite rev_app_distr. cbn [rev app stops].
    apply Forall_app in W as [_ W]. inversion W; subst. destruct (tag_strip c) eqn:E; [|reflexivity]. exfalso.
    apply mem_In in E. cbn in E, H3. destruct E as [<- |[<- |[]]]; tauto.
Qed.
Lemma tag_in c p : tag_ok p -> In c (item_text p) -> c = " "%char \/ In c (item_word p).
Proof.
  destruct p as [a q w b]. intros ((A & B & W & Q) & O & ->) I. cbn [item_text item_word quoted] in *.
  apply in_app_or in I as [I|I]; [apply (proj1 (Forall_forall _ _) A) in I; cbn in I; left; tauto + intuition|].
  apply in_app_or in I as [I|I]; [now right|]. apply (proj1 (Forall_forall _ _) B) in I; cbn in I; left; intuition.
Qed.
Lemma tag_no p c : tag_ok p -> In c (L ",{}=") -> ~ In c (item_text p).
Proof.
  intros K I J. apply (tag_in c p K) in J as [-> |J]; [cbn in I; intuition discriminate|]. destruct p as [a q w b]. destruct K as ((_ & _ & W & _) & _).
  now apply (proj1 (Forall_forall _ _) W) in J.
Qed.
Lemma tags_one_line tags : Forall tag_ok tags -> one_line (join (L ",") (map item_text tags)).
Proof.
  intros F. apply Forall_forall. intros c I. apply In_join in I as [I|(s & I & J)]; [cbn in I; now destruct I as [<- |[]]|].
  apply in_map_iff in I as (p & <- & I). apply (proj1 (Forall_forall _ _) F) in I. apply (tag_in c p I) in J as [-> |J]; [reflexivity|].
  destruct I as (_ & O & _). now apply (proj1 (Forall_forall _ _) O).
Qed.
Lemma head_tags tags : tags <> [] -> Forall tag_ok tags ->
  map (strip tag_strip) (split_chr ","%char [] (L "{" ++ join (L ",") (map item_text tags))) = map item_word tags.
Proof.
  intros N F. destruct tags as [|t tags]; [easy|]. inversion F; subst.
  replace (L "{" ++ join (L ",") (map item_text (t :: tags))) with (join [","%char] ((L "{" ++ item_text t) :: map item_text tags)).
  2: { destruct tags; reflexivity. }
  rewrite split_chr_join; [|discriminate|].
  - cbn [map]. rewrite tag_value by (try assumption; repeat constructor). f_equal. rewrite map_map. apply map_ext_in. intros p I.
    apply (tag_value p []); [|constructor]. now apply (proj1 (Forall_forall _ _) H2).
  - constructor.
    + intros [I|I]; [discriminate|]. revert I. apply tag_no; [assumption|cbn; tauto].
    + apply Forall_forall. intros s I. apply in_map_iff in I as (p & <- & I). apply tag_no; [now apply (proj1 (Forall_forall _ _) H2)|cbn; tauto].
Qed.
Lemma start_columns tags : NoDup tags -> fold_left (fun d t => dict_set d t ([] : list str)) tags [] = columns tags [].
Proof.
  intros N. assert (G : forall l d, NoDup (map fst d ++ l) -> fold_left (fun d t => dict_set d t ([] : list str)) l d = d ++ map (fun t => (t, [])) l).
  { induction l as [|t l IH]; intros d ND; cbn [fold_left map]; [now rewrite app_nil_r|].
    assert (NI : ~ In t (map fst d)). { intros I. apply NoDup_remove_2 in ND. apply ND. apply in_or_app. now left. }
    rewrite dict_set_new by exact NI. rewrite IH.
    - now rewrite <- app_assoc.
    - rewrite map_app, <- app_assoc. exact ND. }
  rewrite (G tags []) by exact N. cbn [app]. unfold columns. clear. generalize 0. induction tags as [|t l IH]; intros n; [reflexivity|].
  cbn [length seq combine map]. f_equal. apply IH.
Qed.
Lemma table_meaning tags rows foot deep trail : flat_ok deep (Table tags rows foot) -> blanks trail ->
  simple_value (value_text (Table tags rows foot) ++ trail ++ [nl]) = Ok (flat_meaning (Table tags rows foot)).
Proof.
  intros (N & ND & F & _ & _ & R & B) T. unfold simple_value.
  assert (X : exists u, value_text (Table tags rows foot) ++ trail ++ [nl] = "{"%char :: u) by (cbn; eexists; reflexivity).
  destruct X as (u & X). pose proof (table_lines tags rows foot trail (tags_one_line tags F) R B T) as TL. rewrite X in *. clear X.
  cbn [L list_ascii_of_string starts_with length firstn seqb aeqb Ascii.eqb Bool.eqb andb]. cbv zeta.
  cbn [L list_ascii_of_string starts_with length firstn seqb aeqb Ascii.eqb Bool.eqb andb]. unfold table_value. rewrite TL. cbv zeta.
  pose proof (head_tags tags N F) as HT. unfold tag_strip in HT. change (ch ",") with ","%char. rewrite HT. rewrite start_columns by exact ND.
  rewrite (add_rows_ok (map item_word tags) foot trail [] ND B T rows [] R). cbn [bind app flat_meaning]. f_equal. f_equal.
  unfold columns. rewrite map_map. rewrite map_length. cbn [fst snd]. clear. generalize 0. induction tags as [|t l IH]; intros n; [reflexivity|].
  cbn [length seq combine map]. f_equal; [|apply IH]. cbn [fst snd]. f_equal. f_equal. now rewrite map_map.
Qed.
Theorem flat_value v deep trail : flat_ok deep v -> blanks trail -> simple_value (value_text v ++ trail ++ [nl]) = Ok (flat_meaning v).
Proof.
  destruct v; [apply word_value|apply quote_value|apply array_value|apply table_meaning|easy].
Qed.
