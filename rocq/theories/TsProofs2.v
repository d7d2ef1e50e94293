(** Values: words, lists, tables. *)
From Coq Require Import String Ascii List Arith Bool Lia.
From Verif Require Import Base StrModel StrSpec StrProofs StrProofs2 CliModel CliSpec CliProofs CliProofs2 TsModel TsSpec TsProofs.
Import ListNotations.

(** ** strip *)
Lemma lstrip_app p a s : Forall (fun c => p c = true) a -> lstrip p (a ++ s) = lstrip p s.
Proof. induction 1 as [|c a H F IH]; [reflexivity|]. cbn [app lstrip]. now rewrite H. Qed.
Lemma rstrip_app p s b : Forall (fun c => p c = true) b -> rstrip p (s ++ b) = rstrip p s.
Proof. intros F. unfold rstrip. rewrite rev_app_distr, lstrip_app; [reflexivity|]. now apply Forall_rev. Qed.
Lemma lstrip_all p a : Forall (fun c => p c = true) a -> lstrip p a = [].
Proof. intros F. rewrite <- (app_nil_r a). now rewrite lstrip_app. Qed.
Lemma lstrip_stop p s : stops p s -> lstrip p s = s.
Proof. destruct s as [|c s]; [reflexivity|]. cbn. now intros ->. Qed.
Lemma lstrip_app_stop p s z : s <> [] -> stops p s -> lstrip p (s ++ z) = s ++ z.
Proof. intros N H. apply lstrip_stop. destruct s; [easy|exact H]. Qed.
Lemma rstrip_stop p s : stops p (rev s) -> rstrip p s = s.
Proof. intros H. unfold rstrip. rewrite lstrip_stop by exact H. apply rev_involutive. Qed.
Lemma stops_last (p : ascii -> bool) s d : p (last s d) = false -> stops p (rev s).
Proof. destruct s as [|c s] using rev_ind; [easy|]. rewrite last_last, rev_app_distr. exact (fun H => H). Qed.
Lemma stops_hd (p : ascii -> bool) s d : p (hd d s) = false -> stops p s.
Proof. now destruct s. Qed.
Lemma strip_between p a s b : Forall (fun c => p c = true) a -> Forall (fun c => p c = true) b -> strip p (a ++ s ++ b) = strip p s.
Proof.
  intros A B. unfold strip. rewrite lstrip_app by exact A. destruct (lstrip_spec p s) as (ws & W & E & St).
  destruct (lstrip p s) as [|c t] eqn:Es.
  - rewrite app_nil_r in E. subst s. rewrite lstrip_app by exact W. rewrite (lstrip_all p b) by exact B. reflexivity.
  - rewrite E, <- app_assoc, lstrip_app by exact W. rewrite lstrip_app_stop; [|easy|exact St]. now apply rstrip_app.
Qed.
Lemma strip_id p s : stops p s -> stops p (rev s) -> strip p s = s.
Proof. intros A B. unfold strip. rewrite lstrip_stop by exact A. now apply rstrip_stop. Qed.
Lemma strip_around p a s b : Forall (fun c => p c = true) a -> Forall (fun c => p c = true) b -> stops p s -> stops p (rev s) ->
  strip p (a ++ s ++ b) = s.
Proof. intros. rewrite strip_between by assumption. now apply strip_id. Qed.

(** ** strip_quotes *)
Lemma strip_quotes_unquoted w : unquoted w -> strip_quotes w = w.
Proof.
  intros U. destruct w as [|c [|d w]]; [reflexivity|reflexivity|]. unfold strip_quotes.
  destruct (aeqb c (last (c :: d :: w) c) && (aeqb c dq || aeqb c sq)) eqn:E; [|reflexivity]. exfalso.
  apply andb_prop in E as [E Q]. apply aeqb_eq in E. apply orb_prop in Q. rewrite !aeqb_eq in Q.
  apply (U c (removelast (d :: w)) Q). cbn [app]. f_equal.
  rewrite (app_removelast_last c (l := d :: w)) at 1 by easy. f_equal. f_equal. rewrite E at 2. reflexivity.
Qed.
Lemma quote_not c : c = dq \/ c = sq -> c <> " "%char /\ c <> nl.
Proof. intros [-> | ->]; split; discriminate. Qed.

(** ** Lists *)
Definition inner (c : ascii) : bool := mem c (nl :: L " ").
Lemma inner_iff c : inner c = true <-> c = nl \/ c = " "%char.
Proof. unfold inner. rewrite mem_In. cbn. intuition. Qed.
Lemma quoted_stops (p : ascii -> bool) q w : (forall c, In c w -> p c = true -> c = " "%char) -> p dq = false -> p sq = false ->
  match q with Some c => c = dq \/ c = sq | None => hd "x"%char w <> " "%char /\ last w "x"%char <> " "%char /\ unquoted w end ->
  stops p (quoted q w) /\ stops p (rev (quoted q w)).
Proof.
  intros H D Sq. destruct q as [c|]; cbn [quoted].
  - intros Q. assert (P : p c = false) by (destruct Q as [-> | ->]; assumption). split; [exact P|].
    cbn [app]. rewrite app_comm_cons, rev_app_distr. exact P.
  - intros (A & B & _). split.
    + destruct w as [|c w]; [easy|]. cbn in A |- *. destruct (p c) eqn:E; [|reflexivity]. exfalso. apply A. apply H; [now left|exact E].
    + destruct w as [|c w] using rev_ind; [easy|]. rewrite last_last in B. rewrite rev_app_distr. cbn.
      destruct (p c) eqn:E; [|reflexivity]. exfalso. apply B. apply H; [apply in_or_app; right; now left|exact E].
Qed.
Lemma pad_inner a : Forall (fun c => In c (nl :: L " ")) a -> Forall (fun c => inner c = true) a.
Proof. intros F. eapply Forall_impl; [|exact F]. intros c I. apply inner_iff. cbn in I. intuition. Qed.
Lemma item_value bad p : item_ok (nl :: L " ") bad p -> In nl bad -> strip_quotes (strip inner (item_text p)) = item_word p.
Proof.
  destruct p as [a q w b]. intros (A & B & W & Q) N. cbn [item_text item_word].
  assert (H : forall c, In c w -> inner c = true -> c = " "%char).
  { intros c I E. apply inner_iff in E as [-> | ->]; [|reflexivity]. now apply (proj1 (Forall_forall _ _) W) in I. }
  destruct (quoted_stops inner q w H eq_refl eq_refl Q) as [S1 S2].
  rewrite strip_around; auto using pad_inner.
  destruct q as [c|]; cbn [quoted]; [now apply strip_quotes_quoted|]. now apply strip_quotes_unquoted.
Qed.
(** stripping the outside of a list changes only padding *)
Section Outside.
  Variables (p : ascii -> bool) (bad : str).
  Hypothesis pinner : forall c, inner c = true -> p c = true.
  Hypothesis pcomma : p ","%char = false.
  Hypothesis pquote : p dq = false /\ p sq = false.
  Hypothesis pbad : forall c, ~ In c bad -> p c = true -> c = " "%char.
  Hypothesis comma_bad : In ","%char bad.
  Hypothesis nl_bad : In nl bad.
  Let ok := item_ok (nl :: L " ") bad.
  Lemma ok_stops a q w b : ok (Item a q w b) -> stops p (quoted q w) /\ stops p (rev (quoted q w)).
  Proof.
    intros (A & B & W & Q). apply quoted_stops; try apply pquote; [|exact Q].
    intros c I. apply pbad. now apply (proj1 (Forall_forall _ _) W).
  Qed.
  Lemma pad_p a : Forall (fun c => In c (nl :: L " ")) a -> Forall (fun c => p c = true) a.
  Proof. intros F. eapply Forall_impl; [|apply pad_inner, F]. exact pinner. Qed.
  Lemma lstrip_items l : l <> [] -> Forall ok l -> exists l', lstrip p (join (L ",") (map item_text l)) = join (L ",") (map item_text l') /\
    Forall ok l' /\ map item_word l' = map item_word l /\ l' <> [].
  Proof.
    intros N F. destruct l as [|[a q w b] l]; [easy|]. inversion F as [|x y O F']; subst. pose proof O as (A & B & W & Q).
    destruct (ok_stops _ _ _ _ O) as [S1 S2].
    destruct (quoted q w) as [|c t] eqn:E.
    - assert (w = []) as -> by (destruct q; [discriminate E|exact E]). assert (q = None) as -> by (destruct q; [discriminate E|reflexivity]).
      exists (Item [] None [] [] :: l). repeat split.
      + cbn [map item_text quoted app]. destruct l as [|i l].
        * cbn. apply lstrip_all. apply Forall_app. split; now apply pad_p.
        * cbn [map]. rewrite !join_cons. cbn [app]. rewrite lstrip_app; [|apply Forall_app; split; now apply pad_p].
          apply lstrip_stop. exact pcomma.
      + constructor; [|exact F']. cbn. repeat split; try constructor; try discriminate.
      + discriminate.
    - exists (Item [] q w b :: l). repeat split.
      + cbn [map item_text app]. rewrite E. cbn [app].
        assert (J : forall x, join (L ",") (x :: map item_text l) = x ++ match l with [] => [] | _ => L "," ++ join (L ",") (map item_text l) end).
        { intros x. destruct l; [cbn; now rewrite app_nil_r|]. cbn [map]. now rewrite join_cons. }
        rewrite !J, <- !app_assoc. rewrite lstrip_app by (now apply pad_p). cbn [app]. apply lstrip_stop. exact S1.
      + constructor; [|exact F']. repeat split; try assumption. constructor.
      + discriminate.
  Qed.
  Lemma join_snoc x l : join (L ",") (l ++ [x]) = (match l with [] => [] | _ => join (L ",") l ++ L "," end) ++ x.
  Proof.
    induction l as [|a l IH]; [reflexivity|]. destruct l as [|b l]; [cbn; now rewrite <- app_assoc|].
    cbn [app] in *. rewrite !join_cons, IH, <- !app_assoc. reflexivity.
  Qed.
  Lemma rstrip_items l : l <> [] -> Forall ok l -> exists l', rstrip p (join (L ",") (map item_text l)) = join (L ",") (map item_text l') /\
    Forall ok l' /\ map item_word l' = map item_word l /\ l' <> [].
  Proof.
    intros N F. destruct (exists_last N) as (l0 & [a q w b] & ->). apply Forall_app in F as [F' O]. inversion O as [|x y O' _]; subst. clear O.
    pose proof O' as (A & B & W & Q). destruct (ok_stops _ _ _ _ O') as [S1 S2]. rewrite map_app. cbn [map].
    destruct (quoted q w) as [|c t] eqn:E.
    - assert (w = []) as -> by (destruct q; [discriminate E|exact E]). assert (q = None) as -> by (destruct q; [discriminate E|reflexivity]).
      exists (l0 ++ [Item [] None [] []]). repeat split.
      + rewrite map_app. cbn [map item_text quoted app]. rewrite !join_snoc, !app_nil_r.
        rewrite rstrip_app; [|apply Forall_app; split; now apply pad_p]. apply rstrip_stop.
        destruct (map item_text l0); [exact I|]. rewrite rev_app_distr. exact pcomma.
      + apply Forall_app. split; [exact F'|]. constructor; [|constructor]. cbn. repeat split; try constructor; try discriminate.
      + rewrite !map_app. reflexivity.
      + now destruct l0.
    - exists (l0 ++ [Item a q w []]). repeat split.
      + rewrite map_app. cbn [map item_text app]. rewrite E. rewrite !join_snoc. rewrite app_nil_r, !app_assoc.
        rewrite rstrip_app by (now apply pad_p). apply rstrip_stop. rewrite rev_app_distr. cbn [rev] in S2 |- *.
        destruct (rev t); exact S2.
      + apply Forall_app. split; [exact F'|]. constructor; [|constructor]. repeat split; try assumption. constructor.
      + rewrite !map_app. reflexivity.
      + now destruct l0.
  Qed.
  Lemma items_value l o c : l <> [] -> Forall ok l -> Forall (fun c => p c = true) o -> Forall (fun c => p c = true) c ->
    map (fun e => TStr (strip_quotes (strip inner e))) (split_chr ","%char [] (strip p (o ++ join (L ",") (map item_text l) ++ c))) =
    map (fun i => TStr (item_word i)) l.
  Proof.
    intros N F O C. rewrite strip_between by assumption. unfold strip at 2.
    destruct (lstrip_items l N F) as (l1 & -> & F1 & E1 & N1). destruct (rstrip_items l1 N1 F1) as (l2 & -> & F2 & E2 & N2).
    rewrite split_chr_join.
    - rewrite map_map. rewrite <- (map_map item_word TStr l), <- E1, <- E2, map_map. apply map_ext_in. intros i I.
      f_equal. apply (item_value bad); [|exact nl_bad]. now apply (proj1 (Forall_forall _ _) F2).
    - now destruct l2.
    - apply Forall_forall. intros s I. apply in_map_iff in I as ([a q w b] & <- & I). apply (proj1 (Forall_forall _ _) F2) in I as (A & B & W & Q).
      cbn [item_text]. intros J. apply in_app_or in J as [J|J]; [apply (proj1 (Forall_forall _ _) A) in J; cbn in J; intuition discriminate|].
      apply in_app_or in J as [J|J]; [|apply (proj1 (Forall_forall _ _) B) in J; cbn in J; intuition discriminate].
      assert (Jw : In ","%char w). { destruct q as [q|]; [|exact J]. cbn in J. destruct J as [J|J]; [destruct Q as [-> | ->]; discriminate J|].
        apply in_app_or in J as [J|[J|[]]]; [exact J|destruct Q as [-> | ->]; discriminate J]. }
      now apply (proj1 (Forall_forall _ _) W) in Jw.
  Qed.
End Outside.
Definition brackets (round : bool) : str := if round then L "()" else L "[]".
Lemma array_value star round l deep trail : flat_ok deep (Array star round l) -> blanks trail ->
  simple_value (value_text (Array star round l) ++ trail ++ [nl]) = Ok (flat_meaning (Array star round l)).
Proof.
  intros (N & F & _) T. unfold simple_value. cbn [value_text flat_meaning].
  assert (E : (let s := ((if star then L "*" else []) ++ (if round then L "(" else L "[") ++ join (L ",") (map item_text l) ++ (if round then L ")" else L "]")) ++ trail ++ [nl] in
               if starts_with (L "*") s then tl s else s) = (if round then L "(" else L "[") ++ join (L ",") (map item_text l) ++ (if round then L ")" else L "]") ++ trail ++ [nl]).
  { cbv zeta. destruct star, round; cbn [L list_ascii_of_string app starts_with length firstn seqb aeqb]; rewrite <- !app_assoc; reflexivity. }
  cbv zeta in E |- *. rewrite E. clear E.
  assert (TT : Forall (fun c => c = " "%char \/ c = nl) (trail ++ [nl])).
  { apply Forall_app. split; [|constructor; [now right|constructor]]. eapply Forall_impl; [|exact T]. now left. }
  assert (P : forall br, Forall (fun c => mem c (nl :: br ++ L " ") = true) (trail ++ [nl])).
  { intros br. eapply Forall_impl; [|exact TT]. intros c [-> | ->]; apply mem_In; [right; apply in_or_app; right; now left|now left]. }
  assert (I : forall br c, inner c = true -> mem c (nl :: br ++ L " ") = true).
  { intros br c H. apply inner_iff in H as [-> | ->]; apply mem_In; [now left|right; apply in_or_app; right; now left]. }
  destruct round; cbn [L list_ascii_of_string app starts_with length firstn seqb aeqb Ascii.eqb Bool.eqb andb]; unfold list_value; f_equal; f_equal.
  - apply (items_value (fun c => mem c (nl :: L "()" ++ L " ")) ([nl] ++ L "," ++ L "()" ++ (if deep then L "{}" else [])) (I (L "()")) eq_refl (conj eq_refl eq_refl)) with (o := L "(") (c := L ")" ++ trail ++ [nl]).
    + intros c NI H. apply mem_In in H. cbn in H, NI. intuition (subst; tauto).
    + cbn. tauto.
    + cbn. tauto.
    + exact N.
    + exact F.
    + repeat constructor.
    + constructor; [reflexivity|apply (P (L "()"))].
  - apply (items_value (fun c => mem c (nl :: L "[]" ++ L " ")) ([nl] ++ L "," ++ L "[]" ++ (if deep then L "{}" else [])) (I (L "[]")) eq_refl (conj eq_refl eq_refl)) with (o := L "[") (c := L "]" ++ trail ++ [nl]).
    + intros c NI H. apply mem_In in H. cbn in H, NI. intuition (subst; tauto).
    + cbn. tauto.
    + cbn. tauto.
    + exact N.
    + exact F.
    + repeat constructor.
    + constructor; [reflexivity|apply (P (L "[]"))].
Qed.

(** ** Words *)
Lemma starts_with1 c s : starts_with [c] s = match s with x :: _ => aeqb c x | [] => false end.
Proof. unfold starts_with. destruct s as [|x t]; [reflexivity|]. cbn. now rewrite andb_true_r. Qed.
Lemma simple_text s trail : stops inner s -> stops inner (rev s) -> s <> [] -> ~ In (hd " "%char s) (L "{*[(") -> blanks trail ->
  simple_value (s ++ trail ++ [nl]) = Ok (TStr (strip_quotes s)).
Proof.
  intros S1 S2 N H T. unfold simple_value. change (L "*") with [ch "*"]. change (L "[") with [ch "["]. change (L "(") with [ch "("]. change (L "{") with [ch "{"].
  rewrite !starts_with1. destruct s as [|c s]; [easy|]. cbn [app hd] in *.
  assert (A : forall x, In x (L "{*[(") -> aeqb x c = false). { intros x I. apply aeqb_neq. intros ->. now apply H. }
  rewrite (A (ch "*")) by (cbn; tauto). cbv iota.
  rewrite (A (ch "[")), (A (ch "(")), (A (ch "{")) by (cbn; tauto).
  f_equal. f_equal. f_equal. change (c :: s ++ trail ++ [nl]) with ([] ++ (c :: s) ++ trail ++ [nl]). apply strip_around; try assumption; [constructor|].
  apply Forall_app. split; [|repeat constructor]. eapply Forall_impl; [|exact T]. now intros x ->.
Qed.
Lemma space_inner c : is_space c = false -> inner c = false.
Proof. intros H. destruct (inner c) eqn:E; [|reflexivity]. apply inner_iff in E as [-> | ->]; discriminate. Qed.
Lemma word_value w deep trail : flat_ok deep (Word w) -> blanks trail ->
  simple_value (value_text (Word w) ++ trail ++ [nl]) = Ok (flat_meaning (Word w)).
Proof.
  intros (N & A & B & C & U & _) T. cbn [value_text flat_meaning]. rewrite simple_text; auto.
  - now rewrite strip_quotes_unquoted.
  - apply (stops_hd inner w " "%char). now apply space_inner.
  - apply (stops_last inner w " "%char). now apply space_inner.
  - intros ->. discriminate.
  - intros I. apply C. apply in_or_app. now left.
Qed.
Lemma quote_value q w deep trail : flat_ok deep (InQuote q w) -> blanks trail ->
  simple_value (value_text (InQuote q w) ++ trail ++ [nl]) = Ok (flat_meaning (InQuote q w)).
Proof.
  intros (Q & N & _) T. cbn [value_text flat_meaning]. rewrite simple_text; auto.
  - now rewrite strip_quotes_quoted.
  - destruct Q as [-> | ->]; reflexivity.
  - cbn [app]. rewrite app_comm_cons, rev_app_distr. destruct Q as [-> | ->]; reflexivity.
  - discriminate.
  - cbn. destruct Q as [-> | ->]; intuition discriminate.
Qed.
