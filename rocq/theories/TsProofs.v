(** Matching a definition at a cursor. *)
From Coq Require Import String Ascii List Arith Bool Lia.
From Verif Require Import Base StrModel StrSpec StrProofs StrProofs2 CliModel TsModel TsSpec.
Import ListNotations.

Lemma aeqb_eq a b : aeqb a b = true <-> a = b.
Proof. apply Ascii.eqb_eq. Qed.
Lemma aeqb_neq a b : aeqb a b = false <-> a <> b.
Proof. apply Ascii.eqb_neq. Qed.
Lemma aeqb_refl a : aeqb a a = true.
Proof. now apply aeqb_eq. Qed.

(** ** Repetitions *)
Definition stops (p : ascii -> bool) (s : str) : Prop := match s with c :: _ => p c = false | [] => True end.
Lemma zgreedy_run {X} p (k : str -> str -> option X) r w : forall b s,
  Forall (fun c => p c = true) w -> stops p s -> k (rev w ++ b) s = Some r -> zgreedy p b (w ++ s) k = Some r.
Proof.
  induction w as [|c w IH]; intros b s F St K.
  - cbn in K |- *. destruct s as [|c t]; cbn [zgreedy]; [exact K|]. cbn in St. now rewrite St.
  - inversion F; subst. cbn [app zgreedy]. rewrite H1. rewrite (IH (c :: b) s); [reflexivity| |easy|].
    + assumption.
    + cbn [rev] in K. now rewrite <- app_assoc in K.
Qed.
(** with no success anywhere in the run *)
Lemma zgreedy_none {X} p (k : str -> str -> option X) : forall s b,
  (forall w t, s = w ++ t -> Forall (fun c => p c = true) w -> k (rev w ++ b) t = None) -> zgreedy p b s k = None.
Proof.
  induction s as [|c t IH]; intros b H; cbn [zgreedy].
  - now apply (H [] []).
  - destruct (p c) eqn:E.
    + rewrite IH; [now apply (H [] (c :: t))|].
      intros w u -> F. specialize (H (c :: w) u eq_refl). cbn [rev] in H. rewrite <- app_assoc in H. apply H. now constructor.
    + now apply (H [] (c :: t)).
Qed.
Lemma zgreedy_some {X} p (k : str -> str -> option X) r : forall s b, zgreedy p b s k = Some r ->
  exists w t, s = w ++ t /\ Forall (fun c => p c = true) w /\ k (rev w ++ b) t = Some r.
Proof.
  induction s as [|c t IH]; intros b H; cbn [zgreedy] in H.
  - exists [], []. now repeat split.
  - destruct (p c) eqn:E.
    + destruct (zgreedy p (c :: b) t k) as [x|] eqn:Z.
      * injection H as ->. destruct (IH _ Z) as (w & u & -> & F & K). exists (c :: w), u. cbn [rev]. rewrite <- app_assoc.
        repeat split; [now constructor|exact K].
      * exists [], (c :: t). now repeat split.
    + exists [], (c :: t). now repeat split.
Qed.
Lemma zlazy_first {X} p (k : str -> str -> option X) r w : forall b s,
  Forall (fun c => p c = true) w ->
  (forall w1 w2, w = w1 ++ w2 -> w2 <> [] -> k (rev w1 ++ b) (w2 ++ s) = None) ->
  k (rev w ++ b) s = Some r -> zlazy p b (w ++ s) k = Some r.
Proof.
  induction w as [|c w IH]; intros b s F N K.
  - cbn in K |- *. destruct s; cbn [zlazy]; now rewrite K.
  - inversion F; subst. cbn [app zlazy]. rewrite (N [] (c :: w) eq_refl ltac:(easy) : k b (c :: w ++ s) = None). rewrite H1.
    apply IH; [easy| |cbn [rev] in K; now rewrite <- app_assoc in K].
    intros w1 w2 -> H. specialize (N (c :: w1) w2 eq_refl H). cbn [rev] in N. now rewrite <- app_assoc in N.
Qed.
Lemma zchar_hit {X} c b s (k : str -> str -> option X) : zchar c b (c :: s) k = k (c :: b) s.
Proof. unfold zchar. now rewrite aeqb_refl. Qed.
Lemma zchar_miss {X} c x b s (k : str -> str -> option X) : x <> c -> zchar c b (x :: s) k = None.
Proof. intros H. unfold zchar. now rewrite (proj2 (aeqb_neq x c) H). Qed.
Lemma zopt_skip {X} c b s (k : str -> str -> option X) : stops (fun x => aeqb x c) s -> zopt c b s k = k b s.
Proof. intros H. unfold zopt, zchar. destruct s as [|x t]; [easy|]. cbn in H. now rewrite H. Qed.
Lemma zopt_hit {X} c b s (k : str -> str -> option X) r : k (c :: b) s = Some r -> zopt c b (c :: s) k = Some r.
Proof. intros H. unfold zopt. rewrite zchar_hit. now rewrite H. Qed.
Lemma between_app b w : between b (rev w ++ b) = w.
Proof.
  unfold between. rewrite app_length, rev_length. replace (length w + length b - length b) with (length (rev w)) by (rewrite rev_length; lia).
  rewrite firstn_app, Nat.sub_diag, firstn_all. cbn. rewrite app_nil_r. apply rev_involutive.
Qed.

(** ** Characters *)
Lemma white_stop_key c : is_word c = true \/ c = "."%char -> is_space c = false /\ c <> "^"%char /\ c <> "="%char /\ c <> "{"%char /\ c <> "}"%char.
Proof.
  intros H. assert (A : forall c, (negb (is_word c) && negb (aeqb c "."%char)) || (negb (is_space c) && negb (aeqb c "^"%char) && negb (aeqb c "="%char) && negb (aeqb c "{"%char) && negb (aeqb c "}"%char)) = true).
  { intros [[] [] [] [] [] [] [] []]; vm_compute; reflexivity. }
  specialize (A c). assert (B : negb (is_word c) && negb (aeqb c "."%char) = false).
  { destruct H as [H| ->]; [now rewrite H|]. vm_compute. reflexivity. }
  rewrite B in A. cbn [orb] in A. repeat (apply andb_prop in A as [A ?]).
  repeat match goal with H : negb _ = true |- _ => apply negb_true_iff in H end.
  repeat split; try assumption; now apply aeqb_neq.
Qed.
Lemma key_char_iff c : key_char c = true <-> is_word c = true \/ c = "."%char.
Proof. unfold key_char. rewrite orb_true_iff, aeqb_eq. reflexivity. Qed.
Lemma space_not_key c : is_space c = true -> key_char c = false.
Proof.
  intros H. destruct (key_char c) eqn:E; [|easy]. apply key_char_iff, white_stop_key in E. destruct E as [E _]. congruence.
Qed.
Lemma blank_space : is_space " "%char = true.
Proof. reflexivity. Qed.
Lemma nl_space : is_space nl = true.
Proof. reflexivity. Qed.
Lemma blanks_white w : blanks w -> white w.
Proof. intros H. eapply Forall_impl; [|exact H]. now intros c ->. Qed.
Lemma blanks_no_nl w : blanks w -> ~ In nl w.
Proof. intros H I. apply (proj1 (Forall_forall _ _) H) in I. discriminate. Qed.

(** ** Keywords *)
Definition caret_text (caret : bool) : str := if caret then L "^" else [].
Lemma eq_stop s1 t (p : ascii -> bool) : p " "%char = false -> p "="%char = false -> blanks s1 -> stops p (s1 ++ "="%char :: t).
Proof. intros B C F. destruct s1 as [|c s1]; [exact C|]. inversion F; subst. exact B. Qed.
Lemma caret_stop caret s1 t (p : ascii -> bool) : p "^"%char = false -> p " "%char = false -> p "="%char = false -> blanks s1 ->
  stops p (caret_text caret ++ s1 ++ "="%char :: t).
Proof. intros A B C F. destruct caret; [exact A|now apply eq_stop]. Qed.
Lemma key_stop k t : key_ok k -> stops is_space (k ++ t).
Proof. intros [N F]. destruct k as [|c k]; [easy|]. inversion F; subst. cbn. now apply white_stop_key. Qed.
Lemma key_chars k : key_ok k -> Forall (fun c => key_char c = true) k.
Proof. intros [_ K]. eapply Forall_impl; [|exact K]. intros c. apply key_char_iff. Qed.
Lemma zopt_caret {X} caret b s (k : str -> str -> option X) r : stops (fun x => aeqb x (ch "^")) s ->
  k (rev (caret_text caret) ++ b) s = Some r -> zopt (ch "^") b (caret_text caret ++ s) k = Some r.
Proof.
  intros St K. destruct caret; [now apply (zopt_hit "^"%char)|]. cbn in K |- *. now rewrite zopt_skip.
Qed.

(** the next keyword is recognised *)
Definition key_line (more r : str) : Prop :=
  exists ws k caret s1 t, more = ws ++ r /\ r = k ++ caret_text caret ++ s1 ++ "="%char :: t /\ white ws /\ key_ok k /\ blanks s1.
Lemma next_key_ok b more r : bol b = true -> key_line more r -> next_key b more = Some r.
Proof.
  intros B (ws & k & caret & s1 & t & -> & R & W & K & S1). unfold next_key. rewrite B. subst r.
  apply zgreedy_run; [exact W|now apply key_stop|].
  apply zgreedy_run; [now apply key_chars|now apply caret_stop|].
  apply zopt_caret; [now apply eq_stop|].
  apply zgreedy_run; [|reflexivity|apply (zchar_hit "="%char)]. eapply Forall_impl; [|exact S1]. intros c ->. reflexivity.
Qed.
(** whatever is recognised is blanks, keyword characters, perhaps a ^, spaces, = *)
Lemma next_key_shape b s r : next_key b s = Some r ->
  bol b = true /\ exists ws m t, s = ws ++ m ++ "="%char :: t /\ white ws /\ ~ In nl m.
Proof.
  unfold next_key. destruct (bol b); [|discriminate]. intros H. split; [reflexivity|].
  apply zgreedy_some in H as (ws & t1 & -> & W & H). apply zgreedy_some in H as (k & t2 & -> & K & H).
  assert (NK : ~ In nl k). { intros I. apply (proj1 (Forall_forall _ _) K) in I. now rewrite space_not_key in I. }
  assert (Z : forall b t, zgreedy (fun c => aeqb c (ch " ")) b t (fun b3 s3 => zchar (ch "=") b3 s3 (fun _ _ => Some (k ++ t2))) = Some r ->
              exists sp t', t = sp ++ "="%char :: t' /\ ~ In nl sp).
  { clear H. intros b' t H. apply zgreedy_some in H as (sp & t3 & -> & SP & H). unfold zchar in H. destruct t3 as [|x t3]; [discriminate|].
    destruct (aeqb x (ch "=")) eqn:E; [|discriminate]. apply aeqb_eq in E. subst x. exists sp, t3. split; [reflexivity|].
    intros I. apply (proj1 (Forall_forall _ _) SP) in I. discriminate. }
  unfold zopt in H. destruct (zchar (ch "^") _ t2 _) as [x|] eqn:E.
  - unfold zchar in E at 1. destruct t2 as [|x2 t2]; [discriminate|]. destruct (aeqb x2 (ch "^")) eqn:Ex; [|discriminate].
    apply aeqb_eq in Ex. subst x2. injection H as ->. apply Z in E as (sp & t' & -> & SP).
    exists ws, (k ++ "^"%char :: sp), t'. rewrite <- app_assoc. repeat split; auto.
    intros I. apply in_app_or in I as [I|[I|I]]; [auto|discriminate I|auto].
  - apply Z in H as (sp & t' & -> & SP). exists ws, (k ++ sp), t'. rewrite <- app_assoc. repeat split; auto.
    intros I. apply in_app_or in I as [I|I]; auto.
Qed.
(** so nothing is recognised at the start of a line with something else but no = on it *)
Definition solid (x : str) : Prop := exists c, In c x /\ is_space c = false.
Lemma next_key_fail b x t : ~ In "="%char x -> solid x -> next_key b (x ++ nl :: t) = None.
Proof.
  intros NE (c & I & Sc). destruct (next_key b (x ++ nl :: t)) as [r|] eqn:E; [|reflexivity]. exfalso.
  apply next_key_shape in E as (_ & ws & m & t' & Eq & W & NM).
  (* x ++ [nl] is a prefix of ws ++ m *)
  assert (P : exists u, ws ++ m = (x ++ [nl]) ++ u).
  { clear W NM c I Sc. rewrite app_assoc in Eq. revert Eq. generalize (ws ++ m). intros v. revert x NE.
    induction v as [|a v IH]; intros x NE Eq.
    - destruct x as [|y x]; cbn in Eq; [discriminate Eq|]. injection Eq as -> _. exfalso. apply NE. now left.
    - destruct x as [|y x]; cbn in Eq.
      + injection Eq as <- _. now exists v.
      + injection Eq as -> Eq. destruct (IH x) as (u & ->); [intros I; apply NE; now right|exact Eq|]. now exists u. }
  destruct P as (u & P). apply in_split in I as (x1 & x2 & ->). rewrite <- !app_assoc in P. cbn in P.
  clear Eq NE. revert x1 P. induction ws as [|a ws IH]; intros x1 P.
  - cbn in P. apply NM. rewrite P. apply in_or_app. right. right. apply in_or_app. right. now left.
  - inversion W; subst. destruct x1 as [|y x1]; cbn in P.
    + injection P as -> P. congruence.
    + injection P as -> P. now apply (IH H2 x1).
Qed.
Lemma next_key_mid b s : bol b = false -> next_key b s = None.
Proof. unfold next_key. now intros ->. Qed.
Lemma bol_mid w b : ~ In nl w -> bol b = false -> bol (rev w ++ b) = false.
Proof.
  intros N B. destruct w as [|c w] using rev_ind; [exact B|]. rewrite rev_app_distr. cbn. apply aeqb_neq. intros ->. apply N.
  rewrite in_app_iff. right. now left.
Qed.

(** ** One definition, up to its value *)
Lemma definition_ok i k caret s1 s2 vt f r : white i -> key_ok k -> blanks s1 -> white s2 -> ~ In nl s2 -> stops is_space vt ->
  (forall b, bol b = false -> value_re b vt = Some (f, r)) ->
  definition_re [] (i ++ k ++ caret_text caret ++ s1 ++ "="%char :: s2 ++ vt) = Some (k ++ caret_text caret, f, r).
Proof.
  intros I K S1 S2 N2 SV V. unfold definition_re. cbn [bol].
  apply zgreedy_run; [exact I|now apply key_stop|].
  apply zgreedy_run; [now apply key_chars|now apply caret_stop|].
  apply zopt_caret; [now apply eq_stop|].
  apply zgreedy_run; [now apply blanks_white|reflexivity|].
  rewrite (zchar_hit "="%char). apply zgreedy_run; [exact S2|exact SV|].
  rewrite V.
  - f_equal. f_equal. f_equal. rewrite app_assoc, <- rev_app_distr. apply between_app.
  - apply bol_mid; [exact N2|reflexivity].
Qed.

(** nor at the start of a line with a word that is not followed by = *)
Lemma next_key_word b k c t : key_ok k -> is_word c = false -> ~ In c (L ".^ =") -> next_key b (k ++ c :: t) = None.
Proof.
  intros K W N. destruct (next_key b (k ++ c :: t)) as [r|] eqn:E; [|reflexivity]. exfalso. unfold next_key in E. destruct (bol b); [|discriminate].
  apply zgreedy_some in E as (ws & t1 & E1 & WS & E). destruct ws as [|x ws].
  2: { inversion WS; subst. pose proof (key_stop k (c :: t) K) as ST. rewrite E1 in ST. cbn in ST. congruence. }
  cbn [app] in E1. apply zgreedy_some in E as (k1 & t2 & E2 & KC & E).
  assert (H2 : match t2 with y :: _ => key_char y = true \/ y = c | [] => False end).
  { assert (C : key_char c = false). { unfold key_char. rewrite W. cbn. apply aeqb_neq. intros ->. apply N. cbn. tauto. }
    assert (KK : Forall (fun y => key_char y = true) k) by now apply key_chars.
    subst t1. clear - E2 KC C KK. revert k1 E2 KC. induction k as [|y k IH]; intros k1 E2 KC.
    - destruct k1 as [|z k1]; cbn in E2; [subst t2; now right|]. injection E2 as <- _. inversion KC; subst. congruence.
    - inversion KK; subst. destruct k1 as [|z k1]; cbn in E2; [subst t2; now left|]. injection E2 as -> E2. inversion KC; subst. eapply IH; eassumption. }
  destruct t2 as [|y t2]; [contradiction|].
  assert (Y : y <> "^"%char /\ y <> " "%char /\ y <> "="%char).
  { destruct H2 as [H2| ->]; [split; [|split]; intros ->; discriminate H2|]. split; [|split]; intros ->; apply N; cbn; tauto. }
  unfold zopt in E. rewrite zchar_miss in E by tauto. cbn [zgreedy] in E. replace (aeqb y (ch " ")) with false in E by (symmetry; apply aeqb_neq; tauto).
  rewrite zchar_miss in E by tauto. discriminate.
Qed.

(** ** Values that end with their line *)
Lemma lazy_value b v trail more r : bol b = false -> blanks trail -> is_space (last v " "%char) = false ->
  (In nl v -> ~ In "="%char v \/ continued v) -> key_line more r ->
  zlazy any b (v ++ trail ++ nl :: more) (fun b2 s2 => with_next (FValue (between b b2)) b2 s2) = Some (FValue (v ++ trail ++ [nl]), r).
Proof.
  intros B T V NE KL. replace (v ++ trail ++ nl :: more) with ((v ++ trail ++ [nl]) ++ more) by now rewrite <- !app_assoc.
  apply zlazy_first.
  - apply Forall_forall. reflexivity.
  - intros w1 w2 E N. unfold with_next. replace (next_key _ _) with (@None str); [reflexivity|]. symmetry.
    apply app_eq_app in E as (u & [[E1 E2]|[E1 E2]]).
    + (* inside the value *)
      destruct u as [|c u].
      * rewrite app_nil_r in E1. subst w1. cbn in E2. subst w2.
        destruct (in_dec ascii_dec nl v) as [I|I].
        -- destruct v as [|c0 v0] using rev_ind; [easy|]. rewrite last_last in V.
           apply next_key_mid. rewrite rev_app_distr. cbn. apply aeqb_neq. intros ->. discriminate V.
        -- apply next_key_mid. now apply bol_mid.
      * destruct (in_dec ascii_dec nl v) as [I|I].
        -- destruct (NE I) as [NE'|CO].
           2: { destruct w1 as [|z w1] using rev_ind; [now apply next_key_mid|]. destruct (ascii_dec z nl) as [-> |Z].
                - rewrite <- app_assoc in E1. destruct (CO _ _ E1) as (k & d & t & E3 & KO & DW & DN). rewrite E2, E3, <- !app_assoc. now apply next_key_word.
                - apply next_key_mid. rewrite rev_app_distr. cbn. now apply aeqb_neq. }
           replace (w2 ++ more) with ((c :: u) ++ trail ++ nl :: more).
           2: { rewrite E2. now rewrite <- !app_assoc. }
           rewrite app_assoc. apply next_key_fail.
           ++ rename NE' into NE0. clear NE. rename NE0 into NE. intros J. apply in_app_or in J as [J|J].
              ** apply NE. rewrite E1. apply in_or_app. now right.
              ** apply (proj1 (Forall_forall _ _) T) in J. discriminate.
           ++ exists (last v " "%char). split.
              ** apply in_or_app. left. rewrite E1. destruct (@exists_last _ (c :: u) ltac:(easy)) as (u' & z & ->).
                 rewrite app_assoc, last_last. apply in_or_app. right. now left.
              ** exact V.
        -- apply next_key_mid. apply bol_mid; [|exact B]. intros J. apply I. rewrite E1. apply in_or_app. now left.
    + apply next_key_mid. subst w1. rewrite rev_app_distr, <- app_assoc.
      assert (NT : ~ In nl u).
      { intros J. apply app_eq_app in E2 as (u' & [[E3 E4]|[E3 E4]]).
        - apply (blanks_no_nl trail T). rewrite E3. apply in_or_app. now left.
        - destruct u' as [|c u']; [apply (blanks_no_nl trail T); rewrite E3, app_nil_r in J; exact J|].
          cbn in E4. injection E4 as <- E4. symmetry in E4. apply app_eq_nil in E4 as [-> ->]. easy. }
      apply bol_mid; [exact NT|].
      destruct (in_dec ascii_dec nl v) as [I|I]; [|now apply bol_mid].
      destruct v as [|c0 v0] using rev_ind; [easy|]. rewrite last_last in V.
      rewrite rev_app_distr. cbn. apply aeqb_neq. intros ->. discriminate V.
  - unfold with_next. rewrite (next_key_ok _ more r); [|rewrite app_assoc, rev_app_distr; reflexivity|exact KL].
    now rewrite between_app.
Qed.
Lemma value_line b v trail more r : bol b = false -> blanks trail -> is_space (last v " "%char) = false ->
  (In nl v -> ~ In "="%char v \/ continued v) -> key_line more r ->
  (hd " "%char v = "{"%char -> exists c t, v = "{"%char :: c :: t /\ is_space c = false) ->
  (hd " "%char v = dq -> exists w, v = dq :: w ++ [dq] /\ ~ In nl w) ->
  value_re b (v ++ trail ++ nl :: more) = Some (FValue (v ++ trail ++ [nl]), r).
Proof.
  intros B T V NE KL Hb Hq. unfold value_re.
  replace (zchar (ch "{") b (v ++ trail ++ nl :: more) _) with (@None (found * str)).
  2: { symmetry. destruct v as [|c v]; [discriminate V|]. cbn [app]. destruct (ascii_dec c "{"%char) as [-> |D]; [|now apply zchar_miss].
       rewrite (zchar_hit "{"%char). destruct (Hb eq_refl) as (c & t & E & Sc). injection E as ->. cbn [app]. now rewrite Sc. }
  replace (zchar dq b (v ++ trail ++ nl :: more) _) with (@None (found * str)).
  2: { symmetry. destruct v as [|c v]; [discriminate V|]. cbn [app]. destruct (ascii_dec c dq) as [-> |D]; [|now apply zchar_miss].
       rewrite zchar_hit. destruct (Hq eq_refl) as (w & E & N). injection E as ->. apply zgreedy_none.
       intros u t E F. replace (eol t) with false; [reflexivity|]. symmetry. rewrite <- !app_assoc in E. cbn [app] in E.
       clear V NE Hb Hq. revert u E F N. induction w as [|x w IH]; intros u E F N; cbn [app] in E.
       - destruct u as [|y u]; cbn in E; [now subst t|]. injection E as <- E. inversion F; subst. discriminate.
       - destruct u as [|y u]; cbn in E.
         + subst t. cbn. apply aeqb_neq. intros ->. apply N. now left.
         + injection E as <- E. inversion F; subst. apply (IH u E); [assumption|]. intros I. apply N. now right. }
  apply lazy_value; auto.
Qed.
