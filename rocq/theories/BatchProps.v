(** C113: running the commands of a file. *)
From Coq Require Import String Ascii List Arith ZArith Bool Lia.
From Verif Require Import Base StrModel StrSpec StrProofs StrProofs2 StrProps IoModel CliModel CliSpec CliProofs CliProofs2 FmtModel FmtSpec FmtProofs IoProofs4 MainModel BatchModel.
Import ListNotations.

(** ** specification *)
(** the words of a line: what stands between its white space *)
Inductive spaced : list str -> str -> Prop :=
| spaced_end sp : Forall (fun c => is_space c = true) sp -> spaced [] sp
| spaced_word sp w ws r : Forall (fun c => is_space c = true) sp -> w <> [] -> Forall (fun c => is_space c = false) w ->
    (r = [] \/ exists c t, r = c :: t /\ is_space c = true) -> spaced ws r -> spaced (w :: ws) (sp ++ w ++ r).
(** the file of commands holds these lines, and these are the commands among them: all but the blank lines and the comments *)
Definition command_file (fs : files) (src : str) (lines commands : list str) : Prop :=
  file_get fs src = Some (join [nl] lines) /\ lines <> [[]] /\ Forall one_line lines /\
  exists keep, (forall l, keep l = true <-> l <> [] /\ ~ comment_line l) /\ commands = filter keep lines.
(** the number [i] in two figures, or more if needed *)
Definition two_figures (t : str) (i : nat) : Prop := all_digits t /\ digits_value t = Z.of_nat i /\ 2 <= length t /\ (i < 100 -> length t = 2).
(** the run that command [i] with the words [ws] asks for: with an output of its own, if it names none *)
Inductive asked (parse : list str -> res (option str)) (i : nat) (ws : list str) : list str -> Prop :=
| asked_named o : parse ws = Ok (Some o) -> asked parse i ws ws
| asked_numbered t : parse ws = Ok None -> two_figures t i -> asked parse i ws (ws ++ [L "-o"; t ++ L "-out"]).

(** the words of a line as in a shell: between blanks, or between quotes of one kind *)
Definition blank (c : ascii) : Prop := c = " "%char \/ c = ascii_of_nat 9.
Definition blank_or_end (r : str) : Prop := r = [] \/ exists c t, r = c :: t /\ blank c.
Inductive shell_line : list str -> str -> Prop :=
| shell_end sp : Forall blank sp -> shell_line [] sp
| shell_plain sp w ws r : Forall blank sp -> w <> [] -> Forall (fun c => ~ blank c /\ c <> dq /\ c <> sq /\ c <> bsl) w ->
    blank_or_end r -> shell_line ws r -> shell_line (w :: ws) (sp ++ w ++ r)
| shell_quoted sp q w ws r : Forall blank sp -> q = dq \/ q = sq -> Forall (fun c => c <> q /\ c <> bsl) w ->
    blank_or_end r -> shell_line ws r -> shell_line (w :: ws) (sp ++ q :: w ++ q :: r).
(** demonstration [i] with the words [ws] *)
Definition demonstration (i : nat) (ws run : list str) : Prop := exists t, two_figures t i /\ run = L "-o" :: (L "demo/" ++ t ++ L "-demo") :: ws.

(** ** proofs *)
Lemma split_word w : forall acc r, Forall (fun c => is_space c = false) w -> split_from acc (w ++ r) = split_from (rev w ++ acc) r.
Proof.
  induction w as [|c w IH]; intros acc r F; [reflexivity|]. inversion F as [|? ? Fc Fw]; subst. cbn [app split_from]. rewrite Fc, (IH _ _ Fw).
  cbn [rev]. now rewrite <- app_assoc.
Qed.
Lemma split_spaces sp : forall r, Forall (fun c => is_space c = true) sp -> split_from [] (sp ++ r) = split_from [] r.
Proof.
  induction sp as [|c w IH]; intros r F; [reflexivity|]. inversion F as [|? ? Fc Fw]; subst. cbn [app split_from]. rewrite Fc. cbn [app]. now apply IH.
Qed.
Lemma spaced_split ws s : spaced ws s -> py_split s = ws.
Proof.
  unfold py_split. induction 1 as [sp F|sp w ws r F NE W R S IH].
  - rewrite <- (app_nil_r sp). now rewrite split_spaces.
  - rewrite split_spaces, split_word, app_nil_r by assumption.
    assert (NR : rev w <> []) by (intros E; apply NE; rewrite <- (rev_involutive w), E; reflexivity).
    destruct R as [->|(c & t & -> & SC)].
    + cbn [split_from] in *. subst ws. rewrite <- (rev_involutive w) at 2. now destruct (rev w).
    + cbn [split_from] in *. rewrite SC in *. cbn [app] in IH. rewrite IH. rewrite <- (rev_involutive w) at 2. now destruct (rev w).
Qed.
Lemma spaced_more c ws s : is_space c = true -> spaced ws s -> spaced ws (c :: s).
Proof.
  intros C [sp F|sp w ws' r F NE W R S]; [constructor; now constructor|].
  change (c :: sp ++ w ++ r) with ((c :: sp) ++ w ++ r). constructor; auto.
Qed.
Lemma spaced_total s : exists ws, spaced ws s.
Proof.
  enough (H : (exists ws, spaced ws s) /\ (exists w ws r, s = w ++ r /\ Forall (fun c => is_space c = false) w /\ (r = [] \/ exists c t, r = c :: t /\ is_space c = true) /\ spaced ws r)) by apply H.
  induction s as [|c s ((ws & A) & (w & ws' & r & E & W & R & B))].
  - split; [exists []; constructor; constructor|]. exists [], [], []. split; [reflexivity|]. split; [constructor|]. split; [now left|constructor; constructor].
  - destruct (is_space c) eqn:C.
    + assert (H := spaced_more c ws s C A). split; [now exists ws|]. exists [], ws, (c :: s). split; [reflexivity|]. split; [constructor|]. split; [right; now exists c, s|exact H].
    + split.
      * exists ((c :: w) :: ws'). subst s. change (c :: w ++ r) with ([] ++ (c :: w) ++ r). constructor; auto; try discriminate; now constructor.
      * exists (c :: w), ws', r. subst s. repeat split; auto.
Qed.
Lemma short_number t : all_digits t -> length t <= 1 -> (digits_value t < 10)%Z.
Proof.
  intros D H. destruct t as [|c [|? ?]]; cbn in H; [reflexivity| |lia]. inversion D as [|? ? A _]; subst. unfold digits_value. cbn [fold_left].
  unfold is_digit, code_in in A. unfold digit_value. apply andb_true_iff in A. rewrite !Nat.leb_le in A. lia.
Qed.
Lemma two_figures_ok i : two_figures (two_digits i) i.
Proof.
  unfold two_figures, two_digits, int_str. destruct (Z.ltb_spec (Z.of_nat i) 0); [lia|].
  destruct (dec_str_spec (Z.of_nat i) ltac:(lia)) as (D & NE & V). assert (L1 := dec_str_length (Z.of_nat i)).
  destruct (Nat.ltb_spec i 10).
  - destruct (Z.ltb_spec (Z.of_nat i) 10); [|lia]. specialize (L1 ltac:(lia)).
    assert (LE : length (dec_str (Z.of_nat i)) = 1) by (destruct (dec_str (Z.of_nat i)) as [|? [|? ?]]; [congruence|reflexivity|cbn in L1; lia]).
    split; [|split; [|split]].
    + apply Forall_app. split; [repeat constructor|exact D].
    + rewrite digits_value_app, V. change (digits_value (L "0")) with 0%Z. lia.
    + rewrite app_length, LE. cbn. lia.
    + intros _. rewrite app_length, LE. reflexivity.
  - assert (G : 2 <= length (dec_str (Z.of_nat i))).
    { destruct (le_lt_dec 2 (length (dec_str (Z.of_nat i)))) as [G|G]; [exact G|]. exfalso.
      assert (B := short_number _ D ltac:(lia)). rewrite V in B. lia. }
    split; [exact D|]. split; [exact V|]. split; [exact G|]. intros B. destruct (Z.ltb_spec (Z.of_nat i) 10); [lia|]. specialize (L1 ltac:(lia)). lia.
Qed.
Lemma commands_read fs src lines commands : command_file fs src lines commands -> read_textfile fs src true true false = Ok commands.
Proof.
  intros (G & NE & O & keep & K & ->). unfold read_textfile. rewrite G, (read_text_join lines true true false NE O). cbv zeta. f_equal. clear NE G O.
  induction lines as [|l r IH]; [reflexivity|]. cbn [filter]. specialize (K l). rewrite <- comment_test in K.
  destruct (seqb_spec l []) as [->|N].
  - cbn [negb]. rewrite IH. destruct (keep []); [|reflexivity]. now destruct (proj1 K eq_refl).
  - cbn [negb filter]. rewrite IH. destruct (starts_with _ _) eqn:C.
    + cbn [negb]. destruct (keep l); [|reflexivity]. now destruct (proj1 K eq_refl) as (_ & X).
    + cbn [negb]. destruct (keep l); [reflexivity|]. assert (X : false = true) by (apply K; split; [exact N|discriminate]). discriminate.
Qed.
(** the runs before the first that goes wrong *)
Lemma run_all main l calls : Forall2 (fun a c => a = Ok c) l calls -> Forall (fun c => main c = None) calls -> run_each main l = (calls, None).
Proof.
  intros F. induction F as [|a c l calls E F IH]; intros M; [reflexivity|]. inversion M as [|? ? M1 M2]; subst. cbn [run_each]. now rewrite M1, (IH M2).
Qed.
Lemma run_stop main l calls x r e : Forall2 (fun a c => a = Ok c) l calls -> Forall (fun c => main c = None) calls ->
  match x with Ok a => main a = Some e | Err e' => e' = e end ->
  run_each main (l ++ x :: r) = (calls ++ match x with Ok a => [a] | Err _ => [] end, Some e).
Proof.
  intros F. induction F as [|a c l calls E F IH]; intros M X.
  - cbn [app run_each]. destruct x; [now rewrite X|now subst].
  - inversion M as [|? ? M1 M2]; subst. cbn [app run_each]. now rewrite M1, (IH M2 X).
Qed.
Lemma stopping (main : list str -> option exn) runs k a e : nth_error runs k = Some a -> main a = Some e -> (forall j b, j < k -> nth_error runs j = Some b -> main b = None) ->
  Forall (fun c => main c = None) (firstn k runs) /\ exists r, runs = firstn k runs ++ a :: r /\ firstn (S k) runs = firstn k runs ++ [a].
Proof.
  intros N M B. destruct (nth_error_split runs k N) as (l1 & l2 & -> & EL). subst k.
  rewrite firstn_app, firstn_all, Nat.sub_diag, firstn_O, app_nil_r. split.
  - apply Forall_forall. intros c Hc. apply In_nth_error in Hc. destruct Hc as (j & Hj). apply (B j c).
    + apply nth_error_Some. congruence.
    + rewrite nth_error_app1; [exact Hj|]. apply nth_error_Some. congruence.
  - exists l2. split; [reflexivity|]. rewrite firstn_app. replace (S (length l1) - length l1) with 1 by lia. rewrite firstn_all2 by lia. reflexivity.
Qed.
Lemma Forall2_Ok {A} (l : list A) : Forall2 (fun a c => a = Ok c) (map Ok l) l.
Proof. induction l; constructor; auto. Qed.
Lemma run_first main runs k a e tl : nth_error runs k = Some a -> main a = Some e -> (forall j b, j < k -> nth_error runs j = Some b -> main b = None) ->
  run_each main (map Ok runs ++ tl) = (firstn (S k) runs, Some e).
Proof.
  intros N M B. destruct (stopping main runs k a e N M B) as (F & r & E & ->). rewrite E at 1. rewrite map_app, <- app_assoc. cbn [map app].
  rewrite (run_stop main _ (firstn k runs) (Ok a) _ e (Forall2_Ok _) F M). reflexivity.
Qed.
Lemma run_ok main runs : (forall a, In a runs -> main a = None) -> run_each main (map Ok runs) = (runs, None).
Proof. intros H. apply run_all; [apply Forall2_Ok|]. now apply Forall_forall. Qed.
Lemma enumerated parse : forall good cs k, Forall2 spaced good cs -> (forall ws, In ws good -> exists o, parse ws = Ok o) ->
  exists runs, map (source_args parse) (combine (seq k (length cs)) cs) = map Ok runs /\ length runs = length good /\
    forall i ws, nth_error good i = Some ws -> exists a, nth_error runs i = Some a /\ asked parse (k + i) ws a.
Proof.
  intros good cs k F. revert k. induction F as [|ws c good cs S F IH]; intros k P.
  - exists []. repeat split. intros [|i] ws E; discriminate.
  - destruct (IH (Datatypes.S k)) as (runs & E & LE & N); [intros; apply P; now right|]. destruct (P ws (or_introl eq_refl)) as (o & EO).
    assert (HA : exists a, source_args parse (k, c) = Ok a /\ asked parse k ws a).
    { unfold source_args. rewrite (spaced_split _ _ S), EO. cbn [bind]. destruct o as [o|].
      - exists ws. split; [reflexivity|]. now apply asked_named with o.
      - eexists. split; [reflexivity|]. apply asked_numbered; [exact EO|apply two_figures_ok]. }
    destruct HA as (a & EA & A). exists (a :: runs). cbn [length seq combine map]. rewrite EA, E. split; [reflexivity|]. split; [now rewrite LE|].
    intros [|i] ws' E'; cbn [nth_error] in *.
    + injection E' as <-. exists a. split; [reflexivity|]. now rewrite Nat.add_0_r.
    + destruct (N i ws' E') as (a' & E1 & E2). exists a'. split; [exact E1|]. now replace (k + Datatypes.S i) with (Datatypes.S k + i) by lia.
Qed.

(** ** C113 *)
(** the commands up to the first that the command line does not allow are run in order, up to the first whose run fails *)
Theorem C113_in_order : forall parse fs src lines commands good rest,
  command_file fs src lines commands -> Forall2 spaced (good ++ rest) commands -> (forall ws, In ws good -> exists o, parse ws = Ok o) ->
  exists runs, length runs = length good /\
    (forall i ws, nth_error good i = Some ws -> exists a, nth_error runs i = Some a /\ asked parse i ws a) /\
    forall main,
      (rest = [] -> (forall a, In a runs -> main a = None) -> source_cmds parse main fs src = (runs, None)) /\
      (forall ws r e, rest = ws :: r -> parse ws = Err e -> (forall a, In a runs -> main a = None) -> source_cmds parse main fs src = (runs, Some e)) /\
      (forall k a e, nth_error runs k = Some a -> main a = Some e -> (forall j b, j < k -> nth_error runs j = Some b -> main b = None) ->
         source_cmds parse main fs src = (firstn (S k) runs, Some e)).
Proof.
  intros parse fs src lines commands good rest CF F P. apply Forall2_app_inv_l in F. destruct F as (cs & cr & F1 & F2 & ->).
  destruct (enumerated parse good cs 0 F1 P) as (runs & E & LE & N). exists runs. split; [exact LE|]. split; [exact N|].
  intros main. unfold source_cmds. rewrite (commands_read _ _ _ _ CF). unfold enumerate.
  rewrite app_length, seq_app. cbn [Nat.add].
  assert (CA : forall x, combine (seq 0 (length cs) ++ x) (cs ++ cr) = combine (seq 0 (length cs)) cs ++ combine x cr).
  { intros x. generalize 0. clear. induction cs as [|c cs IH]; intros k; [reflexivity|]. cbn. now rewrite IH. }
  rewrite CA, map_app, E. split; [|split].
  - intros -> M. inversion F2; subst. cbn [length seq combine map]. rewrite app_nil_r. now apply run_ok.
  - intros ws r e -> PE M. inversion F2 as [|? c ? cr' S F3]; subst. cbn [length seq combine map].
    assert (EA : source_args parse (length cs, c) = Err e) by (unfold source_args; rewrite (spaced_split _ _ S), PE; reflexivity).
    rewrite EA. rewrite (run_stop main _ runs (Err e) _ e (Forall2_Ok _)); [now rewrite app_nil_r|now apply Forall_forall|reflexivity].
  - intros k a e Nk M B. now apply (run_first main runs k a).
Qed.
(** commands without an output of their own get different ones *)
Theorem C113_outputs_apart : forall t u i j, two_figures t i -> two_figures u j -> t ++ L "-out" = u ++ L "-out" \/ L "demo/" ++ t ++ L "-demo" = L "demo/" ++ u ++ L "-demo" -> i = j.
Proof.
  intros t u i j (_ & V & _) (_ & W & _) E. assert (T : t = u) by (destruct E as [E|E]; [now apply app_inv_tail in E|apply app_inv_head in E; now apply app_inv_tail in E]).
  subst u. lia.
Qed.
(** every line has words *)
Theorem C113_words : forall s, exists ws, spaced ws s /\ forall vs, spaced vs s -> vs = ws.
Proof. intros s. destruct (spaced_total s) as (ws & H). exists ws. split; [exact H|]. intros vs V. now rewrite <- (spaced_split _ _ H), <- (spaced_split _ _ V). Qed.
Lemma blank_white c : blank c -> sh_white c = true.
Proof. intros [->| ->]; reflexivity. Qed.
Lemma sh_blanks sp r : Forall blank sp -> sh_split ShSpace [] false (sp ++ r) = sh_split ShSpace [] false r.
Proof. induction 1 as [|c sp B F IH]; [reflexivity|]. cbn [app sh_split]. now rewrite (blank_white c B). Qed.
Lemma sh_plain_word w : forall tok q r, Forall (fun c => sh_white c = false /\ c <> dq /\ c <> sq /\ c <> bsl) w ->
  sh_split ShWord tok q (w ++ r) = sh_split ShWord (rev w ++ tok) q r.
Proof.
  induction w as [|c w IH]; intros tok q r F; [reflexivity|]. inversion F as [|? ? (A & B & C & D) F']; subst. cbn [app sh_split].
  unfold is_quote_char. rewrite A. destruct (aeqb_spec c dq); [congruence|]. destruct (aeqb_spec c sq); [congruence|]. destruct (aeqb_spec c bsl); [congruence|].
  cbn [orb]. rewrite IH by assumption. cbn [rev]. now rewrite <- app_assoc.
Qed.
Lemma sh_plain_start c r : sh_white c = false -> c <> dq -> c <> sq -> c <> bsl -> sh_split ShSpace [] false (c :: r) = sh_split ShWord [c] false r.
Proof.
  intros A B C D. cbn [sh_split].
  unfold is_quote_char. rewrite A. destruct (aeqb_spec c dq); [congruence|]. destruct (aeqb_spec c sq); [congruence|]. now destruct (aeqb_spec c bsl).
Qed.
Lemma sh_in_quotes q w : forall tok b r, Forall (fun c => c <> q /\ c <> bsl) w ->
  sh_split (ShQuote q) tok b (w ++ q :: r) = sh_split ShWord (rev w ++ tok) true r.
Proof.
  induction w as [|c w IH]; intros tok b r F.
  - cbn [app sh_split rev]. now destruct (aeqb_spec q q).
  - inversion F as [|? ? (A & B) F']; subst. cbn [app sh_split]. destruct (aeqb_spec c q); [congruence|]. destruct (aeqb_spec c bsl); [congruence|].
    cbn [andb]. rewrite IH by assumption. cbn [rev]. now rewrite <- app_assoc.
Qed.
Lemma blank_white_end r : blank_or_end r -> white_or_end r.
Proof. intros [->|(c & t & -> & B)]; [now left|]. right. exists c, t. split; [reflexivity|now apply blank_white]. Qed.
Lemma shell_line_split ws s : Forall (fun c => sh_white c = true -> blank c) s -> shell_line ws s -> shlex_split s = Ok ws.
Proof.
  intros O H. unfold shlex_split. revert O. induction H as [sp F|sp w ws r F NE W R S IH|sp q w ws r F Q W R S IH]; intros O.
  - rewrite <- (app_nil_r sp). now rewrite sh_blanks.
  - rewrite sh_blanks by assumption. apply Forall_app in O. destruct O as (_ & O). apply Forall_app in O. destruct O as (O1 & O2). specialize (IH O2).
    assert (W' : Forall (fun c => sh_white c = false /\ c <> dq /\ c <> sq /\ c <> bsl) w).
    { rewrite Forall_forall in *. intros c Hc. destruct (W c Hc) as (A & B). split; [|exact B]. destruct (sh_white c) eqn:E; [|reflexivity]. now elim A; apply O1. }
    destruct w as [|c w]; [congruence|]. inversion W' as [|? ? (A & B & C & D) W'']; subst. cbn [app]. rewrite sh_plain_start by assumption.
    rewrite sh_plain_word by assumption. rewrite sh_finish; [|now apply blank_white_end|left; destruct (rev w); discriminate]. rewrite IH. cbn [bind].
    rewrite rev_app_distr, rev_involutive. reflexivity.
  - rewrite sh_blanks by assumption. apply Forall_app in O. destruct O as (_ & O). inversion O as [|? ? _ O']; subst. apply Forall_app in O'. destruct O' as (_ & O'). inversion O' as [|? ? _ O'']; subst.
    specialize (IH O''). assert (ST : forall t, sh_split ShSpace [] false (q :: t) = sh_split (ShQuote q) [] false t) by (intros t; destruct Q as [->| ->]; reflexivity).
    rewrite ST, sh_in_quotes by assumption. rewrite sh_finish; [|now apply blank_white_end|now right]. rewrite IH. cbn [bind]. now rewrite app_nil_r, rev_involutive.
Qed.
Lemma one_line_white s : one_line s -> Forall (fun c => sh_white c = true -> blank c) s.
Proof.
  unfold one_line. apply Forall_impl. intros c B W. apply mem_In in W. cbn in W. unfold blank. decompose [or] W; auto; subst; try discriminate; contradiction.
Qed.
(** without quotes the words are the same *)
Theorem C113_unquoted : forall ws s, shell_line ws s -> ~ In dq s -> ~ In sq s -> (forall c, In c s -> is_space c = true -> blank c) -> spaced ws s.
Proof.
  intros ws s H. induction H as [sp F|sp w ws r F NE W R S IH|sp q w ws r F Q W R S IH]; intros N1 N2 B.
  - constructor. revert F. apply Forall_impl. intros c [->| ->]; reflexivity.
  - constructor; auto.
    + revert F. apply Forall_impl. intros c [->| ->]; reflexivity.
    + rewrite Forall_forall in *. intros c Hc. destruct (W c Hc) as (A & _). destruct (is_space c) eqn:E; [|reflexivity]. elim A. apply B; [|exact E].
      apply in_or_app. right. apply in_or_app. now left.
    + destruct R as [->|(c & t & -> & X)]; [now left|right]. exists c, t. split; [reflexivity|]. now destruct X as [->| ->].
    + apply IH; [intros X; apply N1|intros X; apply N2|intros c X; apply B]; apply in_or_app; right; apply in_or_app; now right.
  - exfalso. destruct Q as [->| ->]; [apply N1|apply N2]; apply in_or_app; right; now left.
Qed.
Lemma digits_harmless t : all_digits t -> harmless t.
Proof.
  apply Forall_impl. intros c H. unfold shell_safe. unfold is_word. now rewrite H.
Qed.
Lemma demo_harmless t : all_digits t -> harmless (L "demo/" ++ t ++ L "-demo").
Proof. intros D. apply Forall_app. split; [repeat constructor|]. apply Forall_app. split; [now apply digits_harmless|repeat constructor]. Qed.
Lemma demo_words t c ws : all_digits t -> shlex_split c = Ok ws -> shlex_split (L "-o " ++ L "demo/" ++ t ++ L "-demo " ++ c) = Ok (L "-o" :: (L "demo/" ++ t ++ L "-demo") :: ws).
Proof.
  intros D E. unfold shlex_split in *.
  replace (L "-o " ++ L "demo/" ++ t ++ L "-demo " ++ c) with (L "-o" ++ " "%char :: (L "demo/" ++ t ++ L "-demo") ++ " "%char :: c) by (rewrite <- !app_assoc; reflexivity).
  rewrite sh_harmless; [|discriminate|repeat constructor]. rewrite sh_finish; [|right; eexists _, _; split; reflexivity|left; discriminate].
  change (sh_split ShSpace [] false (" "%char :: ?x)) with (sh_split ShSpace [] false x).
  rewrite sh_harmless; [|discriminate|now apply demo_harmless]. rewrite sh_finish; [|right; eexists _, _; split; reflexivity|left; intros X; apply (f_equal (@rev _)) in X; rewrite rev_involutive in X; discriminate].
  change (sh_split ShSpace [] false (" "%char :: c)) with (sh_split ShSpace [] false c). rewrite E. cbn [bind]. now rewrite !rev_involutive.
Qed.
Lemma same_elements {A} (l : list A) : forall m, (forall i, nth_error l i = nth_error m i) -> l = m.
Proof.
  induction l as [|x l IH]; intros [|y m] H; [reflexivity|discriminate (H 0)|discriminate (H 0)|]. injection (H 0) as ->. f_equal. apply IH. intros i. exact (H (S i)).
Qed.
Lemma two_digits_nat i : two_digits_z (Z.of_nat i) = two_digits i.
Proof. unfold two_digits_z. destruct (Z.ltb_spec (Z.of_nat i) 0); [lia|]. now rewrite Nat2Z.id. Qed.
Lemma pyindex_nat {A} (l : list A) i : pyindex l (Z.of_nat i) = match nth_error l i with Some x => Ok x | None => Err IndexError end.
Proof. unfold pyindex. destruct (Z.ltb_spec (Z.of_nat i) 0); [lia|]. destruct (Z.ltb_spec (Z.of_nat i) 0); [lia|]. now rewrite Nat2Z.id. Qed.
(** the demonstrations are run in order, all or the chosen ones, up to the first whose run fails *)
Theorem C113_demonstrations : forall fs src lines commands wss, command_file fs src lines commands -> Forall2 shell_line wss commands ->
  exists runs, length runs = length wss /\ (forall i ws, nth_error wss i = Some ws -> exists a, nth_error runs i = Some a /\ demonstration i ws a) /\
    forall main,
      ((forall a, In a runs -> main a = None) -> run_demo main fs src None = (runs, None)) /\
      (forall k a e, nth_error runs k = Some a -> main a = Some e -> (forall j b, j < k -> nth_error runs j = Some b -> main b = None) ->
         run_demo main fs src None = (firstn (S k) runs, Some e)) /\
      (forall numbers chosen, Forall2 (fun n a => nth_error runs n = Some a) numbers chosen -> (forall a, In a chosen -> main a = None) ->
         run_demo main fs src (Some (map Z.of_nat numbers)) = (chosen, None) /\
         forall n more, length commands <= n -> run_demo main fs src (Some (map Z.of_nat numbers ++ Z.of_nat n :: more)) = (chosen, Some IndexError)).
Proof.
  intros fs src lines commands wss CF F.
  assert (O : Forall one_line commands).
  { destruct CF as (_ & _ & O & keep & _ & ->). rewrite Forall_forall in *. intros l Hl. apply filter_In in Hl. now apply O. }
  set (runs := map (fun p => L "-o" :: (L "demo/" ++ two_digits (fst p) ++ L "-demo") :: snd p) (combine (seq 0 (length wss)) wss)).
  assert (LW : length wss = length commands) by (clear - F; induction F; cbn; congruence).
  assert (NR : forall i, nth_error runs i = match nth_error wss i with Some ws => Some (L "-o" :: (L "demo/" ++ two_digits i ++ L "-demo") :: ws) | None => None end).
  { intros i. unfold runs. rewrite nth_error_map. assert (G : forall k (l : list (list str)) i, nth_error (combine (seq k (length l)) l) i = match nth_error l i with Some x => Some (k + i, x) | None => None end).
    { intros k l. revert k. clear. induction l as [|x l IH]; intros k [|i]; try reflexivity; cbn [length seq combine nth_error]; [now rewrite Nat.add_0_r|].
      rewrite IH. now rewrite <- plus_n_Sm. }
    rewrite G. now destruct (nth_error wss i). }
  assert (LR : length runs = length wss) by (unfold runs; rewrite map_length, combine_length, seq_length; lia).
  assert (DA : forall i a, nth_error runs i = Some a -> demo_args commands (Z.of_nat i) = Ok a).
  { intros i a E. rewrite NR in E. destruct (nth_error wss i) as [ws|] eqn:EW; [|discriminate]. injection E as <-. unfold demo_args. rewrite pyindex_nat, two_digits_nat.
    assert (X : exists c, nth_error commands i = Some c /\ shell_line ws c).
    { clear - F EW. revert i EW. induction F as [|a c l m H F IH]; intros [|i] E; try discriminate; [injection E as <-; now exists c|now apply IH]. }
    destruct X as (c & EC & S). rewrite EC. cbn [bind]. apply demo_words; [apply two_figures_ok|]. apply shell_line_split; [|exact S]. apply one_line_white.
    rewrite Forall_forall in O. apply O. now apply nth_error_In in EC. }
  assert (ALL : map (demo_args commands) (map Z.of_nat (seq 0 (length commands))) = map Ok runs).
  { rewrite map_map. apply same_elements. intros i. rewrite !nth_error_map. destruct (lt_dec i (length commands)) as [Hi|Hi].
    - rewrite (nth_error_nth' (seq 0 (length commands)) 0) by (rewrite seq_length; exact Hi). rewrite seq_nth by exact Hi. cbn [option_map Nat.add].
      destruct (nth_error runs i) as [a|] eqn:E; [cbn; now rewrite (DA i a E)|]. apply nth_error_None in E. lia.
    - rewrite (proj2 (nth_error_None (seq 0 _) i)) by (rewrite seq_length; lia). rewrite (proj2 (nth_error_None runs i)) by lia. reflexivity. }
  exists runs. split; [exact LR|]. split.
  { intros i ws E. exists (L "-o" :: (L "demo/" ++ two_digits i ++ L "-demo") :: ws). split; [rewrite NR, E; reflexivity|]. exists (two_digits i). split; [apply two_figures_ok|reflexivity]. }
  intros main. unfold run_demo. rewrite (commands_read _ _ _ _ CF). rewrite ALL. split; [apply run_ok|]. split.
  { intros k a e N M B. rewrite <- (app_nil_r (map Ok runs)). now apply (run_first main runs k a). }
  intros numbers chosen C M.
  assert (F2 : Forall2 (fun a c => a = Ok c) (map (demo_args commands) (map Z.of_nat numbers)) chosen).
  { clear M. induction C as [|n a numbers chosen E C IH]; [constructor|]. cbn [map]. constructor; [now apply DA|exact IH]. }
  split; [apply run_all; [exact F2|now apply Forall_forall]|].
  intros n more Hn. rewrite map_app. cbn [map].
  assert (EN : demo_args commands (Z.of_nat n) = Err IndexError).
  { unfold demo_args. rewrite pyindex_nat. now rewrite (proj2 (nth_error_None commands n) Hn). }
  rewrite EN, (run_stop main _ chosen (Err IndexError) _ IndexError F2); [now rewrite app_nil_r|now apply Forall_forall|reflexivity].
Qed.
(** quotes do not keep words together in a file of commands, as they do in the demonstrations *)
Theorem C113_quotes_refuted : forall fs src parse main, file_get fs src = Some (L "-title " ++ [dq] ++ L "a b" ++ [dq]) ->
  (forall ws, exists o, parse ws = Ok (Some o)) -> (forall a, main a = None) ->
  source_cmds parse main fs src = ([[L "-title"; dq :: L "a"; L "b" ++ [dq]]], None) /\
  run_demo main fs src None = ([[L "-o"; L "demo/00-demo"; L "-title"; L "a b"]], None).
Proof.
  intros fs src parse main G P M. unfold source_cmds, run_demo, read_textfile. rewrite G.
  set (t := read_text _ _ _ _). vm_compute in t. subst t. cbv beta iota zeta. split.
  - set (e := enumerate _). vm_compute in e. subst e. cbn [map]. unfold source_args. set (p := py_split _). vm_compute in p. 
    destruct (P p) as (o & ->). cbn [bind run_each]. rewrite M. reflexivity.
  - set (e := map (demo_args _) _). vm_compute in e. subst e. cbn [run_each]. rewrite M. reflexivity.
Qed.
(** a line of white space is a command *)
Theorem C113_white_line_refuted : forall fs src parse main, file_get fs src = Some (L " ") -> parse [] = Ok None -> (forall a, main a = None) ->
  source_cmds parse main fs src = ([[L "-o"; L "00-out"]], None).
Proof.
  intros fs src parse main G P M. unfold source_cmds, read_textfile. rewrite G.
  set (t := read_text _ _ _ _). vm_compute in t. subst t. cbv beta iota zeta.
  set (e := enumerate _). vm_compute in e. subst e. cbn [map]. unfold source_args. change (py_split _) with (@nil str). rewrite P. cbn [bind run_each]. rewrite M. reflexivity.
Qed.
Example C113_hypotheses_met :
  let fs := [(L "f", join [nl] [L "# my runs"; L "-cs 1  -p source=a.diam"; []; L "-demo"; L "-o b"])] in
  let parse a := if existsb (seqb (L "-x")) a then Err SysExit else Ok (if existsb (seqb (L "-o")) a then Some [] else None) in
  command_file fs (L "f") [L "# my runs"; L "-cs 1  -p source=a.diam"; []; L "-demo"; L "-o b"] [L "-cs 1  -p source=a.diam"; L "-demo"; L "-o b"] /\
  spaced [L "-cs"; L "1"] (L "-cs  1 ") /\ shell_line [L "-cs"; L "1"; L "a b"] (L "-cs  1 'a b'") /\
  source_cmds parse (fun _ => None) fs (L "f") =
    ([[L "-cs"; L "1"; L "-p"; L "source=a.diam"; L "-o"; L "00-out"]; [L "-demo"; L "-o"; L "01-out"]; [L "-o"; L "b"]], None) /\
  source_cmds parse (fun a => if seqb (hd [] a) (L "-demo") then Some KeyError else None) fs (L "f") =
    ([[L "-cs"; L "1"; L "-p"; L "source=a.diam"; L "-o"; L "00-out"]; [L "-demo"; L "-o"; L "01-out"]], Some KeyError) /\
  run_demo (fun _ => None) fs (L "f") (Some [1; 5]%Z) = ([[L "-o"; L "demo/01-demo"; L "-demo"]], Some IndexError).
Proof.
  cbv zeta. split; [|split; [|split; [|repeat split; vm_compute; reflexivity]]].
  - split; [vm_compute; reflexivity|]. split; [discriminate|]. split; [repeat constructor|].
    exists (fun l => negb (seqb l []) && negb (starts_with (L "#") (lstrip is_space l))). split; [|vm_compute; reflexivity].
    intros l. rewrite andb_true_iff, !negb_true_iff, <- comment_test, not_true_iff_false. destruct (seqb_spec l []) as [->|N]; intuition congruence.
  - apply (spaced_word [] (L "-cs") [L "1"] (L "  1 ")); [constructor|discriminate|repeat constructor|right; now exists " "%char, (L " 1 ")|].
    apply (spaced_word (L "  ") (L "1") [] (L " ")); [repeat constructor|discriminate|repeat constructor|right; now exists " "%char, []|]. constructor. repeat constructor.
  - assert (NB : forall c, aeqb c " "%char = false -> aeqb c (ascii_of_nat 9) = false -> ~ blank c) by (intros c A B [->| ->]; discriminate).
    apply (shell_plain [] (L "-cs") [L "1"; L "a b"] (L "  1 'a b'")); [constructor|discriminate| |right; exists " "%char, (L " 1 'a b'"); split; [reflexivity|now left]|].
    { repeat constructor; try discriminate; apply NB; reflexivity. }
    apply (shell_plain (L "  ") (L "1") [L "a b"] (L " 'a b'")); [repeat constructor|discriminate| |right; exists " "%char, (L "'a b'"); split; [reflexivity|now left]|].
    { repeat constructor; try discriminate; apply NB; reflexivity. }
    apply (shell_quoted (L " ") sq (L "a b") [] []); [repeat constructor|now right|repeat constructor; discriminate|now left|]. constructor. constructor.
Qed.
Print Assumptions C113_in_order.
Print Assumptions C113_outputs_apart.
Print Assumptions C113_words.
Print Assumptions C113_unquoted.
Print Assumptions C113_demonstrations.
Print Assumptions C113_quotes_refuted.
Print Assumptions C113_white_line_refuted.
