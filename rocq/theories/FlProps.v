(** C87: user-defined functions are added to the built-in ones. *)
From Coq Require Import String Ascii List Arith Bool Lia.
From Verif Require Import Base StrModel StrSpec StrProofs StrProofs2 StrProps TsModel TsSpec TsProofs5 TsProps FlModel CliModel CliSpec CliProofs CliProps.
Import ListNotations.

(** ** Joining two documents *)
Definition shift (ws : str) (e : entry) : entry := match e with Entry i k c s1 s2 v t => Entry (ws ++ i) k c s1 s2 v t end.
Definition shift_first (ws : str) (l : list entry) : list entry := match l with e :: r => shift ws e :: r | [] => [] end.
Lemma shift_text ws e : entry_text (shift ws e) = ws ++ entry_text e.
Proof. destruct e. cbn [shift entry_text]. now rewrite <- app_assoc. Qed.
Lemma shift_key ws e : key_of (shift ws e) = key_of e.
Proof. now destruct e. Qed.
Lemma shift_value ws e : value_of (shift ws e) = value_of e.
Proof. now destruct e. Qed.
Lemma join_app_cons sep (l1 : list str) x l2 : l1 <> [] -> join sep (l1 ++ x :: l2) = join sep l1 ++ sep ++ join sep (x :: l2).
Proof.
  induction l1 as [|a l1 IH]; intros N; [contradiction|]. destruct l1 as [|b l1].
  - reflexivity.
  - change ((a :: b :: l1) ++ x :: l2) with (a :: (b :: l1) ++ x :: l2).
    change (join sep (a :: (b :: l1) ++ x :: l2)) with (a ++ sep ++ join sep ((b :: l1) ++ x :: l2)). rewrite IH by discriminate.
    change (join sep (a :: b :: l1)) with (a ++ sep ++ join sep (b :: l1)). now rewrite <- !app_assoc.
Qed.
Lemma join_prefix sep ws x (l : list str) : join sep ((ws ++ x) :: l) = ws ++ join sep (x :: l).
Proof. destruct l; cbn [join]; now rewrite <- ?app_assoc. Qed.
Lemma document_join l1 ws l2 tail : l1 <> [] -> l2 <> [] ->
  document l1 (nl :: ws) ++ document l2 tail = document (l1 ++ shift_first ws l2) tail.
Proof.
  intros N1 N2. unfold document. destruct l2 as [|e l2]; [contradiction|]. cbn [shift_first]. rewrite map_app. cbn [map]. rewrite join_app_cons.
  - rewrite shift_text, join_prefix. cbn [map]. rewrite <- !app_assoc. reflexivity.
  - destruct l1; [contradiction|discriminate].
Qed.
Lemma shift_ok ws e : white ws -> entry_ok e -> entry_ok (shift ws e).
Proof.
  intros W (F & V). split; [|now rewrite shift_value]. destruct e. cbn [frame_ok shift] in *. destruct F as (A & B). split; [apply Forall_app; now split|exact B].
Qed.
Lemma shift_first_ok ws l : white ws -> Forall entry_ok l -> Forall entry_ok (shift_first ws l).
Proof. intros W F. destruct F as [|e l He Hl]; [constructor|]. cbn. constructor; [now apply shift_ok|exact Hl]. Qed.
Lemma shift_means ws e t : means (shift ws e) t <-> means e t.
Proof. unfold means. now rewrite shift_value. Qed.
Lemma shift_first_means ws l ts : Forall2 means (shift_first ws l) ts -> Forall2 means l ts.
Proof. destruct l as [|e l]; intros F; [exact F|]. cbn in F. inversion F; subst. constructor; [now apply (shift_means ws)|assumption]. Qed.
Lemma values_shift k l1 ws l2 ts : values_of k (l1 ++ shift_first ws l2) ts = values_of k (l1 ++ l2) ts.
Proof.
  revert ts. induction l1 as [|e l1 IH]; intros [|x ts].
  - destruct l2; reflexivity.
  - destruct l2 as [|e l2]; [reflexivity|]. cbn [shift_first app]. rewrite !values_cons. now rewrite shift_key.
  - reflexivity.
  - cbn [app]. rewrite !values_cons. now rewrite IH.
Qed.
Lemma split_cases {A} (l1 l2 : list A) : forall a b, l1 ++ l2 = a ++ b -> (exists c, l1 = a ++ c /\ b = c ++ l2) \/ (exists c, a = l1 ++ c /\ l2 = c ++ b).
Proof. intros a b E. destruct (app_eq_app _ _ _ _ E) as (c & [(-> & ->)|(-> & ->)]); [left|right]; exists c; auto. Qed.
Lemma repeats_keys l l' : map key_of l = map key_of l' -> map value_of l = map value_of l' -> repeats_ok l -> repeats_ok l'.
Proof.
  intros K V R l1 e l2 E A (e' & I & Ke). 
  assert (SP : exists m1 m m2, l = m1 ++ m :: m2 /\ map key_of m1 = map key_of l1 /\ key_of m = key_of e /\ map key_of m2 = map key_of l2 /\ value_of m = value_of e).
  { clear - K V E. subst l'. revert l K V. induction l1 as [|x l1 IH]; intros [|m l] K V; try discriminate.
    - cbn in K, V. injection K as K1 K2. injection V as V1 V2. exists [], m, l. repeat split; auto.
    - cbn in K, V. injection K as K1 K2. injection V as V1 V2. destruct (IH l K2 V2) as (m1 & y & m2 & -> & A & B & C & D).
      exists (m :: m1), y, m2. cbn. repeat split; auto. now rewrite A, K1. }
  destruct SP as (m1 & m & m2 & -> & K1 & Km & K2 & Vm).
  destruct (R m1 m m2 eq_refl) as (e2 & I2 & E2).
  - now rewrite Vm.
  - assert (I' : In (key_of e') (map key_of m1)) by (rewrite K1; now apply in_map). apply in_map_iff in I' as (y & Y & J). exists y. split; [exact J|]. congruence.
  - assert (I' : In (key_of e2) (map key_of l2)) by (rewrite <- K2; now apply in_map). apply in_map_iff in I' as (y & Y & J). exists y. split; [exact J|]. congruence.
Qed.

(** ** C87: what was built in comes first and is unchanged; what the user defines follows, in order *)
Theorem C87_user_functions_are_added :
  forall fs path e cfg file lines ulines l1 ws l2 tail,
    read_textfile fs (builtin_name path) false true true = Ok lines -> join [nl] lines = document l1 (nl :: ws) ->
    config_path e = Some cfg -> user_name fs cfg = Ok (Some file) -> file <> [] ->
    read_textfile fs file false true true = Ok ulines -> join [nl] ulines = document l2 tail ->
    l1 <> [] -> l2 <> [] -> white ws -> tail_ok tail -> Forall entry_ok l1 -> Forall entry_ok l2 -> repeats_ok (l1 ++ l2) ->
    exists d ts1 ts2, functions fs path e = Ok (Some d) /\ Forall2 means l1 ts1 /\ Forall2 means l2 ts2 /\ holds d (l1 ++ l2) (ts1 ++ ts2).
Proof.
  intros fs path e cfg file lines ulines l1 ws l2 tail R1 J1 C U NF R2 J2 N1 N2 W T F1 F2 RP.
  unfold functions, functions_text. rewrite R1. cbn [bind]. rewrite C, U. cbn [bind]. destruct file as [|c file]; [contradiction|].
  rewrite R2. cbn [bind]. rewrite J1, J2, document_join by assumption.
  destruct (C30_reading (l1 ++ shift_first ws l2) tail) as (d & ts & E & M & H).
  - destruct l1; [contradiction|discriminate].
  - apply Forall_app. split; [exact F1|now apply shift_first_ok].
  - eapply repeats_keys; [| |exact RP]; rewrite !map_app; f_equal; destruct l2 as [|x l2]; try reflexivity; cbn; f_equal; [symmetry; apply shift_key|symmetry; apply shift_value].
  - exact T.
  - apply Forall2_app_inv_l in M as (ts1 & ts2 & M1 & M2 & ->). exists d, ts1, ts2. split; [exact E|]. split; [exact M1|].
    split; [exact (shift_first_means _ _ _ M2)|]. destruct H as (ND & H). split; [exact ND|]. intros k v. rewrite H. now rewrite values_shift.
Qed.
(** in particular: the values of a key begin with the built-in ones *)
Theorem C87_builtin_values_first :
  forall k l1 l2 ts1 ts2, length ts1 = length l1 -> values_of k (l1 ++ l2) (ts1 ++ ts2) = values_of k l1 ts1 ++ values_of k l2 ts2.
Proof.
  intros k l1. induction l1 as [|e l1 IH]; intros l2 [|x ts1] ts2 H; try discriminate; [reflexivity|].
  injection H as H. cbn [app]. rewrite !values_cons, IH by exact H. now rewrite app_assoc.
Qed.
(** without a configuration, or with none written, the built-in functions are used alone *)
Theorem C87_no_user_functions :
  forall fs path e, (config_path e = None \/ exists cfg, config_path e = Some cfg /\ file_get fs cfg = None) ->
    functions fs path e = read_textstructure fs (builtin_name path).
Proof.
  intros fs path e H. unfold functions, functions_text, read_textstructure. destruct (read_textfile fs (builtin_name path) false true true) as [ls|x]; [|reflexivity].
  cbn [bind]. destruct H as [-> |(cfg & -> & G)]; [reflexivity|]. unfold user_name. rewrite G. reflexivity.
Qed.
(** the file that was set is the file that is used from then on, and nothing else is changed *)
Theorem C87_setting_takes_effect :
  forall fs e cfg file fs', config_path e = Some cfg -> file <> [] -> one_line file -> ~ comment_line file ->
    set_user_functions fs e file = Ok fs' ->
    user_name fs' cfg = Ok (Some file) /\ forall name, name <> cfg -> file_get fs' name = file_get fs name.
Proof.
  intros fs e cfg file fs' C N O NC. unfold set_user_functions. destruct file as [|c f]; [contradiction|]. rewrite C.
  set (file := c :: f) in *. intros E. assert (X : fs' = write_textfile fs cfg [L "#path to functions_user.txt"; file] false) by (symmetry; exact (f_equal (fun r => match r with Ok y => y | Err _ => fs end) E)). clear E. subst fs'. split.
  - assert (LS : Forall one_line [L "#path to functions_user.txt"; file]).
    { constructor; [|now constructor]. unfold one_line. rewrite Forall_forall. intros x I.
      assert (Q : forallb (fun y => negb (is_break y)) (L "#path to functions_user.txt") = true) by reflexivity.
      rewrite forallb_forall in Q. apply Q in I. now destruct (is_break x). }
    destruct (C29_comments_dropped fs cfg [L "#path to functions_user.txt"; file] false true LS) as (keep & R & K); [discriminate|].
    revert R. generalize (write_textfile fs cfg [L "#path to functions_user.txt"; file] false). intros fs2 R.
    unfold read_textfile in R. unfold user_name. destruct (file_get fs2 cfg) as [t|]; [|discriminate].
    assert (K1 : keep (L "#path to functions_user.txt") = false). { apply K. right. split; [reflexivity|]. exists [], (L "path to functions_user.txt"). split; [constructor|reflexivity]. }
    assert (K2 : keep file = true). { destruct (keep file) eqn:Q; [reflexivity|]. apply K in Q as [(X & _)|(_ & X)]; [discriminate|contradiction]. }
    assert (R' : read_text t false true false = filter keep [L "#path to functions_user.txt"; file]) by congruence. clear R. destruct (read_text t false true false) as [|l0 r0] eqn:Q0.
    all: cbn [filter] in R'; rewrite K1, K2 in R'. discriminate R'.
    injection R' as R1 R2; rewrite R1; reflexivity.
  - intros name H. unfold write_textfile. now apply file_get_set_other.
Qed.
(** a name written in full keeps its meaning whatever the user adds, if it has no characters special to regular expressions *)
Theorem C87_plain_names_keep_their_meaning :
  forall (s u : list str) v i inv, plain_text v -> Forall no_newline (s ++ u) -> nth_error s i = Some v ->
    (forall j e, j < i -> nth_error s j = Some e -> ~ same_text e v) ->
    decode_abbreviation (s ++ u) v true inv = Ok (Some i).
Proof.
  intros s u v i inv P N I F. pose proof (C33_decode (s ++ u) v true inv P N) as H.
  assert (I' : nth_error (s ++ u) i = Some v) by (rewrite nth_error_app1; [exact I|apply nth_error_Some; congruence]).
  destruct (decode_abbreviation (s ++ u) v true inv) as [[k|]|x].
  - destruct H as (e & E & A & M). destruct (M i v I' (abbr_refl v)) as (LM & _). pose proof (abbr_length v e A) as LE.
    destruct LM as [LM|(LM & LI)]; [lia|]. f_equal. f_equal. destruct (Nat.eq_dec k i) as [Q|Q]; [exact Q|]. exfalso.
    assert (KL : k < i) by lia. apply (F k e KL).
    + rewrite nth_error_app1 in E; [exact E|]. assert (i < length s) by (apply nth_error_Some; congruence). lia.
    + unfold same_text. symmetry. apply abbr_same; [exact A|lia].
  - destruct H as (_ & H). exfalso. exact (H i v I' (abbr_refl v)).
  - destruct H as (_ & [(_ & H)|(H & _)]); [|discriminate]. exfalso. exact (H i v I' (abbr_refl v)).
Qed.
(** with parentheses it may not: a user's system without them takes the place of the built-in one *)
Theorem C87_names_with_parentheses_refuted :
  exists u, decode_abbreviation shipped_systems (L "Moon, Neukum (1983)") true false = Ok (Some 0) /\
    decode_abbreviation (shipped_systems ++ [u]) (L "Moon, Neukum (1983)") true false = Ok (Some (length shipped_systems)).
Proof. exists (L "Moon, Neukum 1983"). split; vm_compute; reflexivity. Qed.
(** a user file that cannot be read is not ignored as the message says: the program fails *)
Theorem C87_unreadable_file_refuted :
  forall fs path e cfg file lines, read_textfile fs (builtin_name path) false true true = Ok lines ->
    config_path e = Some cfg -> user_name fs cfg = Ok (Some file) -> file <> [] -> file_get fs file = None ->
    functions fs path e = Err NameError.
Proof.
  intros fs path e cfg file lines R C U N G. unfold functions, functions_text. rewrite R. cbn [bind]. rewrite C, U. cbn [bind].
  destruct file; [contradiction|]. unfold read_textfile. rewrite G. reflexivity.
Qed.
(** and a configuration of comments alone fails too *)
Theorem C87_configuration_of_comments_refuted :
  exists fs path e, (exists d, read_textstructure fs (builtin_name path) = Ok (Some d)) /\ functions fs path e = Err IndexError.
Proof.
  exists [(L "/p/config/functions.txt", L "a = 1" ++ [nl]); (L "/c/etc/config_functions_user.txt", L "# none")], (L "/p/"), (mkEnv (Some (L "/c")) None).
  split; [eexists|]; vm_compute; reflexivity.
Qed.
(** a user file is added only if the built-in text ends with a new line (as the one shipped does): without it the first definition of the user is lost *)
Theorem C87_needs_final_newline_refuted :
  exists fs path e, functions fs path e = Ok (Some [(L "x", TStr (L "2" ++ [nl] ++ L "}")); (L "a", TDict [(L "x", TStr (L "1"))])]) /\
    read_textstructure fs (builtin_name path) = Ok (Some [(L "a", TDict [(L "x", TStr (L "1"))])]) /\
    read_textstructure fs (L "u") = Ok (Some [(L "a", TDict [(L "x", TStr (L "2"))])]).
Proof.
  exists [(L "/p/config/functions.txt", L "a={" ++ [nl] ++ L "x=1" ++ [nl] ++ L "}"); (L "/c/etc/config_functions_user.txt", L "u");
          (L "u", L "a={" ++ [nl] ++ L "x=2" ++ [nl] ++ L "}")], (L "/p/"), (mkEnv (Some (L "/c")) None).
  repeat split; vm_compute; reflexivity.
Qed.
Example C87_hypotheses_met :
  let fs := [(L "/p/config/functions.txt", L "a={" ++ [nl] ++ L "x=1" ++ [nl] ++ L "}" ++ [nl]);
             (L "u", L "a={" ++ [nl] ++ L "x=2" ++ [nl] ++ L "}")] in
  let e := mkEnv (Some (L "/c")) None in
  exists fs', set_user_functions fs e (L "u") = Ok fs' /\
    functions fs' (L "/p/") e = Ok (Some [(L "a", TList [TDict [(L "x", TStr (L "1"))]; TDict [(L "x", TStr (L "2"))]])]) /\
    plain_text (L "Moon, Hartmann 2010 iteration").
Proof.
  eexists. split; [reflexivity|]. split; [vm_compute; reflexivity|].
  unfold plain_text. rewrite Forall_forall. intros c I J. cbn in I, J. intuition congruence.
Qed.

Print Assumptions C87_user_functions_are_added.
Print Assumptions C87_builtin_values_first.
Print Assumptions C87_no_user_functions.
Print Assumptions C87_setting_takes_effect.
Print Assumptions C87_plain_names_keep_their_meaning.
Print Assumptions C87_names_with_parentheses_refuted.
Print Assumptions C87_unreadable_file_refuted.
Print Assumptions C87_configuration_of_comments_refuted.
Print Assumptions C87_needs_final_newline_refuted.

(** ** where the configuration is *)
Theorem C87_configuration_place :
  forall p f, p <> [] -> config_path (mkEnv (Some p) f) = Some (p ++ L "/etc/config_functions_user.txt") /\
    (forall c d, c = None \/ c = Some [] -> config_path (mkEnv c (Some d)) = Some (d ++ L "/_internal/craterstats/config_functions_user.txt")) /\
    (forall c, c = None \/ c = Some [] -> config_path (mkEnv c None) = None).
Proof.
  intros p f N. destruct p as [|a p]; [contradiction|]. split; [reflexivity|]. split; [intros c d [-> | ->]|intros c [-> | ->]]; reflexivity.
Qed.
(** in an ordinary Python installation there is none, and setting a file fails *)
Theorem C87_no_place_refuted : forall fs file, file <> [] -> set_user_functions fs (mkEnv None None) file = Err TypeError.
Proof. intros fs [|c f] N; [contradiction|reflexivity]. Qed.
Print Assumptions C87_configuration_place.
Print Assumptions C87_no_place_refuted.
