From Coq Require Import String Ascii List Arith ZArith Bool Lia.
From Verif Require Import Base NumModel NumLemmas StrModel StrSpec StrProofs StrProofs2 FmtSpec CliModel CliSpec CliProofs.
Import ListNotations.

(** * split, -p arguments *)
Lemma split_chr_none c w : forall acc, ~ In c w -> split_chr c acc w = [rev acc ++ w].
Proof.
  induction w as [|x w IH]; intros acc N; cbn.
  - now rewrite app_nil_r.
  - destruct (aeqb_spec x c) as [->|_]; [exfalso; apply N; now left|].
    rewrite IH; [|intros I; apply N; now right]. cbn. now rewrite <- app_assoc.
Qed.
Lemma split_chr_app c w : forall acc r, ~ In c w -> split_chr c acc (w ++ c :: r) = (rev acc ++ w) :: split_chr c [] r.
Proof.
  induction w as [|x w IH]; intros acc r N; cbn.
  - now rewrite aeqb_refl, app_nil_r.
  - destruct (aeqb_spec x c) as [->|_]; [exfalso; apply N; now left|].
    rewrite IH; [|intros I; apply N; now right]. cbn. now rewrite <- app_assoc.
Qed.
Lemma split_chr_join c ws : ws <> [] -> Forall (fun w => ~ In c w) ws -> split_chr c [] (join [c] ws) = ws.
Proof.
  intros N F. induction F as [|w ws H F IH]; [congruence|].
  destruct ws as [|w' ws].
  - cbn. now rewrite split_chr_none.
  - rewrite join_cons. cbn [app]. rewrite split_chr_app by exact H. cbn [rev app]. f_equal. apply IH. congruence.
Qed.
Definition comma_or_end (r : str) : Prop := r = [] \/ exists t, r = ch "," :: t.
Lemma key_ahead_value v : forall r seen, ~ In (ch "=") v -> comma_or_end r -> key_ahead seen (v ++ r) = false.
Proof.
  induction v as [|x v IH]; intros r seen N C.
  - destruct C as [->|(t & ->)]; [reflexivity|]. now destruct seen.
  - cbn [app key_ahead]. destruct (is_word x).
    + apply IH; [|exact C]. intros I; apply N; now right.
    + destruct (aeqb_spec x (ch "=")) as [->|_]; [exfalso; apply N; now left|]. now rewrite andb_false_r.
Qed.
Lemma key_ahead_key k : forall seen r, Forall (fun c => is_word c = true) k -> (k <> [] \/ seen = true) ->
  key_ahead seen (k ++ ch "=" :: r) = true.
Proof.
  induction k as [|x k IH]; intros seen r F O.
  - destruct O as [O| ->]; [congruence|]. reflexivity.
  - inversion F; subst. cbn. rewrite H1. apply IH; auto.
Qed.
Lemma split_pairs_value v : forall acc r, ~ In (ch "=") v -> comma_or_end r ->
  (match r with _ :: t => key_ahead false t = true | [] => True end) ->
  split_pairs acc (v ++ r) = match r with [] => [rev acc ++ v] | _ :: t => (rev acc ++ v) :: split_pairs [] t end.
Proof.
  induction v as [|x v IH]; intros acc r N C K.
  - destruct C as [->|(t & ->)]; cbn [app split_pairs].
    + now rewrite app_nil_r.
    + rewrite aeqb_refl, K. cbn. now rewrite app_nil_r.
  - cbn [app split_pairs]. rewrite key_ahead_value.
    + rewrite andb_false_r. rewrite IH; auto; [|intros I; apply N; now right].
      destruct r; cbn; now rewrite <- app_assoc.
    + intros I; apply N; now right.
    + exact C.
Qed.
Lemma word_not c d : is_word c = true -> is_word d = false -> c <> d.
Proof. intros H1 H2 ->. congruence. Qed.
Lemma split_pairs_key k : forall acc r, Forall (fun c => is_word c = true) k -> 
  split_pairs acc (k ++ ch "=" :: r) = split_pairs (ch "=" :: rev k ++ acc) r.
Proof.
  induction k as [|x k IH]; intros acc r F; [reflexivity|].
  inversion F; subst. cbn [app split_pairs].
  destruct (aeqb_spec x (ch ",")) as [->|_]; [discriminate|]. cbn [andb].
  rewrite IH by assumption. cbn [rev]. now rewrite <- app_assoc.
Qed.
Definition pair_ok (kv : str * str) : Prop := key_ok (fst kv) /\ ~ In (ch "=") (snd kv).
Lemma split_pairs_join kvs : kvs <> [] -> Forall pair_ok kvs -> split_pairs [] (join (L ",") (map pair_text kvs)) = map pair_text kvs.
Proof.
  intros N F. induction F as [|[k v] kvs [[K1 K2] V] F IH]; [congruence|]. cbn [fst snd] in *.
  assert (T : forall r, pair_text (k, v) ++ r = k ++ ch "=" :: v ++ r)
    by (intros; unfold pair_text; cbn; now rewrite <- app_assoc).
  destruct kvs as [|[k' v'] kvs].
  - cbn [map join]. rewrite <- (app_nil_r (pair_text (k, v))) at 1. rewrite T, split_pairs_key by assumption.
    rewrite split_pairs_value; [| exact V | now left | exact I].
    cbn [rev]. rewrite rev_app_distr, rev_involutive. cbn. unfold pair_text. cbn. now rewrite <- !app_assoc.
  - cbn [map]. rewrite join_cons. cbn [map] in IH. rewrite T, split_pairs_key by assumption.
    inversion F as [|? ? P' F' E]; subst. destruct P' as [[K1' K2'] V']. cbn [fst snd] in *.
    rewrite split_pairs_value.
    + match goal with |- match L "," ++ ?x with _ => _ end = _ => change (L "," ++ x) with (ch "," :: x) end.
      cbv beta iota. rewrite IH by congruence.
      cbn [rev]. rewrite rev_app_distr, rev_involutive. cbn. unfold pair_text. cbn. now rewrite <- !app_assoc.
    + exact V.
    + right. eexists. reflexivity.
    + match goal with |- match L "," ++ ?x with _ => _ end => change (L "," ++ x) with (ch "," :: x) end.
      cbv beta iota.
      destruct kvs; cbn [map]; [cbn [join]|rewrite join_cons]; unfold pair_text at 1; cbn [fst snd];
        rewrite <- ?app_assoc; match goal with |- context [L "=" ++ ?x] => change (L "=" ++ x) with (ch "=" :: x) end; apply key_ahead_key; auto.
Qed.
Lemma word_no_eq k : Forall (fun c => is_word c = true) k -> ~ In (ch "=") k.
Proof. intros F I. apply (proj1 (Forall_forall _ _) F) in I. discriminate. Qed.
Lemma split_pair k v : key_ok k -> ~ In (ch "=") v -> split_chr (ch "=") [] (pair_text (k, v)) = [k; v].
Proof.
  intros [_ K] V. unfold pair_text. cbn [fst snd L list_ascii_of_string app].
  change (k ++ _) with (k ++ ch "=" :: v). rewrite split_chr_app by now apply word_no_eq.
  now rewrite split_chr_none.
Qed.
Definition dict_of (d kvs : list (str * str)) : list (str * str) := fold_left (fun d kv => dict_set d (fst kv) (snd kv)) kvs d.
Lemma plot_dict_fold kvs : forall d, Forall pair_ok kvs ->
  fold_left (fun d kv => do! d <- d; match split_chr (ch "=") [] kv with [k; v] => Ok (dict_set d k v) | _ => Err SysExit end)
            (map pair_text kvs) (Ok d) = Ok (dict_of d kvs).
Proof.
  induction kvs as [|[k v] kvs IH]; intros d F; [reflexivity|].
  inversion F as [|? ? [K V] F']; subst. cbn [fst snd] in *. cbn [map fold_left bind]. rewrite split_pair by assumption.
  rewrite IH by assumption. reflexivity.
Qed.
Theorem plot_dict_pairs values kvs : kvs <> [] -> Forall pair_ok kvs ->
  join (L " ") values = join (L ",") (map pair_text kvs) -> plot_dict values = Ok (dict_of [] kvs).
Proof.
  intros N F E. unfold plot_dict. rewrite E, split_pairs_join by assumption. now apply plot_dict_fold.
Qed.
Lemma dict_set_new {V} (d : list (str * V)) k v : ~ In k (map fst d) -> dict_set d k v = d ++ [(k, v)].
Proof.
  induction d as [|[j w] d IH]; intros N; [reflexivity|]. cbn in *.
  destruct (seqb_spec j k) as [->|_]; [exfalso; auto|]. rewrite IH; auto.
Qed.
Lemma dict_of_nodup kvs : forall d, NoDup (map fst (d ++ kvs)) -> dict_of d kvs = d ++ kvs.
Proof.
  induction kvs as [|[k v] kvs IH]; intros d N; cbn; [now rewrite app_nil_r|].
  rewrite dict_set_new.
  - unfold dict_of in IH. rewrite IH; [now rewrite <- app_assoc|]. now rewrite <- app_assoc.
  - rewrite map_app in N. cbn in N. apply NoDup_remove_2 in N. rewrite in_app_iff in N. tauto.
Qed.
Lemma last_given_app {V} (a b : list (str * V)) k :
  last_given (a ++ b) k = match last_given b k with Some v => Some v | None => last_given a k end.
Proof.
  induction a as [|[j w] a IH]; cbn; [now destruct (last_given b k)|].
  rewrite IH. now destruct (last_given b k).
Qed.
Lemma dict_set_keys {V} (d : list (str * V)) k v : NoDup (map fst d) -> NoDup (map fst (dict_set d k v)).
Proof.
  assert (G : forall d j, In j (map fst (dict_set d k v)) -> In j (map fst d) \/ j = k).
  { clear d. induction d as [|[i w] d IH]; cbn; intros j I; [destruct I as [->|[]]; now right|].
    destruct (seqb i k); cbn in *; [tauto|]. destruct I as [I|I]; [tauto|]. apply IH in I. tauto. }
  induction d as [|[i w] d IH]; cbn; intros N.
  - repeat constructor. tauto.
  - inversion N; subst. destruct (seqb_spec i k) as [->|NE]; cbn; constructor; auto.
    intros I. apply G in I. tauto.
Qed.
Lemma last_given_absent {V} (d : list (str * V)) k : ~ In k (map fst d) -> last_given d k = None.
Proof.
  induction d as [|[j w] d IH]; cbn; intros N; [reflexivity|]. rewrite IH by tauto.
  destruct (list_eq_dec ascii_dec j k); [subst; tauto|reflexivity].
Qed.
Lemma last_given_set {V} (d : list (str * V)) k v j : NoDup (map fst d) ->
  last_given (dict_set d k v) j = if list_eq_dec ascii_dec k j then Some v else last_given d j.
Proof.
  induction d as [|[i w] d IH]; cbn; intros N; [reflexivity|]. inversion N as [|? ? NI N']; subst.
  destruct (seqb_spec i k) as [->|NE]; cbn.
  - destruct (list_eq_dec ascii_dec k j) as [->|NE']; [|reflexivity].
    now rewrite (last_given_absent d j).
  - rewrite IH by assumption. destruct (list_eq_dec ascii_dec k j) as [->|NE']; reflexivity.
Qed.
Lemma dict_of_last kvs : forall d k, NoDup (map fst d) ->
  NoDup (map fst (dict_of d kvs)) /\
  last_given (dict_of d kvs) k = match last_given kvs k with Some v => Some v | None => last_given d k end.
Proof.
  induction kvs as [|[j v] kvs IH]; intros d k N; cbn; [now split|].
  destruct (IH (dict_set d j v) k (dict_set_keys _ _ _ N)) as (N' & E). split; [exact N'|].
  unfold dict_of in E. rewrite E, last_given_set by assumption.
  destruct (last_given kvs k); [reflexivity|]. now destruct (list_eq_dec ascii_dec j k).
Qed.

(** * Command files *)
Lemma sh_word w : forall tok q r, Forall (fun c => shell_safe c = true) w ->
  sh_split ShWord tok q (w ++ r) = sh_split ShWord (rev w ++ tok) q r.
Proof.
  induction w as [|c w IH]; intros tok q r F; [reflexivity|]. inversion F; subst. cbn [app sh_split].
  assert (E : sh_white c = false /\ is_quote_char c = false /\ aeqb c bsl = false).
  { destruct (sh_white c) eqn:E1.
    - apply mem_In in E1. cbn in E1. decompose [or] E1; subst; try discriminate; contradiction.
    - destruct (is_quote_char c) eqn:E2.
      + unfold is_quote_char in E2. destruct (aeqb_spec c dq), (aeqb_spec c sq); subst; discriminate.
      + destruct (aeqb_spec c bsl); [subst; discriminate|auto]. }
  destruct E as (-> & -> & ->). rewrite IH by assumption. cbn [rev]. now rewrite <- app_assoc.
Qed.
Lemma sh_start c r : shell_safe c = true -> sh_split ShSpace [] false (c :: r) = sh_split ShWord [c] false r.
Proof.
  intros H. cbn [sh_split].
  assert (E : sh_white c = false /\ is_quote_char c = false /\ aeqb c bsl = false).
  { destruct (sh_white c) eqn:E1.
    - apply mem_In in E1. cbn in E1. decompose [or] E1; subst; try discriminate; contradiction.
    - destruct (is_quote_char c) eqn:E2.
      + unfold is_quote_char in E2. destruct (aeqb_spec c dq), (aeqb_spec c sq); subst; discriminate.
      + destruct (aeqb_spec c bsl); [subst; discriminate|auto]. }
  now destruct E as (-> & -> & ->).
Qed.
Lemma sh_harmless w r : w <> [] -> harmless w -> sh_split ShSpace [] false (w ++ r) = sh_split ShWord (rev w) false r.
Proof.
  intros N F. destruct w as [|c w]; [congruence|]. inversion F; subst. cbn [app]. rewrite sh_start by assumption.
  rewrite sh_word by assumption. cbn [rev]. reflexivity.
Qed.
Lemma sh_body w : forall tok q r,
  sh_split (ShQuote sq) tok q (flat_map (fun c => if aeqb c sq then [sq; dq; sq; dq; sq] else [c]) w ++ sq :: r) =
  sh_split ShWord (rev w ++ tok) true r.
Proof.
  induction w as [|c w IH]; intros tok q r; [reflexivity|].
  cbn [flat_map]. destruct (aeqb_spec c sq) as [->|NE].
  - cbn [app]. change (sh_split (ShQuote sq) tok q
      (sq :: dq :: sq :: dq :: sq :: flat_map (fun c => if aeqb c sq then [sq; dq; sq; dq; sq] else [c]) w ++ sq :: r))
    with (sh_split (ShQuote sq) (sq :: tok) true (flat_map (fun c => if aeqb c sq then [sq; dq; sq; dq; sq] else [c]) w ++ sq :: r)).
    rewrite IH. cbn [rev]. now rewrite <- app_assoc.
  - cbn [app sh_split]. destruct (aeqb_spec c sq); [congruence|]. cbn [aeqb]. 
    replace (aeqb c bsl && aeqb sq dq) with false by (cbn; now rewrite andb_false_r).
    rewrite IH. cbn [rev]. now rewrite <- app_assoc.
Qed.
(** one argument followed by white space or the end *)
Definition white_or_end (r : str) : Prop := r = [] \/ exists c t, r = c :: t /\ sh_white c = true.
Lemma sh_finish tok q r : white_or_end r -> tok <> [] \/ q = true ->
  sh_split ShWord tok q r = do! x <- sh_split ShSpace [] false r; Ok (rev tok :: x).
Proof.
  intros [->|(c & t & -> & W)] N.
  - cbn. destruct tok; [destruct N as [N| ->]; [congruence|reflexivity]|reflexivity].
  - cbn [sh_split]. rewrite W. destruct (sh_split ShSpace [] false t); cbn; [|reflexivity].
    destruct tok; [destruct N as [N| ->]; [congruence|reflexivity]|reflexivity].
Qed.
Lemma sh_quoted a r : white_or_end r ->
  sh_split ShSpace [] false (shell_quote a ++ r) = do! x <- sh_split ShSpace [] false r; Ok (a :: x).
Proof.
  intros W. unfold shell_quote. destruct a as [|c a].
  - change (sh_split ShSpace [] false ([sq; sq] ++ r)) with (sh_split ShWord [] true r).
    rewrite sh_finish; auto.
  - destruct (forallb shell_safe (c :: a)) eqn:E.
    + rewrite sh_harmless; [|congruence|now apply Forall_forall, forallb_forall].
      rewrite sh_finish; [now rewrite rev_involutive|exact W|]. left. cbn [rev]. destruct (rev a); discriminate.
    + rewrite <- !app_assoc. cbn [app]. change (sh_split ShSpace [] false (sq :: ?x)) with (sh_split (ShQuote sq) [] false x).
      rewrite sh_body, app_nil_r. rewrite sh_finish; [now rewrite rev_involutive|exact W|now right].
Qed.

Definition arg_ok (a : str) : Prop := a <> [] /\ single_line a /\ (looks_like_option a -> harmless a).
Definition arg_body (a : str) : str :=
  match a with
  | c :: t => if aeqb c (ch "-") && negb (is_pydigit (hd (ch " ") t)) then a else shell_quote a
  | [] => []
  end.
Definition arg_sep (a : str) : ascii :=
  match a with
  | c :: t => if aeqb c (ch "-") && negb (is_pydigit (hd (ch " ") t)) then nl else ch " "
  | [] => nl
  end.
Lemma cs_piece_ok a : a <> [] -> cs_piece a = Ok (arg_sep a :: arg_body a).
Proof. destruct a as [|c t]; [congruence|]. intros _. cbn. now destruct (_ && _). Qed.
Lemma option_case c t : aeqb c (ch "-") && negb (is_pydigit (hd (ch " ") t)) = true -> looks_like_option (c :: t).
Proof.
  intros H. apply andb_prop in H. destruct H as (H1 & H2). destruct (aeqb_spec c (ch "-")); [subst|discriminate].
  exists t. split; [reflexivity|]. now apply negb_true_iff.
Qed.
Definition args_text (args : list str) : str := concat (map (fun a => arg_sep a :: arg_body a) args).
Lemma cs_content_ok args : Forall (fun a => a <> []) args -> cs_content args = Ok (tl (args_text args)).
Proof.
  intros F. unfold cs_content. replace (mapM cs_piece args) with (Ok (map (fun a => arg_sep a :: arg_body a) args)); [reflexivity|].
  induction F as [|a args H F IH]; [reflexivity|]. cbn [mapM map]. rewrite cs_piece_ok by assumption. rewrite <- IH. reflexivity.
Qed.
Lemma sep_white a : sh_white (arg_sep a) = true.
Proof. destruct a as [|c t]; [reflexivity|]. cbn [arg_sep]. now destruct (_ && _). Qed.
Lemma args_text_white args : white_or_end (args_text args).
Proof.
  destruct args as [|a args]; [now left|]. right. unfold args_text. cbn. eexists _, _. split; [reflexivity|]. apply sep_white.
Qed.
Lemma sh_arg a r : arg_ok a -> white_or_end r ->
  sh_split ShSpace [] false (arg_body a ++ r) = do! x <- sh_split ShSpace [] false r; Ok (a :: x).
Proof.
  intros (N & _ & H) W. destruct a as [|c t]; [congruence|]. cbn [arg_body].
  destruct (aeqb c (ch "-") && negb (is_pydigit (hd (ch " ") t))) eqn:E.
  - apply option_case in E. rewrite sh_harmless; [|congruence|auto].
    rewrite sh_finish; [now rewrite rev_involutive|exact W|]. left. cbn [rev]. destruct (rev t); discriminate.
  - now apply sh_quoted.
Qed.
Lemma sh_args args : Forall arg_ok args -> sh_split ShSpace [] false (args_text args) = Ok args.
Proof.
  induction 1 as [|a args H F IH]; [reflexivity|].
  change (args_text (a :: args)) with (arg_sep a :: (arg_body a ++ args_text args)).
  cbn [sh_split]. rewrite sep_white. rewrite sh_arg; [|exact H|apply args_text_white]. now rewrite IH.
Qed.
Lemma join_split c s : forall acc, join [c] (split_chr c acc s) = rev acc ++ s.
Proof.
  induction s as [|x s IH]; intros acc; cbn; [now rewrite app_nil_r|].
  destruct (aeqb_spec x c) as [->|_].
  - assert (D : split_chr c [] s <> []) by (clear; generalize (@nil ascii) as a; induction s as [|y s IH]; intros a; cbn; [congruence|];
      destruct (aeqb y c); [congruence|apply IH]).
    specialize (IH []). destruct (split_chr c [] s) as [|y r] eqn:E; [congruence|].
    rewrite join_cons, IH. reflexivity.
  - rewrite IH. cbn. now rewrite <- app_assoc.
Qed.
Definition good_start (l : str) : Prop := exists c t, l = c :: t /\ is_space c = false /\ c <> ch "#".
Definition keep_line (e : str) : bool := match strip is_space e with [] => false | c :: _ => negb (aeqb c (ch "#")) end.
Lemma good_keep l : good_start l -> keep_line l = true.
Proof.
  intros (c & t & -> & S & N). unfold keep_line, strip. cbn [lstrip]. rewrite S. unfold rstrip. cbn [rev].
  assert (G : exists u, rev (lstrip is_space (rev t ++ [c])) = c :: u).
  { generalize (rev t) as w. induction w as [|x w IH]; cbn [app lstrip].
    - rewrite S. now exists [].
    - destruct (is_space x); [exact IH|]. exists (rev w ++ [x]). cbn [rev]. rewrite rev_app_distr. reflexivity. }
  destruct G as (u & ->). destruct (aeqb_spec c (ch "#")); [contradiction|reflexivity].
Qed.
Lemma quote_no_nl a : ~ In nl a -> ~ In nl (shell_quote a).
Proof.
  intros N I. unfold shell_quote in I. destruct a as [|c a]; [cbn in I; decompose [or] I; discriminate || contradiction|].
  destruct (forallb shell_safe (c :: a)); [contradiction|].
  rewrite !in_app_iff in I. destruct I as [I|[I|I]]; [cbn in I; decompose [or] I; discriminate || contradiction| |cbn in I; decompose [or] I; discriminate || contradiction].
  apply in_flat_map in I. destruct I as (x & I1 & I2). destruct (aeqb x sq).
  - cbn in I2. decompose [or] I2; discriminate || contradiction.
  - destruct I2 as [I2|[]]. congruence.
Qed.
Lemma quote_no_cr a : ~ In cr a -> ~ In cr (shell_quote a).
Proof.
  intros N I. unfold shell_quote in I. destruct a as [|c a]; [cbn in I; decompose [or] I; discriminate || contradiction|].
  destruct (forallb shell_safe (c :: a)); [contradiction|].
  rewrite !in_app_iff in I. destruct I as [I|[I|I]]; [cbn in I; decompose [or] I; discriminate || contradiction| |cbn in I; decompose [or] I; discriminate || contradiction].
  apply in_flat_map in I. destruct I as (x & I1 & I2). destruct (aeqb x sq).
  - cbn in I2. decompose [or] I2; discriminate || contradiction.
  - destruct I2 as [I2|[]]. congruence.
Qed.
Lemma safe_good c : shell_safe c = true -> is_space c = false /\ c <> ch "#".
Proof.
  intros H. split.
  - destruct (is_space c) eqn:E; [exfalso|reflexivity]. revert H E. 
    destruct c as [[] [] [] [] [] [] [] []]; vm_compute; congruence.
  - intros ->. discriminate.
Qed.
Lemma quote_good a : a <> [] -> good_start (shell_quote a).
Proof.
  intros N. unfold shell_quote. destruct a as [|c a]; [congruence|].
  destruct (forallb shell_safe (c :: a)) eqn:E.
  - cbn in E. apply andb_prop in E. destruct E as (E & _). exists c, a. split; [reflexivity|]. now apply safe_good.
  - exists sq. eexists. split; [reflexivity|]. split; [reflexivity|discriminate].
Qed.
Lemma body_facts a : arg_ok a -> ~ In nl (arg_body a) /\ ~ In cr (arg_body a) /\ good_start (arg_body a).
Proof.
  intros (N & (H1 & H2) & H). destruct a as [|c t]; [congruence|]. cbn [arg_body].
  destruct (aeqb c (ch "-") && negb (is_pydigit (hd (ch " ") t))) eqn:E.
  - apply option_case in E. apply H in E. inversion E; subst. repeat split; auto.
    exists c, t. split; [reflexivity|]. now apply safe_good.
  - repeat split; [now apply quote_no_nl|now apply quote_no_cr|]. apply quote_good. congruence.
Qed.
Lemma split_no c w : forall acc r, ~ In c w -> split_chr c acc (w ++ r) = split_chr c (rev w ++ acc) r.
Proof.
  induction w as [|x w IH]; intros acc r N; [reflexivity|]. cbn [app split_chr].
  destruct (aeqb_spec x c) as [->|_]; [exfalso; apply N; now left|].
  rewrite IH by (intros I; apply N; now right). cbn [rev]. now rewrite <- app_assoc.
Qed.
Lemma good_app a b : good_start a -> good_start (a ++ b).
Proof. intros (c & t & -> & H). exists c, (t ++ b). auto. Qed.
Lemma lines_good args : Forall arg_ok args -> forall acc, good_start (rev acc) -> Forall good_start (split_chr nl acc (args_text args)).
Proof.
  induction 1 as [|a args H F IH]; intros acc G; [constructor; [exact G|constructor]|].
  change (args_text (a :: args)) with (arg_sep a :: (arg_body a ++ args_text args)).
  destruct (body_facts a H) as (B1 & _ & B3). cbn [split_chr].
  destruct (aeqb_spec (arg_sep a) nl) as [E|E].
  - constructor; [exact G|]. rewrite split_no by exact B1. apply IH. now rewrite app_nil_r, rev_involutive.
  - rewrite split_no by exact B1. apply IH. rewrite rev_app_distr, rev_involutive. cbn [rev]. rewrite <- app_assoc. now apply good_app.
Qed.
Theorem command_round_trip args content : Forall arg_ok args -> cs_content args = Ok content -> command_args content = Ok args.
Proof.
  intros F E. rewrite cs_content_ok in E by (eapply Forall_impl; [|exact F]; now intros a []).
  injection E as <-. unfold command_args.
  destruct F as [|a args H F]; [reflexivity|].
  change (tl (args_text (a :: args))) with (arg_body a ++ args_text args).
  destruct (body_facts a H) as (B1 & B2 & B3).
  assert (U : universal (arg_body a ++ args_text args) = arg_body a ++ args_text args).
  { apply universal_id. intros c I ->. rewrite in_app_iff in I. destruct I as [I|I]; [contradiction|].
    unfold args_text in I. apply in_concat in I. destruct I as (p & I1 & I2). apply in_map_iff in I1.
    destruct I1 as (b & <- & I1). apply (proj1 (Forall_forall _ _) F) in I1. destruct (body_facts b I1) as (_ & C2 & _).
    destruct I2 as [I2|I2]; [|contradiction]. clear -I2.
    destruct b as [|c t]; [discriminate|]. cbn [arg_sep] in I2. destruct (_ && _) in I2; discriminate. }
  rewrite U. change (fun e : str => match strip is_space e with [] => false | c :: _ => negb (aeqb c (ch "#")) end) with keep_line.
  rewrite filter_all, join_split.
  - cbn [rev app]. unfold shlex_split. rewrite sh_arg; [|exact H|apply args_text_white]. now rewrite sh_args.
  - eapply Forall_impl; [intros l; apply good_keep|]. rewrite split_no by exact B1. apply lines_good; [exact F|].
    now rewrite app_nil_r, rev_involutive.
Qed.

(** * -select *)
Lemma span_app p w : forall r, Forall (fun c => p c = true) w -> match r with c :: _ => p c = false | [] => True end -> span p (w ++ r) = (w, r).
Proof.
  induction w as [|c w IH]; intros r F R; cbn [app span].
  - destruct r as [|c r]; [reflexivity|]. cbn. now rewrite R.
  - inversion F; subst. rewrite H1, IH by assumption. reflexivity.
Qed.
Lemma digit_cases c : is_digit c = true -> is_space c = false /\ aeqb c (ch "-") = false /\ aeqb c (ch "+") = false /\ aeqb c (ch ",") = false.
Proof. destruct c as [[] [] [] [] [] [] [] []]; vm_compute; intuition congruence. Qed.
Lemma space_cases c : is_space c = true -> is_digit c = false /\ aeqb c (ch ",") = false.
Proof. destruct c as [[] [] [] [] [] [] [] []]; vm_compute; intuition congruence. Qed.
Lemma sel_number_ok t z r : typed_int t z -> comma_or_end r -> sel_number (t ++ r) = Some (z, r).
Proof.
  intros T C.
  assert (R : match r with c :: _ => is_space c = false /\ is_digit c = false | [] => True end)
    by (destruct C as [->|(u & ->)]; [exact I|split; reflexivity]).
  assert (G : forall ds ws' (neg : bool), Forall (fun c => is_space c = true) ws' -> ds <> [] -> Forall (fun c => is_digit c = true) ds ->
     (let '(ds, s) := span is_digit (ds ++ ws' ++ r) in
      match ds with
      | [] => None
      | _ => let '(_, s) := span is_space s in
             if (match s with [] => true | c :: _ => aeqb c (ch ",") end) then
               Some ((if neg then - digits_value ds else digits_value ds)%Z, s) else None
      end) = Some ((if neg then - digits_value ds else digits_value ds)%Z, r)).
  { intros ds ws' neg W N D. rewrite span_app; [|exact D|].
    - destruct ds as [|d ds]; [congruence|]. rewrite span_app; [|exact W|destruct r; [exact I|apply R]].
      destruct C as [->|(u & ->)]; [reflexivity|]. now rewrite aeqb_refl.
    - destruct ws' as [|w ws']; cbn; [destruct r; [exact I|apply R]|]. inversion W; subst. now apply space_cases. }
  destruct T as [ws ds ws' sg W W' N D SG|ws ds ws' W W' N D]; unfold sel_number.
  - rewrite <- !app_assoc. destruct ds as [|d ds]; [congruence|]. inversion D as [|? ? D1 D2]; subst.
    destruct (digit_cases d D1) as (E1 & E2 & E3 & _).
    rewrite span_app; [|exact W|destruct SG as [->| ->]; [exact E1|reflexivity]].
    destruct SG as [->| ->].
    + cbn [app]. rewrite E2, E3. apply (G (d :: ds) ws' false); auto.
    + apply (G (d :: ds) ws' false); auto.
  - rewrite <- !app_assoc. rewrite span_app; [|exact W|reflexivity].
    apply (G ds ws' true); auto.
Qed.
Lemma sel_find_list ts zs : Forall2 typed_int ts zs -> forall f, length (concat (map (fun t => ch "," :: t) ts)) < f ->
  sel_find f false (concat (map (fun t => ch "," :: t) ts)) = zs.
Proof.
  induction 1 as [|t z ts zs T F IH]; intros f L; [destruct f; reflexivity|].
  cbn [map concat] in *. destruct f as [|f]; [lia|]. cbn [sel_find].
  unfold sel_match. cbn [app]. rewrite aeqb_refl. rewrite (sel_number_ok t z); [|exact T|].
  - f_equal. apply IH. rewrite !app_length in L. cbn [length] in L. lia.
  - destruct ts as [|t' ts]; [now left|]. right. eexists. reflexivity.
Qed.
Lemma join_concat t ts : join (L ",") (t :: ts) = t ++ concat (map (fun t => ch "," :: t) ts).
Proof.
  revert t. induction ts as [|t' ts IH]; intros t; [cbn; now rewrite app_nil_r|].
  rewrite join_cons, IH. reflexivity.
Qed.
Theorem selection_spec ts zs : ts <> [] -> Forall2 typed_int ts zs ->
  ra_decode_selection (Some (join (L ",") ts)) = Some (sort Z.leb zs).
Proof.
  intros N F. destruct F as [|t z ts zs T F]; [congruence|]. rewrite join_concat.
  set (s := t ++ concat (map (fun t => ch "," :: t) ts)).
  assert (SN : s <> []).
  { destruct T as [ws ds ws' sg W W' N' D SG|ws ds ws' W W' N' D]; unfold s; destruct ws; cbn; try congruence.
    destruct SG as [->| ->]; cbn; try congruence. destruct ds; cbn; congruence. }
  assert (R : ra_decode_selection (Some s) = Some (sort Z.leb (sel_find (S (length s)) true s)))
    by (destruct s; [congruence|reflexivity]).
  assert (K : sel_number s = Some (z, concat (map (fun t => ch "," :: t) ts))).
  { unfold s. apply sel_number_ok; [exact T|]. destruct ts as [|t' ts]; [now left|]. right. eexists. reflexivity. }
  etransitivity; [exact R|]. do 2 f_equal. cbn [sel_find]. unfold sel_match. rewrite K.
  f_equal. apply sel_find_list; [exact F|]. unfold s. rewrite app_length.
  assert (0 < length t); [|lia].
  destruct T as [ws ds ws' sg W W' N' D SG|ws ds ws' W W' N' D]; rewrite !app_length; cbn; [|lia].
  destruct ds; [congruence|]. cbn. lia.
Qed.
