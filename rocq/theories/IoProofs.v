(** Lemmas about crater count files: reading numbers, dictionaries of text structures. *)
From Coq Require Import String Ascii List ZArith Reals Bool Lia Lra Permutation Sorted.
From Verif Require Import Base NumModel NumLemmas BinModel CountModel StrModel StrSpec StrProofs StrProofs2 CliModel FmtModel FmtSpec FmtProofs
  TsModel TsSpec TsProofs TsProofs2 TsProofs3 TsProofs4 TsProofs5 IoModel IoSpec.
Import ListNotations.
Local Open Scope R_scope.

(** ** Numbers *)
Lemma span_all p a : forall s, Forall (fun c => p c = true) a -> match s with c :: _ => p c = false | [] => True end -> span p (a ++ s) = (a, s).
Proof.
  induction a as [|c a IH]; intros s H K.
  - destruct s as [|c s]; cbn; [reflexivity|now rewrite K].
  - inversion H; subst. cbn. rewrite H2, (IH s) by assumption. reflexivity.
Qed.
Lemma nat_text_value s : nat_text s = digits_value s.
Proof. reflexivity. Qed.
Lemma digit_facts c : is_digit c = true -> is_space c = false /\ aeqb c (ch "-") = false /\ aeqb c (ch "+") = false /\ aeqb c (ch ".") = false.
Proof. destruct c as [[] [] [] [] [] [] [] []]; cbn; intros H; try discriminate H; repeat split. Qed.
Definition sign_free (s : str) : Prop := match s with c :: _ => aeqb c (ch "-") = false /\ aeqb c (ch "+") = false | [] => True end.
Lemma py_sign_text sg neg s : sign_text sg neg -> sign_free s -> py_sign (sg ++ s) = (neg, s).
Proof.
  intros [[[-> | ->] ->]|[-> ->]] K; try reflexivity.
  destruct s as [|c s]; [reflexivity|]. destruct K as [A B]. unfold py_sign. cbn [app]. now rewrite A, B.
Qed.
Lemma digits_sign_free k s : all_digits k -> k <> [] -> sign_free (k ++ s).
Proof. intros H N. destruct k as [|c k]; [congruence|]. inversion H; subst. cbn. destruct (digit_facts c H2) as (_ & A & B & _). now split. Qed.
Lemma py_exponent_text ex e : exponent_text ex e -> py_exponent ex = Ok e.
Proof.
  intros [[-> ->]|(c & sg & neg & k & C & SG & DK & NK & -> & ->)]; [reflexivity|].
  unfold py_exponent. cbn [app]. replace (mem c (L "eE")) with true by (destruct C; subst; reflexivity).
  rewrite <- (app_nil_r k). rewrite py_sign_text with (neg := neg); [|assumption|now apply digits_sign_free].
  rewrite span_all by (cbn; auto). rewrite app_nil_r. destruct k; [congruence|]. now rewrite nat_text_value.
Qed.
Lemma digits_no_space s : all_digits s -> Forall (fun c => is_space c = false) s.
Proof. intros H. eapply Forall_impl; [|exact H]. intros c D. now apply digit_facts. Qed.
Lemma sign_no_space sg neg : sign_text sg neg -> Forall (fun c => is_space c = false) sg.
Proof. intros [[[-> | ->] _]|[-> _]]; repeat constructor. Qed.
Lemma exponent_no_space ex e : exponent_text ex e -> Forall (fun c => is_space c = false) ex.
Proof.
  intros [[-> _]|(c & sg & neg & k & C & SG & DK & NK & -> & _)]; [constructor|].
  apply Forall_app. split; [destruct C; subst; repeat constructor|]. apply Forall_app. split; [eapply sign_no_space; eassumption|now apply digits_no_space].
Qed.
Lemma no_space_stops s : Forall (fun c => is_space c = false) s -> stops is_space s /\ stops is_space (rev s).
Proof.
  intros H. split.
  - destruct s; cbn; [exact I|now inversion H].
  - apply Forall_rev in H. destruct (rev s); cbn; [exact I|now inversion H].
Qed.
Lemma exponent_no_digit ex e : exponent_text ex e -> match ex with c :: _ => is_digit c = false /\ aeqb c (ch ".") = false | [] => True end.
Proof. intros [[-> _]|(c & sg & neg & k & C & SG & DK & NK & -> & _)]; [exact I|]. destruct C; subst; cbn; split; reflexivity. Qed.
Theorem py_float_decimal s x : decimal s x -> py_float s = Ok x.
Proof.
  intros (w1 & sg & neg & ip & dot & fp & ex & e & w2 & W1 & W2 & SG & IP & FP & NE & DOT & EX & -> & ->).
  set (t := sg ++ ip ++ (if dot then L "." ++ fp else []) ++ ex).
  assert (T : Forall (fun c => is_space c = false) t).
  { unfold t. rewrite !Forall_app. repeat split.
    - eapply sign_no_space; eassumption.
    - now apply digits_no_space.
    - destruct dot; [|constructor]. apply Forall_app. split; [repeat constructor|now apply digits_no_space].
    - eapply exponent_no_space; eassumption. }
  replace (w1 ++ sg ++ ip ++ (if dot then L "." ++ fp else []) ++ ex ++ w2) with (w1 ++ t ++ w2) by (unfold t; now rewrite <- !app_assoc).
  unfold py_float. destruct (no_space_stops t T) as [S1 S2].
  rewrite strip_around by assumption. unfold t.
  pose proof (exponent_no_digit ex e EX) as EN.
  rewrite py_sign_text with (neg := neg); [|assumption|].
  2:{ destruct ip as [|c ip]; [|apply digits_sign_free; [assumption|congruence]].
      destruct dot; [cbn; split; reflexivity|]. exfalso. apply NE. rewrite DOT; reflexivity. }
  rewrite span_all; [|assumption|].
  2:{ destruct dot; [reflexivity|]. cbn [app]. destruct ex; [exact I|exact (proj1 EN)]. }
  assert (P : match ((if dot then L "." ++ fp else []) ++ ex) with
              | c :: t => if aeqb c (ch ".") then span is_digit t else ([], c :: t) | [] => ([], []) end = (fp, ex)).
  { destruct dot.
    - cbn [app L list_ascii_of_string]. replace (aeqb _ (ch ".")) with true by reflexivity.
      apply span_all; [assumption|]. destruct ex; [exact I|exact (proj1 EN)].
    - rewrite DOT by reflexivity. cbn [app]. destruct ex as [|c ex]; [reflexivity|]. now rewrite (proj2 EN). }
  assert (F : (if neg then -1 else 1) * IZR (nat_text (ip ++ fp)) / 10 ^ length fp * powerRZ 10 e =
              (if neg then -1 else 1) * IZR (digits_value (ip ++ fp)) / 10 ^ length fp * powerRZ 10 e) by reflexivity.
  rewrite <- F. clear F T. clearbody t.
  pose proof (py_exponent_text _ _ EX) as PE.
  set (z := (if dot then L "." ++ fp else []) ++ ex) in *. clearbody z.
  transitivity (match ip ++ fp with
    | [] => Err ValueError
    | ds => do! e <- py_exponent ex; Ok ((if neg then -1 else 1) * IZR (nat_text ds) / 10 ^ length fp * powerRZ 10 e) end).
  { destruct z as [|c0 r0]; [injection P as <- <-; reflexivity|].
    destruct (aeqb c0 (ch ".")); [rewrite P; reflexivity|injection P as <- <-; reflexivity]. }
  rewrite PE. cbn [bind]. destruct (ip ++ fp); [congruence|reflexivity].
Qed.
Lemma numeral_decimal s x : numeral s x -> decimal s x.
Proof.
  intros (neg & ip & fp & N & IP & FP & -> & ->).
  exists [], (if neg then L "-" else []), neg, ip, (match fp with [] => false | _ => true end), fp, [], 0%Z, [].
  split; [constructor|]. split; [constructor|]. split; [destruct neg; [right|left]; auto|]. split; [assumption|]. split; [assumption|].
  split; [intros K; apply app_eq_nil in K; intuition|]. split; [destruct fp; [reflexivity|discriminate]|]. split; [left; auto|].
  split; [cbn [app]; rewrite app_nil_r; now destruct fp|]. cbn [powerRZ]. lra.
Qed.
Lemma exponent_numeral_decimal s x : exponent_numeral s x -> decimal s x.
Proof.
  intros (m & y & es & e & (neg & ip & fp & N & IP & FP & -> & ->) & -> & -> & k & DK & NK & C).
  exists [], (if neg then L "-" else []), neg, ip, (match fp with [] => false | _ => true end), fp, (L "e" ++ es), e, [].
  split; [constructor|]. split; [constructor|]. split; [destruct neg; [right|left]; auto|]. split; [assumption|]. split; [assumption|].
  split; [intros K; apply app_eq_nil in K; intuition|]. split; [destruct fp; [reflexivity|discriminate]|].
  split. { right. destruct C as [[-> ->]|[-> ->]].
    - exists "e"%char, (L "+"), false, k. split; [now left|]. split; [left; auto|]. auto.
    - exists "e"%char, (L "-"), true, k. split; [now left|]. split; [right; auto|]. auto. }
  split; [cbn [app]; rewrite app_nil_r; destruct fp; cbn [app]; now rewrite <- ?app_assoc|reflexivity].
Qed.
(** the text of the g format is a number *)
Lemma fmt_g_decimal p x : exists y, significant (Nat.max p 1) x y /\ decimal (fmt_g p x) y.
Proof.
  destruct (fmt_g_spec p x) as (y & S & [N|N] & _); exists y; (split; [exact S|]); [now apply numeral_decimal|now apply exponent_numeral_decimal].
Qed.

(** ** Dictionaries *)
Lemma means_flat e t : means e t -> (forall g l f, value_of e <> Struct g l f) -> t = flat_meaning (value_of e).
Proof. unfold means. intros M N. destruct (value_of e); try assumption. exfalso. eapply N. reflexivity. Qed.
Lemma values_of_sole l1 e l2 : forall ts, Forall2 means (l1 ++ e :: l2) ts -> Forall (fun e' => key_of e' <> key_of e) (l1 ++ l2) ->
  exists t, values_of (key_of e) (l1 ++ e :: l2) ts = [t] /\ means e t.
Proof.
  induction l1 as [|a l1 IH]; intros ts F K; cbn [app] in *.
  - inversion F; subst. exists y. split; [|assumption]. rewrite values_cons. destruct (list_eq_dec _ _ _); [|congruence].
    rewrite values_nil by assumption. reflexivity.
  - inversion F; subst. inversion K; subst. destruct (IH _ H3 H4) as (t & V & M). exists t. split; [|assumption].
    rewrite values_cons. destruct (list_eq_dec _ _ _); [congruence|]. exact V.
Qed.
Lemma structure_lookup fs name l : structure_file fs name l ->
  exists d ts, structure fs name = Ok d /\ Forall2 means l ts /\ holds d l ts.
Proof.
  intros (ls & tail & R & D & N & OK & RP & TL). destruct (read_document l tail N OK RP TL) as (d & ts & RD & M & H).
  exists d, ts. split; [|auto]. unfold structure, read_textstructure. rewrite R. cbn [bind]. rewrite D, RD. reflexivity.
Qed.
Lemma lookup_sole d l ts e : holds d l ts -> Forall2 means l ts -> sole l e -> exists t, lookup d (key_of e) = Some t /\ means e t.
Proof.
  intros H F (l1 & l2 & -> & K). destruct (values_of_sole l1 e l2 ts F K) as (t & V & M). exists t. split; [|exact M].
  rewrite (holds_lookup d _ ts) by exact H. now rewrite V.
Qed.
Lemma lookup_text d l ts k w : holds d l ts -> Forall2 means l ts -> text_entry l k w -> lookup d k = Some (TStr w).
Proof.
  intros H F (e & S & <- & V). destruct (lookup_sole _ _ _ _ H F S) as (t & Lk & M). rewrite Lk. f_equal.
  apply means_flat in M; [|intros g l' f Q; destruct V as [V|[q V]]; congruence]. subst t. destruct V as [V|[q V]]; now rewrite V.
Qed.
Lemma lookup_absent d l ts k : holds d l ts -> Forall (fun e => key_of e <> k) l -> lookup d k = None.
Proof. intros H K. rewrite (holds_lookup d l ts) by exact H. now rewrite values_nil. Qed.
(** the dictionary of a table *)
Definition table_dict (tags : list str) (rows : list (list token * str)) : list (str * tsval) :=
  map (fun it => (snd it, TList (map (fun r => TStr (cell (fst it) r)) rows))) (combine (seq 0 (length tags)) tags).
Lemma lookup_table d l ts k tags rows : holds d l ts -> Forall2 means l ts -> table_entry l k tags rows ->
  lookup d k = Some (TDict (table_dict tags rows)).
Proof.
  intros H F (e & its & foot & S & <- & V & <-). destruct (lookup_sole _ _ _ _ H F S) as (t & Lk & M). rewrite Lk. f_equal.
  apply means_flat in M; [|intros g l' f Q; congruence]. subst t. rewrite V. cbn [flat_meaning]. f_equal. unfold table_dict.
  rewrite map_length. clear V. generalize (seq 0 (length its)). induction its as [|p its IH]; intros [|n q]; [reflexivity..|].
  cbn [combine map fst snd]. f_equal. apply IH.
Qed.
Lemma table_lookup_from tags rows : forall n i t, NoDup tags -> nth_error tags i = Some t ->
  lookup (map (fun it => (snd it, TList (map (fun r => TStr (cell (fst it) r)) rows))) (combine (seq n (length tags)) tags)) t
  = Some (TList (map (fun r => TStr (cell (n + i) r)) rows)).
Proof.
  induction tags as [|a tags IH]; intros n i t ND E; [destruct i; discriminate|]. inversion ND; subst.
  cbn [length seq combine map]. unfold lookup. cbn [find fst snd]. destruct i as [|i].
  - injection E as ->. destruct (seqb_spec t t) as [_|Q]; [|congruence]. cbn. now rewrite Nat.add_0_r.
  - cbn in E. destruct (seqb_spec a t) as [->|Q]; [exfalso; apply H1; eapply nth_error_In; eassumption|].
    specialize (IH (S n) i t H2 E). unfold lookup in IH. rewrite IH. do 2 f_equal. now replace (n + S i)%nat with (S n + i)%nat by lia.
Qed.
Lemma table_lookup tags rows i t : NoDup tags -> nth_error tags i = Some t ->
  lookup (table_dict tags rows) t = Some (TList (map (fun r => TStr (cell i r)) rows)).
Proof. intros ND E. exact (table_lookup_from tags rows 0 i t ND E). Qed.
Lemma table_absent tags rows t : ~ In t tags -> lookup (table_dict tags rows) t = None.
Proof.
  intros N. unfold lookup, table_dict. assert (F : find (fun p => seqb (fst p) t)
     (map (fun it => (snd it, TList (map (fun r => TStr (cell (fst it) r)) rows))) (combine (seq 0 (length tags)) tags)) = None).
  { generalize (seq 0 (length tags)). induction tags as [|a tags IH]; intros [|n q]; cbn; try reflexivity.
    destruct (seqb_spec a t) as [->|Q]; [exfalso; apply N; now left|]. apply IH. intros K. apply N. now right. }
  now rewrite F.
Qed.
Lemma mapM_Forall2 {A B} (f : A -> res B) l r : Forall2 (fun x y => f x = Ok y) l r -> mapM f l = Ok r.
Proof. induction 1; [reflexivity|]. cbn. now rewrite H, IHForall2. Qed.
Lemma mapM_map {A B C} (f : B -> res C) (g : A -> B) l : mapM f (map g l) = mapM (fun x => f (g x)) l.
Proof. induction l as [|x l IH]; [reflexivity|]. cbn. now rewrite IH. Qed.
Lemma column_numbers tags rows t xs : NoDup tags -> numbers_in tags rows t xs -> float_column (TDict (table_dict tags rows)) t = Ok xs.
Proof.
  intros ND (i & E & F). unfold float_column, sub, dict_get. rewrite (table_lookup tags rows i t ND E). cbn [bind elements].
  rewrite mapM_map. apply mapM_Forall2. clear E. induction F as [|r x rows xs D F IH]; constructor; [now apply py_float_decimal|exact IH].
Qed.
Lemma table_has tags rows t : has (TDict (table_dict tags rows)) t = if in_dec (list_eq_dec ascii_dec) t tags then true else false.
Proof.
  cbn [has]. destruct (in_dec (list_eq_dec ascii_dec) t tags) as [I|N]; [|now rewrite table_absent].
  apply In_nth_error in I. destruct I as [i E]. 
  assert (K : lookup (table_dict tags rows) t <> None).
  { clear - E. unfold table_dict, lookup. enough (find (fun p => seqb (fst p) t)
     (map (fun it => (snd it, TList (map (fun r => TStr (cell (fst it) r)) rows))) (combine (seq 0 (length tags)) tags)) <> None) by (destruct (find _ _); congruence).
    revert i E. generalize 0%nat. induction tags as [|a tags IH]; intros n i E; [destruct i; discriminate|]. cbn.
    destruct (seqb_spec a t); [discriminate|]. destruct i as [|i]; [cbn in E; congruence|]. eapply IH. exact E. }
  destruct (lookup _ t); [reflexivity|congruence].
Qed.
