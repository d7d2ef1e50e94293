(** Lemmas about the reading of functions. *)
From Coq Require Import String Ascii List ZArith Reals Lra Lia Bool.
From Verif Require Import Base NumModel NumLemmas ChronModel ProdModel StrModel StrSpec StrProofs CliModel CliProofs2 FmtSpec FmtProofs.
From Verif Require Import TsModel TsSpec TsProofs5 TsProps IoModel IoSpec IoProofs SccModel SccProofs3 EpModel EpSpec EpProps FlProps LoadModel LoadSpec.
Import ListNotations.
Local Open Scope R_scope.

(** what is known of the dictionary of a structure *)
Definition fields_of (d : list (str * tsval)) (fields : list entry) : Prop := exists ts, Forall2 means fields ts /\ holds d fields ts.
Lemma flat_means fields : Forall (fun e => frame_ok e /\ flat_ok true (value_of e)) fields ->
  Forall2 means fields (map (fun e => flat_meaning (value_of e)) fields).
Proof.
  induction 1 as [|e l (_ & H) F IH]; [constructor|]. cbn [map]. constructor; [|exact IH]. unfold means. destruct (value_of e); try reflexivity. destruct H.
Qed.
Lemma structure_means e n fields t : entry_ok e -> means e t -> named_structure e n fields -> exists d, t = TDict d /\ fields_of d fields /\ named n t.
Proof.
  intros (_ & OK) M ((gap & foot & V) & T). unfold means in M. rewrite V in M, OK. destruct M as (d & -> & H). destruct OK as (_ & _ & _ & _ & _ & F).
  assert (G : fields_of d fields) by (eexists; split; [apply flat_means, F|exact H]).
  exists d. split; [reflexivity|]. split; [exact G|]. exists d. split; [reflexivity|]. destruct G as (ts & G1 & G2). exact (lookup_text _ _ _ _ _ G2 G1 T).
Qed.
Lemma values_app k l1 l2 ts : Forall2 means (l1 ++ l2) ts ->
  exists ts1 ts2, Forall2 means l1 ts1 /\ Forall2 means l2 ts2 /\ values_of k (l1 ++ l2) ts = values_of k l1 ts1 ++ values_of k l2 ts2.
Proof.
  intros F. apply Forall2_app_inv_l in F as (ts1 & ts2 & F1 & F2 & ->). exists ts1, ts2. repeat split; auto.
  apply C87_builtin_values_first. clear - F1. induction F1; cbn; congruence.
Qed.
Lemma values_named l kind n : forall ts, Forall entry_ok l -> Forall2 means l ts -> undefined l kind n ->
  Forall (fun v => exists m, named m v /\ m <> n) (values_of kind l ts).
Proof.
  induction l as [|e l IH]; intros ts OK F U; inversion F as [|? t ? ts' M F']; subst; [constructor|].
  inversion OK as [|? ? Oe Ol]; subst. rewrite values_cons. apply Forall_app. split; [|apply IH; [exact Ol|exact F'|intros e' I; apply U; now right]].
  destruct (list_eq_dec ascii_dec (key_of e) kind) as [K|_]; [|constructor]. constructor; [|constructor].
  destruct (U e ltac:(now left) K) as (m & fields & N & Hm). destruct (structure_means e m fields t Oe M N) as (d & _ & _ & Nd). exists m. auto.
Qed.
Lemma values_first l kind n fields ts : Forall entry_ok l -> Forall2 means l ts -> defines l kind n fields ->
  exists d, first_named n (values_of kind l ts) d /\ fields_of d fields.
Proof.
  intros OK F (before & e & after & -> & K & N & B). apply Forall_app in OK as (OB & OE). inversion OE as [|? ? Oe Oa]; subst.
  destruct (values_app (key_of e) before (e :: after) ts F) as (ts1 & ts2 & F1 & F2 & ->). inversion F2 as [|? t ? ts' M F']; subst.
  destruct (structure_means e n fields t Oe M N) as (d & -> & G & Nd). exists d. split; [|exact G].
  exists (values_of (key_of e) before ts1), (values_of (key_of e) after ts'). split; [|split; [exact Nd|]].
  - f_equal. rewrite values_cons. destruct (list_eq_dec ascii_dec (key_of e) (key_of e)); [reflexivity|congruence].
  - apply values_named; auto.
Qed.
Lemma values_one k e : forall t, key_of e = k -> values_of k [e] [t] = [t].
Proof. intros t K. rewrite values_cons. destruct (list_eq_dec ascii_dec (key_of e) k); [reflexivity|congruence]. Qed.
Lemma values_several l kind ts : Forall2 means l ts -> several l kind -> exists v1 v2 vs, values_of kind l ts = v1 :: v2 :: vs.
Proof.
  intros F (l1 & e1 & l2 & e2 & l3 & -> & K1 & K2).
  destruct (values_app kind l1 (e1 :: l2 ++ e2 :: l3) ts F) as (ts1 & ts2 & F1 & F2 & ->). inversion F2 as [|? t1 ? ts3 M1 F3]; subst.
  destruct (values_app (key_of e1) l2 (e2 :: l3) ts3 F3) as (ts4 & ts5 & F4 & F5 & E). inversion F5 as [|? t2 ? ts6 M2 F6]; subst.
  rewrite values_cons, E, values_cons. destruct (list_eq_dec ascii_dec (key_of e1) (key_of e1)); [|congruence].
  destruct (list_eq_dec ascii_dec (key_of e2) (key_of e1)); [|congruence].
  destruct (values_of (key_of e1) l1 ts1) as [|a [|b r]]; cbn [app]; [destruct (values_of (key_of e1) l2 ts4) as [|a r]; cbn [app]|..]; eauto.
Qed.

(** ** The entry that is added to a text *)
Definition null_name : entry := Entry (L " ") (L "name") false [] [] (InQuote dq (L "null")) [].
Definition null_struct (ind kind : str) : entry := Entry ind kind false [] [] (Struct [nl] [null_name] []) [].
Lemma null_text ind kind : TsSpec.entry_text (null_struct ind kind) = ind ++ kind ++ L "={" ++ nl :: L " name=" ++ dq :: L "null" ++ dq :: nl :: L "}".
Proof. unfold null_struct, null_name. cbn [TsSpec.entry_text value_text map concat]. rewrite !app_nil_r. cbn [app]. rewrite <- ?app_assoc. reflexivity. Qed.
Lemma null_ok ind kind : white ind -> key_ok kind -> entry_ok (null_struct ind kind).
Proof.
  intros W K. split.
  - cbn [frame_ok null_struct]. split; [exact W|]. split; [exact K|]. split; [constructor|]. split; [constructor|]. split; [easy|constructor].
  - cbn [value_of null_struct]. split; [discriminate|]. split; [repeat constructor|]. split; [constructor|]. split; [discriminate|]. split.
    + intros l1 e l2 E (a & b & l & A) _. exfalso. destruct l1 as [|x [|y l1]]; try discriminate E. injection E as <- <-. discriminate A.
    + constructor; [|constructor]. split; [unfold null_name; frame|]. cbn [value_of null_name flat_ok]. split; [now left|]. split; [cbn; intuition discriminate|].
      intros _. unfold without. cbn. repeat (constructor; [cbn; intuition discriminate|]). constructor.
Qed.
Lemma null_named ind kind : named_structure (null_struct ind kind) (L "null") [null_name].
Proof.
  split; [eexists; eexists; reflexivity|]. exists null_name. split; [exists [], []; split; [reflexivity|constructor]|]. split; [reflexivity|]. right. exists dq. reflexivity.
Qed.
Lemma document_null l tail kind : l <> [] -> tail_ok tail ->
  exists ind, white ind /\ document l tail ++ null_of kind = document (l ++ [null_struct ind kind]) [].
Proof.
  intros N T. unfold null_of.
  assert (J : forall ind, join [nl] (map TsSpec.entry_text (l ++ [null_struct ind kind])) =
     join [nl] (map TsSpec.entry_text l) ++ nl :: ind ++ kind ++ L "={" ++ nl :: L " name=" ++ dq :: L "null" ++ dq :: nl :: L "}").
  { intros ind. rewrite map_app. cbn [map]. rewrite null_text. generalize (ind ++ kind ++ L "={" ++ nl :: L " name=" ++ dq :: L "null" ++ dq :: nl :: L "}").
    intros x. clear - N. destruct l as [|e l]; [contradiction|]. clear N. revert e. induction l as [|e2 l IH]; intros e; [reflexivity|].
    cbn [map app join] in *. rewrite IH. rewrite <- !app_assoc. reflexivity. }
  destruct T as [-> |(ws & -> & W)].
  - exists []. split; [constructor|]. unfold document. rewrite !app_nil_r, J. reflexivity.
  - exists (ws ++ [nl]). split; [apply Forall_app; split; [exact W|repeat constructor]|]. unfold document. rewrite app_nil_r, J, <- !app_assoc. reflexivity.
Qed.
Lemma repeats_null l ind kind : repeats_ok l -> repeats_ok (l ++ [null_struct ind kind]).
Proof.
  intros R l1 e l2 E A X. destruct (split_cases _ _ _ _ E) as [(c & E1 & E2)|(c & -> & E2)].
  - destruct c as [|c0 c].
    + cbn in E2. injection E2 as -> ->. destruct A as (a & b & x & A). discriminate A.
    + cbn in E2. injection E2 as <- ->. destruct (R l1 e c E1 A X) as (e' & I & K). exists e'. split; [apply in_or_app; now left|exact K].
  - destruct c as [|c0 [|c1 c]]; try discriminate E2. cbn in E2. injection E2 as <- <-. destruct A as (a & b & x & A). discriminate A.
Qed.

(** ** A source and its definitions *)
Lemma kind_key : key_ok (L "chronology") /\ key_ok (L "production") /\ key_ok (L "equilibrium").
Proof. repeat split; try discriminate; repeat (constructor; [left; reflexivity|]); constructor. Qed.
Lemma kind_of_key eq : key_ok (kind_of eq).
Proof. destruct kind_key as (_ & K2 & K3). destruct eq; assumption. Qed.
Lemma mem_nl s : mem nl s = true <-> In nl s.
Proof. unfold mem. rewrite existsb_exists. split; [intros (c & I & E); destruct (aeqb_spec nl c); [now subst|discriminate]|intros I; exists nl; split; [exact I|destruct (aeqb_spec nl nl); congruence]]. Qed.
(** the values of the kind that a constructor looks through: those of the definitions, and perhaps the one added *)
Lemma given_values fs kind src l : key_ok kind -> given fs kind src l -> (exists e, In e l /\ key_of e = kind) ->
  exists d vs extra, load_kind fs kind src = Ok d /\ lookup d kind = Some (TList (vs ++ extra)) /\ Forall entry_ok l /\
    (exists ts, Forall2 means l ts /\ vs = values_of kind l ts) /\ (extra = [] \/ exists x, extra = [x] /\ named (L "null") x).
Proof.
  intros K G X. destruct G as [d l (OK & ts & M & H) S|name lines l tail N R J (NE & OK & RP & T) S|l tail N (NE & OK & RP & T)].
  - exists d, (values_of kind l ts), []. destruct (values_several l kind ts M S) as (v1 & v2 & vs & E). repeat split; auto; [|now exists ts].
    rewrite (holds_lookup d l ts kind H), E, app_nil_r. reflexivity.
  - destruct (C30_reading l tail NE OK RP T) as (d & ts & E & M & H). destruct (values_several l kind ts M S) as (v1 & v2 & vs & V).
    exists d, (values_of kind l ts), []. repeat split; auto; [| |now exists ts].
    + cbn [load_kind]. destruct (mem nl name) eqn:Y; [apply mem_nl in Y; contradiction|]. rewrite R. cbn [bind]. rewrite J, E. reflexivity.
    + rewrite (holds_lookup d l ts kind H), V, app_nil_r. reflexivity.
  - destruct (document_null l tail kind NE T) as (ind & W & D).
    assert (OK' : Forall entry_ok (l ++ [null_struct ind kind])) by (apply Forall_app; split; [exact OK|constructor; [now apply null_ok|constructor]]).
    destruct (C30_reading (l ++ [null_struct ind kind]) []) as (d & ts & E & M & H); [now destruct l|exact OK'|now apply repeats_null|now left|].
    destruct (values_app kind l [null_struct ind kind] ts M) as (ts1 & ts2 & M1 & M2 & V).
    inversion M2 as [|? t ? ts' Mt Mr]; subst. inversion Mr; subst. rewrite values_one in V by reflexivity.
    destruct (structure_means _ _ _ _ (null_ok ind kind W K) Mt (null_named ind kind)) as (dn & -> & _ & Nn).
    exists d, (values_of kind l ts1), [TDict dn]. repeat split; auto; [| |now exists ts1|right; exists (TDict dn); auto].
    + cbn [load_kind]. destruct (mem nl (document l tail)) eqn:Y; [|apply mem_nl in N; congruence]. cbn [bind]. rewrite D, E. reflexivity.
    + rewrite (holds_lookup d _ ts kind H), V. destruct X as (e & I & Ke). apply in_split in I as (l1 & l2 & ->).
      destruct (values_app kind l1 (e :: l2) ts1 M1) as (q1 & q2 & Q1 & Q2 & V2). inversion Q2 as [|? t2 ? q3 P1 P2]; subst. rewrite V2, values_cons.
      destruct (list_eq_dec ascii_dec (key_of e) (key_of e)); [|congruence]. destruct (values_of (key_of e) l1 q1) as [|a [|b r]]; cbn [app collected]; [|reflexivity..].
      destruct (values_of (key_of e) l2 q3); reflexivity.
Qed.
Lemma definition_found fs kind src l n fields : key_ok kind -> given fs kind src l -> defines l kind n fields ->
  exists d, definition fs kind src n = Ok (TDict d) /\ fields_of d fields.
Proof.
  intros K G D. pose proof D as (before & e & after & E & Ke & _).
  destruct (given_values fs kind src l K G) as (dd & vs & extra & Ld & Lk & OK & (ts & M & ->) & _).
  { exists e. split; [|exact Ke]. subst l. apply in_or_app. right. now left. }
  destruct (values_first l kind n fields ts OK M D) as (d & (b & a & Ev & N & B) & F). exists d. split; [|exact F].
  unfold definition. rewrite Ld. cbn [bind]. unfold dict_get. rewrite Lk. cbn [bind elements]. apply find_first.
  exists b, (a ++ extra). split; [rewrite Ev, <- app_assoc; reflexivity|auto].
Qed.
Lemma definition_unknown fs kind src l n : key_ok kind -> given fs kind src l -> (exists e, In e l /\ key_of e = kind) -> undefined l kind n -> n <> L "null" ->
  definition fs kind src n = Err ValueError.
Proof.
  intros K G X U Nn. destruct (given_values fs kind src l K G X) as (dd & vs & extra & Ld & Lk & OK & (ts & M & ->) & Ex).
  unfold definition. rewrite Ld. cbn [bind]. unfold dict_get. rewrite Lk. cbn [bind elements]. apply find_none. apply Forall_app. split; [now apply values_named|].
  destruct Ex as [-> |(x & -> & Nx)]; [constructor|]. constructor; [|constructor]. exists (L "null"). split; [exact Nx|congruence].
Qed.

(** ** Fields *)
Lemma field_list d fields k ws : fields_of d fields -> list_entry fields k ws -> lookup d k = Some (TList (map TStr ws)).
Proof.
  intros (ts & M & H) (e & a & b & its & S & <- & V & <-). destruct (lookup_sole _ _ _ _ H M S) as (t & Lk & Me). rewrite Lk. f_equal.
  apply means_flat in Me; [|intros g l f Q; congruence]. subst t. rewrite V. cbn [flat_meaning]. now rewrite map_map.
Qed.
Lemma field_text d fields k w : fields_of d fields -> text_entry fields k w -> lookup d k = Some (TStr w).
Proof. intros (ts & M & H) T. exact (lookup_text _ _ _ _ _ H M T). Qed.
Lemma field_absent d fields k : fields_of d fields -> no_entry fields k -> lookup d k = None.
Proof. intros (ts & M & H) T. exact (lookup_absent _ _ _ _ H T). Qed.
Lemma numbers_ok ws xs : Forall2 decimal ws xs -> mapM float_of (map TStr ws) = Ok xs.
Proof.
  induction 1 as [|w x ws xs D F IH]; [reflexivity|]. cbn [map mapM float_of]. rewrite (py_float_decimal w x D). cbn [bind]. rewrite IH. reflexivity.
Qed.
Lemma field_numbers d fields k xs : fields_of d fields -> numbers_entry fields k xs ->
  has (TDict d) k = true /\ float_column (TDict d) k = Ok xs /\ (do! v <- sub (TDict d) k; number_array v) = Ok xs.
Proof.
  intros F (ws & Lw & D). pose proof (field_list d fields k ws F Lw) as Lk. unfold has, float_column, sub, dict_get. rewrite Lk. cbn [bind elements number_array].
  rewrite (numbers_ok ws xs D). auto.
Qed.
Lemma field_none d fields k : fields_of d fields -> no_entry fields k -> has (TDict d) k = false /\ sub (TDict d) k = Err KeyError.
Proof. intros F N. pose proof (field_absent d fields k F N) as Lk. unfold has, sub, dict_get. rewrite Lk. auto. Qed.
Lemma field_word d fields k w : fields_of d fields -> text_entry fields k w -> has (TDict d) k = true /\ sub (TDict d) k = Ok (TStr w).
Proof. intros F N. pose proof (field_text d fields k w F N) as Lk. unfold has, sub, dict_get. rewrite Lk. auto. Qed.
Lemma int_of_digits w : all_digits w -> w <> [] -> int_of (TStr w) = Ok (digits_value w).
Proof.
  intros A N. unfold int_of. rewrite (digits_strip _ A).
  assert (P : py_sign w = (false, w)).
  { pose proof (digits_sign_free w [] A N) as SF. rewrite app_nil_r in SF. apply (py_sign_text [] false); [left; auto|exact SF]. }
  rewrite P. pose proof (span_all is_digit w [] A I) as SP. rewrite app_nil_r in SP. rewrite SP.
  destruct w as [|c s] eqn:E; [congruence|]. rewrite nat_text_value. reflexivity.
Qed.
Lemma digits_nonneg w : all_digits w -> (0 <= digits_value w)%Z.
Proof.
  induction w as [|c w IH] using rev_ind; intros A; [reflexivity|]. apply Forall_app in A as (A & B). rewrite digits_value_app. inversion B as [|? ? D _]; subst.
  specialize (IH A). unfold is_digit, code_in in D. apply andb_true_iff in D as (D1 & D2). apply Nat.leb_le in D1, D2.
  assert (0 <= digits_value [c])%Z by (unfold digits_value, digit_value; cbn [fold_left]; lia).
  cbn [length]. change (10 ^ Z.of_nat 1)%Z with 10%Z. lia.
Qed.
Lemma pyindex_end {A} (l : list A) d : l <> [] -> pyindex l (-1) = Ok (nth (length l - 1) l d).
Proof.
  intros N. assert (0 < length l)%nat by (destruct l; [contradiction|cbn; lia]). unfold pyindex. replace (Z.ltb (-1) 0) with true by reflexivity. cbv zeta.
  replace (-1 + Z.of_nat (length l))%Z with (Z.of_nat (length l - 1)) by lia. destruct (Z.ltb_spec (Z.of_nat (length l - 1)) 0); [lia|].
  rewrite Nat2Z.id, (nth_error_nth' l d) by lia. reflexivity.
Qed.
