(** Evaluation of a whole text; repeated keys. *)
From Coq Require Import String Ascii List Arith Bool Lia.
From Verif Require Import Base StrModel StrSpec StrProofs StrProofs2 CliModel CliSpec CliProofs CliProofs2 CliProofs3 TsModel TsSpec TsProofs TsProofs2 TsProofs3 TsProofs4.
Import ListNotations.

Definition key_raw (e : entry) : str := match e with Entry _ k caret _ _ _ _ => k ++ caret_text caret end.
Lemma key_name_ok e : frame_ok e -> key_name (key_raw e) = key_of e.
Proof.
  destruct e as [i k caret s1 s2 v t]. intros (_ & [N K] & _). cbn [key_raw key_of]. unfold key_name.
  destruct (exists_last N) as (k' & c & ->). apply Forall_app in K as [_ K]. inversion K as [|x y H _]; subst.
  assert (D : aeqb c (ch "^") = false). { apply aeqb_neq. intros ->. apply white_stop_key in H as (_ & H & _). now apply H. }
  destruct caret; cbn [caret_text].
  - rewrite rev_app_distr. change (rev (L "^")) with ["^"%char]. cbn [app]. replace (aeqb "^"%char (ch "^")) with true by reflexivity.
    cbv iota. apply (f_equal (app (L "ptr_"))). rewrite rstrip_app by (repeat constructor). apply rstrip_stop. rewrite rev_app_distr. exact D.
  - rewrite app_nil_r, rev_app_distr. cbn [rev app]. rewrite D. reflexivity.
Qed.

(** ** Reading one definition after the other *)
Definition ev (f : nat) (fd : found) : res tsval :=
  match fd with
  | FStruct t => do! d <- evaluate f t; Ok (match d with Some d => TDict d | None => TNone end)
  | FText t => Ok (TStr t)
  | FValue t => simple_value t
  end.
Definition good (e : entry) (x : tsval) : Prop :=
  frame_ok e /\
  match e with
  | Entry _ _ _ _ _ v t =>
      is_space (hd " "%char (value_text v)) = false /\
      exists fd, (forall b more r, bol b = false -> key_line more r -> value_re b (value_text v ++ t ++ nl :: more) = Some (fd, r)) /\
                 (forall f, length (value_text v) <= f -> ev f fd = Ok x)
  end.
Lemma good_undent e x : good e x -> good (undent e) x.
Proof. destruct e as [i k c s1 s2 v t]. unfold good. cbn. intuition. constructor. Qed.
Fixpoint merges (l : list entry) (ts : list tsval) : option (list (str * tsval)) :=
  match l, ts with
  | e :: l, x :: ts => Some (merge (key_of e) x (merges l ts))
  | _, _ => None
  end.
Lemma merges_undent e l ts : merges (undent e :: l) ts = merges (e :: l) ts.
Proof. destruct e, ts; reflexivity. Qed.
Definition next_text (l : list entry) (tail : str) : str := match l with [] => [] | e :: l => document (undent e :: l) tail end.
Lemma document_cons e l tail : document (e :: l) tail = entry_text e ++ match l with [] => tail | _ => nl :: document l tail end.
Proof. unfold document. destruct l as [|e2 l]; [reflexivity|]. cbn [map]. rewrite join_cons, <- !app_assoc. reflexivity. Qed.
Lemma document_indent e l tail : document (e :: l) tail = indent_of e ++ document (undent e :: l) tail.
Proof. rewrite !document_cons, app_assoc. f_equal. destruct e. reflexivity. Qed.
Lemma document_key e l tail : frame_ok e -> key_line (document (e :: l) tail ++ sentinel) (document (undent e :: l) tail ++ sentinel).
Proof.
  intros F. destruct e as [i k c s1 s2 v t]. destruct F as (I & K & S1 & _).
  exists i, k, c, s1. eexists. repeat split.
  - rewrite document_indent. cbn [indent_of]. now rewrite <- app_assoc.
  - rewrite document_cons. cbn [undent entry_text app]. rewrite <- !app_assoc. reflexivity.
  - exact I.
  - apply K.
  - apply K.
  - exact S1.
Qed.
Lemma first_search e l tail x : good e x -> Forall (fun e => frame_ok e) l -> tail_ok tail ->
  exists fd r, search_def [] (document (e :: l) tail ++ sentinel) = Some (key_raw e, fd, r) /\
    firstn (length r - length sentinel) r = next_text l tail /\
    (forall f, length (document (e :: l) tail) <= f -> ev f fd = Ok x).
Proof.
  intros G Fl Ht.
  assert (M : exists more r, document (e :: l) tail ++ sentinel = entry_text e ++ nl :: more /\ key_line more r /\ firstn (length r - length sentinel) r = next_text l tail).
  { rewrite document_cons. destruct l as [|e2 l].
    - assert (KE : forall ws, white ws -> key_line (ws ++ L "end=") (L "end=")).
      { intros ws W. exists ws, (L "end"), false, [], []. repeat split; try assumption; try discriminate.
        - repeat constructor.
        - constructor. }
      destruct Ht as [-> |(ws & -> & W)].
      + exists (L "end="), (L "end="). repeat split; [now rewrite <- app_assoc|apply (KE []); constructor].
      + exists ((ws ++ [nl]) ++ L "end="), (L "end="). repeat split; [|apply KE; apply Forall_app; split; [exact W|repeat constructor]].
        unfold sentinel. rewrite <- !app_assoc. cbn [app]. reflexivity.
    - inversion Fl; subst. exists (document (e2 :: l) tail ++ sentinel), (document (undent e2 :: l) tail ++ sentinel). repeat split.
      + now rewrite <- app_assoc.
      + now apply document_key.
      + cbn [next_text]. rewrite app_length, Nat.add_sub. rewrite firstn_app, Nat.sub_diag, firstn_all. now rewrite app_nil_r. }
  destruct M as (more & r & E & KL & Er). destruct e as [i k c s1 s2 v t]. destruct G as (Fe & Hv & fd & V & EV).
  exists fd, r. repeat split; [|exact Er|].
  - rewrite E. rewrite entry_split. unfold head_text. rewrite <- !app_assoc. cbn [app].
    pose proof (definition_ok i k c s1 s2 (value_text v ++ t ++ nl :: more) fd r) as Df. destruct Fe as (I & K & S1 & S2 & N2 & T).
    specialize (Df I K S1 S2 N2).
    assert (St : stops is_space (value_text v ++ t ++ nl :: more)). { destruct (value_text v) as [|y u]; [discriminate Hv|exact Hv]. }
    specialize (Df St (fun b B => V b more r B KL)).
    cbn [key_raw]. destruct (i ++ k ++ caret_text c ++ s1 ++ "="%char :: s2 ++ value_text v ++ t ++ nl :: more); cbn [search_def]; now rewrite Df.
  - intros f Lf. apply EV. rewrite document_cons, entry_split in Lf. unfold head_text in Lf. rewrite !app_length in Lf. lia.
Qed.
Lemma evaluate_nil f : evaluate f [] = Ok None.
Proof. destruct f; reflexivity. Qed.
Lemma next_length e l tail : frame_ok e -> length (next_text l tail) < length (document (e :: l) tail).
Proof.
  intros F. rewrite document_cons. rewrite app_length. assert (length (entry_text e) > 0).
  { destruct e as [i k c s1 s2 v t]. rewrite entry_split. unfold head_text. rewrite !app_length. cbn. lia. }
  destruct l as [|e2 l]; cbn [next_text]; [cbn; lia|]. rewrite (document_indent e2). cbn [length]. rewrite app_length. lia.
Qed.
Theorem evaluate_all l : forall ts tail f, Forall2 good l ts -> l <> [] -> tail_ok tail -> length (document l tail) < f ->
  evaluate f (document l tail) = Ok (merges l ts).
Proof.
  assert (G : forall n l ts tail f, length l <= n -> Forall2 good l ts -> l <> [] -> tail_ok tail -> length (document l tail) < f -> evaluate f (document l tail) = Ok (merges l ts)).
  { clear l. induction n as [|n IH]; intros l ts tail f Ln F N T Lf; [destruct l; [easy|cbn in Ln; lia]|].
    destruct F as [|e x l ts Ge F]; [easy|]. destruct f as [|f]; [lia|].
    assert (Fl : Forall (fun e => frame_ok e) l). { clear - F. induction F as [|e x l ts H F IH]; constructor; [apply H|exact IH]. }
    destruct (first_search e l tail x Ge Fl T) as (fd & r & SD & Er & EV).
    cbn [evaluate]. rewrite SD. fold (ev f fd). rewrite EV by lia. cbn [bind]. rewrite Er.
    rewrite (key_name_ok e) by apply Ge. pose proof (next_length e l tail (proj1 Ge)) as NL.
    assert (R : evaluate f (next_text l tail) = Ok (merges l ts)).
    { destruct F as [|e2 x2 l ts G2 F]; [apply evaluate_nil|]. cbn [next_text] in *. rewrite <- (merges_undent e2 l).
      apply IH; [cbn in *; lia| |discriminate|exact T|lia]. constructor; [now apply good_undent|exact F]. }
    rewrite R. reflexivity. }
  intros ts tail f. apply (G (length l)). apply le_n.
Qed.

(** ** Values of definitions *)
Lemma flat_good deep e : frame_ok e -> flat_ok deep (value_of e) -> good e (flat_meaning (value_of e)).
Proof.
  intros F V. split; [exact F|]. destruct e as [i k c s1 s2 v t]. cbn [value_of] in *. destruct F as (_ & _ & _ & _ & _ & T).
  split; [now apply (flat_hd deep)|]. exists (FValue (value_text v ++ t ++ [nl])). split.
  - intros b more r B KL. now apply (value_re_flat deep).
  - intros f _. cbn [ev]. now apply (flat_value v deep).
Qed.
Lemma body_document l : l <> [] -> body_text l = document l [nl].
Proof.
  intros N. unfold body_text, document. induction l as [|e l IH]; [easy|]. destruct l as [|e2 l]; [cbn; now rewrite app_nil_r|].
  cbn [map concat]. rewrite join_cons. cbn [map concat] in IH. rewrite IH by easy. now rewrite <- !app_assoc.
Qed.
Lemma struct_good e gap l foot : frame_ok e -> value_of e = Struct gap l foot -> gap <> [] -> white gap -> white foot -> l <> [] ->
  Forall (fun e => frame_ok e /\ flat_ok true (value_of e)) l ->
  exists d, merges l (map (fun e => flat_meaning (value_of e)) l) = Some d /\ good e (TDict d).
Proof.
  intros F E Ng G Ft Nl R. destruct l as [|e1 l]; [easy|].
  exists (merge (key_of e1) (flat_meaning (value_of e1)) (merges l (map (fun e => flat_meaning (value_of e)) l))). split; [reflexivity|].
  split; [exact F|]. destruct e as [i k c s1 s2 v t]. cbn [value_of] in E. subst v. split; [reflexivity|].
  exists (FStruct (body_text (undent e1 :: l))). split.
  - intros b more r B KL. apply value_re_struct; auto. destruct F as (_ & _ & _ & _ & _ & T). exact T.
  - intros f Lf. cbn [ev]. rewrite body_document by easy.
    rewrite (evaluate_all (undent e1 :: l) (flat_meaning (value_of e1) :: map (fun e => flat_meaning (value_of e)) l)).
    + rewrite merges_undent. reflexivity.
    + inversion R as [|x y [R1 R2] R']; subst. constructor; [apply good_undent; now apply (flat_good true)|].
      clear - R'. induction R' as [|e l [A B] R IH]; constructor; [now apply (flat_good true)|exact IH].
    + discriminate.
    + right. exists []. split; [reflexivity|constructor].
    + rewrite <- body_document by easy. cbn [value_text] in Lf. fold (body_text (e1 :: l)) in Lf. rewrite !app_length in Lf. cbn [length L list_ascii_of_string] in Lf.
      assert (length (body_text (undent e1 :: l)) <= length (body_text (e1 :: l))).
      { unfold body_text. cbn [map concat]. rewrite !app_length. destruct e1. cbn [undent entry_text app]. rewrite !app_length. lia. }
      lia.
Qed.

(** ** Repeated keys *)
Lemma lookup_In {V} (d : list (str * V)) k v : NoDup (map fst d) -> (lookup d k = Some v <-> In (k, v) d).
Proof.
  unfold lookup. induction d as [|[j w] d IH]; intros N; cbn [find map] in *; [split; [discriminate|easy]|]. inversion N; subst. cbn [fst].
  destruct (seqb_spec j k) as [-> |D]; cbn [snd].
  - split; [intros E; injection E as ->; now left|]. intros [E|I]; [now injection E as ->|]. exfalso. apply H1. now apply (in_map fst) in I.
  - rewrite IH by assumption. split; [now right|]. intros [E|I]; [injection E as -> _; contradiction|exact I].
Qed.
Lemma dict_set_In {V} (d : list (str * V)) k v j w : NoDup (map fst d) ->
  (In (j, w) (dict_set d k v) <-> j = k /\ w = v \/ j <> k /\ In (j, w) d).
Proof.
  induction d as [|[i u] d IH]; intros N; cbn [dict_set map] in *.
  - cbn. split; [intros [E|[]]; injection E as -> ->; now left|]. intros [[-> ->]|[_ []]]. now left.
  - inversion N as [|x y NI ND]; subst. cbn [fst] in NI. destruct (seqb_spec i k) as [-> |D]; cbn [In].
    + split.
      * intros [E|I]; [injection E as -> ->; now left|]. right. split; [|now right]. intros ->. apply NI. now apply (in_map fst) in I.
      * intros [[-> ->]|[Dj [E|I]]]; [now left| |now right]. injection E as -> _. contradiction.
    + rewrite (IH ND). split.
      * intros [E|[E|[Dj I]]]; [injection E as -> ->; right; split; [exact D|now left]|now left|right; split; [exact Dj|now right]].
      * intros [E|[Dj [E|I]]]; [right; now left|now left|right; right; now split].
Qed.
Lemma values_cons k e l x ts : values_of k (e :: l) (x :: ts) = (if list_eq_dec ascii_dec (key_of e) k then [x] else []) ++ values_of k l ts.
Proof. unfold values_of. cbn [combine filter fst]. destruct (list_eq_dec ascii_dec (key_of e) k); reflexivity. Qed.
Lemma values_in k l : forall ts x, In x (values_of k l ts) -> exists e, In (e, x) (combine l ts) /\ key_of e = k.
Proof.
  intros ts x I. unfold values_of in I. apply in_map_iff in I as ([e y] & <- & I). apply filter_In in I as [I H]. cbn [fst snd] in *.
  exists e. split; [exact I|]. now destruct (list_eq_dec ascii_dec (key_of e) k).
Qed.
Definition list_like (e : entry) (x : tsval) : Prop := (exists v, x = TList v) -> array (value_of e).
Lemma holds_lookup d l ts k : holds d l ts -> lookup d k = collected (values_of k l ts).
Proof.
  intros [N H]. destruct (lookup d k) as [v|] eqn:E.
  - apply (lookup_In d k v N) in E. apply H in E. congruence.
  - destruct (collected (values_of k l ts)) as [v|] eqn:C; [|reflexivity]. apply H in C. apply (lookup_In d k v N) in C. congruence.
Qed.
Lemma values_nil k l ts : Forall (fun e => key_of e <> k) l -> values_of k l ts = [].
Proof.
  intros F. destruct (values_of k l ts) as [|x xs] eqn:E; [reflexivity|]. exfalso.
  destruct (values_in k l ts x) as (e & I & K); [rewrite E; now left|]. apply in_combine_l in I. now apply (proj1 (Forall_forall _ _) F) in I.
Qed.
Lemma merge_holds e x l ts d : holds d l ts -> Forall2 list_like l ts -> repeats_ok (e :: l) -> holds (merge (key_of e) x (Some d)) (e :: l) (x :: ts).
Proof.
  intros Hd LL RO. pose proof (holds_lookup d l ts (key_of e) Hd) as Lk. destruct Hd as [N H]. unfold merge.
  assert (Set_ : forall y, collected (values_of (key_of e) (e :: l) (x :: ts)) = Some y -> holds (dict_set d (key_of e) y) (e :: l) (x :: ts)).
  { intros y C. split; [now apply dict_set_keys|]. intros k v. rewrite (dict_set_In d (key_of e) y k v N).
    destruct (list_eq_dec ascii_dec (key_of e) k) as [<- |D].
    - rewrite C. split; [intros [[_ ->]|[D _]]; [reflexivity|contradiction]|]. intros E. injection E as ->. now left.
    - rewrite values_cons. destruct (list_eq_dec ascii_dec (key_of e) k) as [E|_]; [contradiction|]. cbn [app]. rewrite H.
      split; [intros [[-> _]|[_ E]]; [contradiction|exact E]|]. intros E. right. split; [now intros ->|exact E]. }
  rewrite Lk. assert (V : values_of (key_of e) (e :: l) (x :: ts) = x :: values_of (key_of e) l ts).
  { rewrite values_cons. now destruct (list_eq_dec ascii_dec (key_of e) (key_of e)). }
  destruct (values_of (key_of e) l ts) as [|w [|w2 ws]] eqn:E; cbn [collected].
  - apply Set_. now rewrite V.
  - (* one later value: it is not a list *)
    assert (NL : forall u, w <> TList u).
    { intros u ->. 
      assert (Z : exists l1 e1 l2, l = l1 ++ e1 :: l2 /\ key_of e1 = key_of e /\ array (value_of e1) /\ Forall (fun e' => key_of e' <> key_of e) l2).
      { clear - E LL. revert E. induction LL as [|e1 y l ts A LL IH]; [discriminate|]. rewrite values_cons.
        destruct (list_eq_dec ascii_dec (key_of e1) (key_of e)) as [K|K]; cbn [app]; intros E.
        - injection E as -> E. exists [], e1, l. repeat split; [exact K|apply A; now exists u|].
          apply Forall_forall. intros e' I K'.
          assert (X : forall l ts, length l = length ts -> In e' l -> values_of (key_of e) l ts <> []).
          { clear - K'. induction l as [|e2 l IH]; intros [|z ts] Ln I; [easy|easy|easy|]. rewrite values_cons. destruct I as [-> |I].
            - now destruct (list_eq_dec ascii_dec (key_of e') (key_of e)).
            - intros Z. apply app_eq_nil in Z as [_ Z]. revert Z. apply IH; [cbn in Ln; lia|exact I]. }
          apply (X l ts); [|exact I|exact E]. clear - LL. induction LL; [reflexivity|cbn; now f_equal].
        - destruct (IH E) as (l1 & e2 & l2 & -> & P). now exists (e1 :: l1), e2, l2. }
      destruct Z as (l1 & e1 & l2 & -> & K & A & F2).
      destruct (RO (e :: l1) e1 l2 eq_refl A) as (e' & I & K'); [exists e; split; [now left|now symmetry]|].
      apply (proj1 (Forall_forall _ _) F2) in I. apply I. now rewrite K', K. }
    assert (G : holds (dict_set d (key_of e) (TList [x; w])) (e :: l) (x :: ts)) by (apply Set_; now rewrite V).
    destruct w; try exact G. now destruct (NL l0).
  - apply Set_. now rewrite V.
Qed.
Lemma repeats_tail e l : repeats_ok (e :: l) -> repeats_ok l.
Proof. intros H l1 e0 l2 -> A (e' & I & K). apply (H (e :: l1) e0 l2 eq_refl A). exists e'. split; [now right|exact K]. Qed.
Theorem merges_hold l : forall ts, l <> [] -> Forall2 list_like l ts -> repeats_ok l -> exists d, merges l ts = Some d /\ holds d l ts.
Proof.
  induction l as [|e l IH]; intros ts N F R; [easy|]. inversion F as [|? x ? ts' A F']; subst. cbn [merges]. eexists. split; [reflexivity|].
  destruct l as [|e2 l].
  - inversion F'; subst. cbn [merges merge]. split; [constructor; [easy|constructor]|]. intros k v. rewrite values_cons. cbn [In].
    destruct (list_eq_dec ascii_dec (key_of e) k) as [<- |D]; cbn.
    + split; [intros [E|[]]; now injection E as ->|]. intros E. injection E as ->. now left.
    + split; [|discriminate]. intros [E|[]]. now injection E as E1 _.
  - destruct (IH ts' ltac:(easy) F' (repeats_tail _ _ R)) as (d & -> & H). now apply merge_holds.
Qed.
Lemma flat_list_like e : list_like e (flat_meaning (value_of e)).
Proof. intros (v & E). destruct (value_of e); try discriminate E. unfold array. eauto. Qed.

(** ** The whole *)
Theorem read_document l tail : l <> [] -> Forall entry_ok l -> repeats_ok l -> tail_ok tail ->
  exists d ts, read_structure (document l tail) = Ok (Some d) /\ Forall2 means l ts /\ holds d l ts.
Proof.
  intros N F R T.
  assert (G : exists ts, Forall2 good l ts /\ Forall2 means l ts /\ Forall2 list_like l ts).
  { clear - F. induction F as [|e l [Fe Ve] F (ts & A & B & C)]; [exists []; repeat constructor|].
    assert (X : exists x, good e x /\ means e x /\ list_like e x).
    { destruct (value_of e) as [| | | |gap m foot] eqn:E;
        try (exists (flat_meaning (value_of e)); repeat split; [apply Fe|apply (flat_good false); [exact Fe|now rewrite E]|unfold means; now rewrite E|apply flat_list_like]).
      destruct Ve as (V1 & V2 & V3 & V4 & V5 & V6). destruct (struct_good e gap m foot Fe E V1 V2 V3 V4 V6) as (d & D & G).
      exists (TDict d). repeat split; [apply Fe|apply G| |intros (v & X); discriminate X].
      unfold means. rewrite E. exists d. split; [reflexivity|].
      destruct (merges_hold m (map (fun e => flat_meaning (value_of e)) m) V4) as (d' & D' & H); [|exact V5|].
      - clear. induction m; constructor; [apply flat_list_like|assumption].
      - rewrite D in D'. now injection D' as ->. }
    destruct X as (x & X1 & X2 & X3). exists (x :: ts). repeat split; constructor; assumption. }
  destruct G as (ts & A & B & C). destruct (merges_hold l ts N C R) as (d & D & H).
  exists d, ts. repeat split; try assumption; try apply H. unfold read_structure. rewrite (evaluate_all l ts tail) by (try assumption; lia). now rewrite D.
Qed.
