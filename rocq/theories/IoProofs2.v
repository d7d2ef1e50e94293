(** The readers of .diam and .scc files. *)
From Coq Require Import String Ascii List ZArith Reals Bool Lia Lra Permutation Sorted.
From Verif Require Import Base NumModel NumLemmas BinModel CountModel StrModel StrSpec StrProofs StrProofs2 CliModel FmtModel FmtSpec FmtProofs
  TsModel TsSpec TsProofs TsProofs2 TsProofs3 TsProofs4 TsProofs5 IoModel IoSpec IoProofs.
Import ListNotations.
Local Open Scope R_scope.

Lemma table_nodup l k tags rows : Forall entry_ok l -> table_entry l k tags rows -> NoDup tags.
Proof.
  intros F (e & ts & foot & (l1 & l2 & -> & _) & _ & V & <-).
  apply Forall_app in F. destruct F as [_ F]. inversion F as [|? ? [_ E]]; subst. rewrite V in E. cbn in E. tauto.
Qed.
Lemma structure_file_ok fs name l : structure_file fs name l -> Forall entry_ok l.
Proof. intros (? & ? & _ & _ & _ & H & _). exact H. Qed.
Lemma numbers_length tags rows t xs : numbers_in tags rows t xs -> length xs = length rows.
Proof. intros (i & _ & F). clear - F. induction F; cbn; [reflexivity|now rewrite IHF]. Qed.
Lemma combine_nonempty {A B} (a : list A) (b : list B) : length a = length b -> a <> [] -> combine a b <> [].
Proof. destruct a, b; cbn; congruence || discriminate. Qed.
Lemma sort_nonempty {A} (leb : A -> A -> bool) l : l <> [] -> sort leb l <> [].
Proof. intros N K. apply N. apply (f_equal (@length _)) in K. rewrite sort_length in K. destruct l; [reflexivity|discriminate]. Qed.

Section Diam.
  Variables (fs : files) (name : str) (l : list entry) (tags : list str) (rows : list (list token * str)).
  Hypothesis SF : structure_file fs name l.
  Hypothesis TE : table_entry l (L "crater") tags rows.
  Hypothesis NR : rows <> [].
  Definition fractions (ds frs : list R) : Prop :=
    numbers_in tags rows (L "fraction") frs \/ ~ In (L "fraction") tags /\ frs = map (fun _ => 1) ds.
  Lemma fraction_column ds frs : fractions ds frs -> 
    (if has (TDict (table_dict tags rows)) (L "fraction") then float_column (TDict (table_dict tags rows)) (L "fraction") else Ok (map (fun _ => 1) ds)) = Ok frs.
  Proof.
    pose proof (table_nodup _ _ _ _ (structure_file_ok _ _ _ SF) TE) as ND.
    intros [N|[N ->]]; rewrite table_has; destruct (in_dec (list_eq_dec ascii_dec) _ _) as [I|I].
    - now apply column_numbers.
    - exfalso. apply I. destruct N as (i & E & _). eapply nth_error_In; eassumption.
    - contradiction.
    - reflexivity.
  Qed.
  Lemma fractions_length ds frs : length ds = length rows -> fractions ds frs -> length frs = length rows.
  Proof. intros H [N|[_ ->]]; [eapply numbers_length; eassumption|now rewrite map_length]. Qed.

  Theorem read_diam_normal ds frs w a :
    numbers_in tags rows (L "diameter") ds -> fractions ds frs -> ~ In (L "reference_area") tags ->
    text_entry l (L "area") w -> decimal w a ->
    read_diam fs name = Ok (mkCount (crater_list (sort (fun p q => pair_leb q p) (combine ds frs)) a) None false).
  Proof.
    intros D F NA TX DA. pose proof (table_nodup _ _ _ _ (structure_file_ok _ _ _ SF) TE) as ND.
    destruct (structure_lookup _ _ _ SF) as (d & ts & S & M & H). unfold read_diam. rewrite S. cbn [bind].
    unfold dict_get. rewrite (lookup_table d l ts (L "crater") tags rows H M TE). cbn [bind].
    rewrite (column_numbers tags rows _ ds ND D). cbn [bind]. rewrite table_has.
    destruct (in_dec (list_eq_dec ascii_dec) (L "reference_area") tags) as [I|_]; [contradiction|].
    rewrite (lookup_text d l ts (L "area") w H M TX). cbn [bind float_of]. rewrite (py_float_decimal w a DA). cbn [bind].
    rewrite (fraction_column ds frs F). cbn [bind].
    pose proof (numbers_length _ _ _ _ D) as LD. pose proof (fractions_length ds frs LD F) as LF.
    destruct frs as [|f0 frs']; [destruct rows; [congruence|discriminate]|].
    destruct (sort _ _) eqn:Q; [|reflexivity]. exfalso. revert Q. apply sort_nonempty, combine_nonempty; [congruence|].
    destruct ds; [destruct rows; [congruence|discriminate]|discriminate].
  Qed.
  Theorem read_diam_buffered ds refs :
    numbers_in tags rows (L "diameter") ds -> numbers_in tags rows (L "reference_area") refs -> Forall (fun x => x <> 0) refs ->
    read_diam fs name = Ok (mkCount (crater_list (sort (fun p q => pair_leb q p) (combine ds (map (fun x => 1 / x) refs))) 1) None true).
  Proof.
    intros D F NZ. pose proof (table_nodup _ _ _ _ (structure_file_ok _ _ _ SF) TE) as ND.
    destruct (structure_lookup _ _ _ SF) as (d & ts & S & M & H). unfold read_diam. rewrite S. cbn [bind].
    unfold dict_get. rewrite (lookup_table d l ts (L "crater") tags rows H M TE). cbn [bind].
    rewrite (column_numbers tags rows _ ds ND D). cbn [bind]. rewrite table_has.
    destruct (in_dec (list_eq_dec ascii_dec) (L "reference_area") tags) as [_|I]; [|exfalso; apply I; destruct F as (i & E & _); eapply nth_error_In; eassumption].
    destruct F as (i & E & F). unfold sub, dict_get. rewrite (table_lookup tags rows i _ ND E). cbn [bind elements].
    rewrite mapM_map.
    assert (MM : mapM (fun x => do! x0 <- float_of (TStr (cell i x)); if Reqb x0 0 then Err ZeroDivision else Ok (1 / x0)) rows = Ok (map (fun x => 1 / x) refs)).
    { clear - F NZ. induction F as [|r x rs xs Dx F IH]; [reflexivity|]. inversion NZ; subst. cbn [mapM map].
      change (float_of (TStr (cell i r))) with (py_float (cell i r)). rewrite (py_float_decimal _ _ Dx). cbn [bind]. destruct (Reqb_spec x 0) as [Q|_]; [contradiction|]. cbn [bind]. rewrite IH by assumption. reflexivity. }
    rewrite MM. cbn [bind].
    pose proof (numbers_length _ _ _ _ D) as LD. assert (LF : length refs = length rows) by (eapply numbers_length; exists i; split; eassumption).
    destruct refs as [|f0 refs']; [destruct rows; [congruence|discriminate]|]. cbn [map].
    destruct (sort _ _) eqn:Q; [|reflexivity]. exfalso. revert Q. apply sort_nonempty, combine_nonempty; [cbn [length]; rewrite map_length; cbn in LF; lia|].
    destruct ds; [destruct rows; [congruence|discriminate]|discriminate].
  Qed.
End Diam.

(** ** Sorting by diameter *)
Lemma insert_map {A B} (g : A -> B) (leb : B -> B -> bool) x l :
  insert leb (g x) (map g l) = map g (insert (fun a b => leb (g a) (g b)) x l).
Proof. induction l as [|y l IH]; [reflexivity|]. cbn. destruct (leb (g x) (g y)); [reflexivity|]. cbn. now rewrite IH. Qed.
Lemma sort_map {A B} (g : A -> B) (leb : B -> B -> bool) l : sort leb (map g l) = map g (sort (fun a b => leb (g a) (g b)) l).
Proof. induction l as [|x l IH]; [reflexivity|]. cbn. now rewrite IH, insert_map. Qed.
Definition by_diam (p q : R * R) : bool := Rleb (fst p) (fst q).
Lemma insert_filter d x l : filter (fun p => Reqb (fst p) d) (insert by_diam x l) = filter (fun p => Reqb (fst p) d) (x :: l).
Proof.
  induction l as [|y l IH]; [reflexivity|]. cbn [insert]. destruct (by_diam x y) eqn:C; [reflexivity|].
  cbn [filter] in *. rewrite IH. unfold by_diam in C. destruct (Rleb_spec (fst x) (fst y)); [discriminate|].
  destruct (Reqb_spec (fst y) d), (Reqb_spec (fst x) d); try reflexivity. lra.
Qed.
Lemma sort_stable d l : filter (fun p => Reqb (fst p) d) (sort by_diam l) = filter (fun p => Reqb (fst p) d) l.
Proof. induction l as [|x l IH]; [reflexivity|]. cbn [sort]. rewrite insert_filter. cbn [filter]. now rewrite IH. Qed.
Lemma sort_ascending l : StronglySorted (fun p q : R * R => fst p <= fst q) (sort by_diam l).
Proof.
  assert (K : StronglySorted (fun a b => by_diam a b = true) (sort by_diam l)).
  { apply sort_sorted.
    - unfold by_diam. intros a b. destruct (Rleb_spec (fst a) (fst b)), (Rleb_spec (fst b) (fst a)); cbn; auto; lra.
    - unfold by_diam. intros a b c. destruct (Rleb_spec (fst a) (fst b)), (Rleb_spec (fst b) (fst c)), (Rleb_spec (fst a) (fst c)); auto; try discriminate; lra. }
  induction K; constructor; [assumption|]. eapply Forall_impl; [|exact H]. cbn. unfold by_diam. intros q. destruct (Rleb_spec (fst a) (fst q)); [auto|discriminate].
Qed.
Lemma take_positions {A} (l : list A) (P : list (nat * A)) : Forall (fun p => nth_error l (fst p) = Some (snd p)) P -> take_at l (map fst P) = Ok (map snd P).
Proof. induction 1 as [|p P H _ IH]; [reflexivity|]. unfold take_at in *. cbn. rewrite H. cbn [bind]. now rewrite IH. Qed.
Lemma numbered_nth {A} (l : list A) : forall n, Forall (fun p => nth_error l (fst p - n) = Some (snd p) /\ (n <= fst p)%nat) (combine (seq n (length l)) l).
Proof.
  induction l as [|x l IH]; intros n; cbn; constructor.
  - cbn. now rewrite Nat.sub_diag.
  - eapply Forall_impl; [|apply (IH (S n))]. intros [i y] [E Q]. cbn in *. split; [|lia]. replace (i - n)%nat with (S (i - S n)) by lia. exact E.
Qed.
Lemma numbered_first (ds : list R) : forall (frs : list R) (q : list nat), length frs = length ds ->
  combine q ds = map (fun p => (fst p, fst (snd p))) (combine q (combine ds frs)).
Proof.
  induction ds as [|d ds IH]; intros [|f frs] [|n q] E; cbn in *; try reflexivity; try discriminate. f_equal. apply IH. lia.
Qed.
Lemma numbered_pairs {A} (l : list A) : forall n, l = map snd (combine (seq n (length l)) l).
Proof. induction l as [|x l IH]; intros n; [reflexivity|]. cbn. f_equal. apply IH. Qed.
Lemma nth_combine (ds frs : list R) : forall i d f, nth_error (combine ds frs) i = Some (d, f) -> nth_error ds i = Some d /\ nth_error frs i = Some f.
Proof.
  revert frs. induction ds as [|a ds IH]; intros [|b frs] [|i] d f Q; cbn in *; try discriminate; [injection Q as -> ->; auto|eauto].
Qed.
Lemma take_sorted (ds frs : list R) : length frs = length ds ->
  exists d f, take_at ds (sorted_positions ds) = Ok d /\ take_at frs (sorted_positions ds) = Ok f /\ combine d f = sort by_diam (combine ds frs).
Proof.
  intros E. set (P := combine (seq 0 (length ds)) (combine ds frs)).
  set (S := sort (fun p q => by_diam (snd p) (snd q)) P).
  assert (P1 : combine (seq 0 (length ds)) ds = map (fun p => (fst p, fst (snd p))) P).
  { now apply numbered_first. }
  assert (SP : sorted_positions ds = map fst S).
  { unfold sorted_positions. rewrite P1, sort_map, map_map. reflexivity. }
  assert (PS : Permutation P S) by apply sort_perm.
  assert (N : Forall (fun p => nth_error (combine ds frs) (fst p) = Some (snd p)) S).
  { eapply Permutation_Forall; [exact PS|]. unfold P. pose proof (numbered_nth (combine ds frs) 0) as K.
    rewrite combine_length, E, Nat.min_id in K. eapply Forall_impl; [|exact K]. intros [i y] [Q _]. cbn in *. now rewrite Nat.sub_0_r in Q. }
  assert (SC : map snd S = sort by_diam (combine ds frs)).
  { assert (Q : combine ds frs = map snd P).
    { unfold P. replace (length ds) with (length (combine ds frs)) by (rewrite combine_length; lia). apply numbered_pairs. }
    rewrite Q at 1. rewrite sort_map. reflexivity. }
  exists (map (fun p => fst (snd p)) S), (map (fun p => snd (snd p)) S). rewrite SP. repeat split.
  - replace (map fst S) with (map fst (map (fun p : nat * (R * R) => (fst p, fst (snd p))) S)) by (rewrite map_map; reflexivity).
    rewrite take_positions; [now rewrite map_map|]. rewrite Forall_map. eapply Forall_impl; [|exact N]. intros [i [d f]] Q. cbn in *.
    now apply nth_combine in Q.
  - replace (map fst S) with (map fst (map (fun p : nat * (R * R) => (fst p, snd (snd p))) S)) by (rewrite map_map; reflexivity).
    rewrite take_positions; [now rewrite map_map|]. rewrite Forall_map. eapply Forall_impl; [|exact N]. intros [i [d f]] Q. cbn in *.
    now apply nth_combine in Q.
  - rewrite <- SC. clear. induction S as [|[i [d f]] S IH]; [reflexivity|]. cbn. now rewrite IH.
Qed.
(** ** Areas in .scc files *)
Lemma leading_text ws n x rest : white ws -> numeral n x -> ~ In "-"%char n ->
  match rest with c :: _ => is_digit c = false /\ c <> "."%char | [] => True end -> leading_number (TStr (ws ++ n ++ rest)) = Ok x.
Proof.
  intros W N NM R. unfold leading_number. 
  assert (F : Forall (fun c => is_digit c || aeqb c (ch ".") = true) n /\ n <> []).
  { destruct N as (neg & ip & fp & NE & IP & FP & -> & _). destruct neg; [exfalso; apply NM; now left|]. cbn [app]. split.
    - apply Forall_app. split; [eapply Forall_impl; [|exact IP]; intros c ->; reflexivity|].
      destruct fp; [constructor|]. apply Forall_app. split; [repeat constructor|]. eapply Forall_impl; [|exact FP]. intros c' ->. reflexivity.
    - destruct ip; [congruence|discriminate]. }
  destruct F as [F NE].
  rewrite span_all; [|exact W|].
  2:{ destruct n as [|c n]; [congruence|]. inversion F; subst. cbn. apply orb_prop in H1. destruct H1 as [H1|H1]; [now apply digit_facts|].
      apply (reflect_iff _ _ (aeqb_spec c (ch "."))) in H1. subst. reflexivity. }
  rewrite span_all; [|exact F|].
  2:{ destruct rest as [|c rest]; [exact I|]. destruct R as [R1 R2]. rewrite R1. cbn [orb]. destruct (aeqb_spec c (ch ".")); [contradiction|reflexivity]. }
  cbn [fst]. apply py_float_decimal. destruct (numeral_decimal n x N) as (w1 & sg & neg & ip & dot & fp & ex & e & w2 & W1 & Q1 & Q2 & Q3 & Q4 & Q5 & Q6 & Q7 & -> & E).
  exists (ws ++ w1), sg, neg, ip, dot, fp, ex, e, w2. split; [now apply Forall_app|]. rewrite <- app_assoc. tauto.
Qed.
Section Scc.
  Variables (fs : files) (name : str) (l : list entry) (tags : list str) (rows : list (list token * str)).
  Hypothesis SF : structure_file fs name l.
  Hypothesis TE : table_entry l (L "crater") tags rows.
  Definition area_text (w : str) (a : R) : Prop :=
    exists ws n rest, white ws /\ numeral n a /\ ~ In "-"%char n /\ match rest with c :: _ => is_digit c = false /\ c <> "."%char | [] => True end /\
      w = ws ++ n ++ rest.
  Theorem read_scc_ok ds frs w a :
    numbers_in tags rows (L "diam") ds -> fractions tags rows ds frs ->
    text_entry l (L "Total_area") w -> area_text w a ->
    Forall (fun e => key_of e <> L "Perimeter" /\ key_of e <> L "Total_perimeter") l ->
    read_scc fs name = Ok (mkCount (crater_list (sort by_diam (combine ds frs)) a) None false).
  Proof.
    intros D F TX (ws & n & rest & W & N & NM & R & ->) NP. pose proof (table_nodup _ _ _ _ (structure_file_ok _ _ _ SF) TE) as ND.
    destruct (structure_lookup _ _ _ SF) as (d & ts & S & M & H). unfold read_scc. rewrite S. cbn [bind].
    unfold dict_get. rewrite (lookup_table d l ts (L "crater") tags rows H M TE). cbn [bind].
    rewrite (column_numbers tags rows _ ds ND D). cbn [bind]. rewrite (fraction_column fs name l tags rows SF TE ds frs F). cbn [bind].
    rewrite (lookup_text d l ts (L "Total_area") _ H M TX). cbn [bind]. rewrite (leading_text ws n a rest W N NM R). cbn [bind].
    rewrite (lookup_absent d l ts (L "Perimeter") H) by (eapply Forall_impl; [|exact NP]; intros e [K1 K2]; assumption). cbn [bind].
    rewrite (lookup_absent d l ts (L "Total_perimeter") H) by (eapply Forall_impl; [|exact NP]; intros e [K1 K2]; assumption). cbn [bind].
    pose proof (numbers_length _ _ _ _ D) as LD. pose proof (fractions_length tags rows ds frs LD F) as LF.
    destruct (take_sorted ds frs ltac:(congruence)) as (d' & f' & -> & -> & E). cbn [bind]. now rewrite E.
  Qed.
End Scc.
