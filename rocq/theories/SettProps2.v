(** C106: a plot and its count. *)
From Coq Require Import String Ascii List ZArith Reals Bool Lia Lra.
From Verif Require Import Base StrModel StrSpec StrProofs StrProofs2 TsModel IoModel SccModel CliModel CliSpec CliProofs2 NumModel SetModel MainModel MainProofs MainProps StripProps SettModel SettSpec SettProps.
Import ListNotations.
Local Open Scope R_scope.

Lemma convert_plot_known k v : In k (map fst plot_defaults) -> forall w, convert_plot k v = Ok w <-> kept_by_plot k v w.
Proof.
  intros I w. unfold convert_plot, kept_by_plot. cbv zeta. set (W := map L _). set (P := map L ["cratercount"; "source"; "name"; "range"; "type"; "colour"; "binning"]%string).
  assert (C : (k = L "offset_age" /\ ~ In k W /\ ~ In k P /\ substring_of k (L "offset_age") = true) \/ (In k W /\ k <> L "offset_age" /\ ~ In k P) \/ (In k P /\ ~ In k W /\ k <> L "offset_age" /\ substring_of k (L "offset_age") = false)).
  { assert (NI : forall x l, existsb (seqb x) l = false -> ~ In x l) by (intros x l E J; apply existsb_iff in J; congruence).
    unfold plot_defaults in I. cbn [map fst] in I.
    repeat (destruct I as [<-|I]; [
      first [ left; split; [reflexivity|]; split; [apply NI; reflexivity|]; split; [apply NI; reflexivity|reflexivity]
            | right; left; split; [apply existsb_iff; reflexivity|]; split; [discriminate|]; apply NI; reflexivity
            | right; right; split; [apply existsb_iff; reflexivity|]; split; [apply NI; reflexivity|]; split; [discriminate|reflexivity] ] | ]).
    contradiction. }
  destruct C as [(K & NW & NP & SB)|[(IW & NK & NP)|(IP & NW & NK & SB)]].
  - rewrite (existsb_no _ _ NW), SB, numbers_iff. split; [now left|]. intros [(_ & H)|[(H & _)|(H & _)]]; [exact H|contradiction|contradiction].
  - rewrite (proj2 (existsb_iff _ _) IW). split.
    + destruct (to_int v) as [z|] eqn:E; cbn; [|discriminate]. intros H. injection H as <-. right. left. split; [exact IW|]. exists z. split; [now apply to_int_iff|reflexivity].
    + intros [(H & _)|[(_ & z & Z1 & ->)|(H & _)]]; try contradiction. apply to_int_iff in Z1. now rewrite Z1.
  - rewrite (existsb_no _ _ NW), SB. split; [intros H; right; right; split; [exact IP|congruence]|]. intros [(H & _)|[(H & _)|(_ & ->)]]; [contradiction|contradiction|reflexivity].
Qed.
(** the settings given, all known and with values that can be kept *)
Definition proper (ds : list (list (str * value))) : Prop := forall k v, last_given (concat ds) k = Some v -> In k (map fst plot_defaults) /\ exists w, kept_by_plot k v w.
(** the value given for a setting, or its default *)
Definition given (ds : list (list (str * value))) (k : str) : option value := last_given (plot_defaults ++ concat ds) k.

Lemma settings_stored ds : proper ds -> exists a, set_all convert_plot no_attributes (merge (plot_defaults :: ds)) = (a, None) /\
  forall k, match given ds k with Some v => exists w, kept_by_plot k v w /\ a k = Some w | None => a k = None end.
Proof.
  intros PR. assert (AL : forall k v, given ds k = Some v -> In k (map fst plot_defaults) /\ exists w, kept_by_plot k v w).
  { intros k v. unfold given. rewrite last_given_app. specialize (PR k). destruct (last_given (concat ds) k) as [u|]; [intros G; injection G as ->; now apply PR|]. intros G. apply given_in in G. split; [apply (in_map fst) in G; exact G|].
    assert (I : In k (map fst plot_defaults)) by (apply (in_map fst) in G; exact G). assert (Q : exists w, convert_plot k v = Ok w). { unfold plot_defaults in G. repeat (destruct G as [G|G]; [injection G as <- <-; eexists; reflexivity|]). contradiction. }
    destruct Q as (w & W). exists w. now apply convert_plot_known. }
  destruct (set_all_ok convert_plot (merge (plot_defaults :: ds)) no_attributes (merge_nodup _)) as (a & E & P).
  { intros k v I. apply in_given in I; [|apply merge_nodup]. rewrite merge_given in I. destruct (AL k v I) as (J & w & W). exists w. now apply convert_plot_known. }
  exists a. split; [exact E|]. intros k. specialize (P k). rewrite merge_given in P. cbn [concat] in P. fold (given ds k) in P. destruct (given ds k) as [v|] eqn:G; [|exact P]. destruct P as (w & W & A). exists w. split; [|exact A]. apply convert_plot_known; [now apply (AL k v)|exact W].
Qed.
Lemma kept_plain k v w : In k (map L ["cratercount"; "source"; "name"; "range"; "type"; "colour"; "binning"]%string) -> kept_by_plot k v w -> w = v.
Proof.
  intros I H. assert (K : In k (map fst plot_defaults)). { cbn [map In] in I. repeat (destruct I as [<-|I]; [apply (existsb_iff _ (map fst plot_defaults)); reflexivity|]). contradiction. }
  apply (convert_plot_known k v K) in H. cbn [map In] in I. repeat (destruct I as [<-|I]; [cbn in H; congruence|]). contradiction.
Qed.
Lemma get_same a k v : set_attribute a k v k = Some v.
Proof. unfold set_attribute. now destruct (seqb_spec k k). Qed.
Lemma get_other a k v j : j <> k -> set_attribute a k v j = a j.
Proof. intros N. unfold set_attribute. now destruct (seqb_spec j k). Qed.

Theorem C106_plot :
  forall load file_of decode ds dir n tag ext c r b sv z r',
    proper ds -> directory dir -> plain_name (n ++ tag) -> short_word ext -> crater_free n -> tag = [] \/ tag = L "_CRATER" -> truthy c = true ->
    let path := dir ++ (n ++ tag) ++ "."%char :: ext in
    (given ds (L "source") = Some (VStr path) /\ given ds (L "cratercount") = Some VNone /\ load (VStr path) = Ok c) \/
    (given ds (L "source") = Some (VStr path) /\ given ds (L "cratercount") = Some c) \/
    (given ds (L "source") = Some (VStr []) /\ given ds (L "cratercount") = Some c /\ file_of c = Ok (VStr path)) ->
    given ds (L "range") = Some r -> given ds (L "binning") = Some b -> given ds (L "snap") = Some sv -> as_whole sv z -> decode c r b (VInt z) = Ok r' ->
    exists a name, new_plot load file_of decode ds = Ok a /\ a (L "cratercount") = Some c /\ a (L "source") = Some (VStr path) /\ a (L "range") = Some r' /\
      given ds (L "name") = Some name /\ a (L "name") = Some (if truthy name then name else VStr n) /\
      forall k v, ~ In k (map L ["cratercount"; "source"; "range"; "name"]%string) -> given ds k = Some v -> exists w, kept_by_plot k v w /\ a k = Some w.
Proof.
  intros load file_of decode ds dir n tag ext c r b sv z r' PR D PN SW CF TG TC path OR GR GB GS AW DE.
  destruct (settings_stored ds PR) as (a & E & P).
  assert (AT : forall k v, In k (map L ["cratercount"; "source"; "name"; "range"; "type"; "colour"; "binning"]%string) -> given ds k = Some v -> a k = Some v).
  { intros k v I G. specialize (P k). rewrite G in P. destruct P as (w & W & A). apply kept_plain in W; [congruence|exact I]. }
  assert (NM : exists name, given ds (L "name") = Some name).
  { unfold given. rewrite last_given_app. change (last_given plot_defaults (L "name")) with (Some (VStr [])). destruct (last_given (concat ds) (L "name")) as [v|]; [now exists v|]. now exists (VStr []). }
  destruct NM as (name & NM). assert (AN : a (L "name") = Some name) by (apply AT; [cbn; tauto|exact NM]).
  assert (AR : a (L "range") = Some r) by (apply AT; [cbn; tauto|exact GR]). assert (AB : a (L "binning") = Some b) by (apply AT; [cbn; tauto|exact GB]).
  assert (AS : a (L "snap") = Some (VInt z)).
  { pose proof (P (L "snap")) as Q. rewrite GS in Q. destruct Q as (w & W & A). apply (convert_plot_known (L "snap")) in W; [|apply existsb_iff; reflexivity]. unfold convert_plot in W. change (existsb _ _) with true in W. cbn iota in W. apply to_int_iff in AW. rewrite AW in W. cbn [bind] in W. congruence. }
  destruct (source_pieces dir (n ++ tag) ext D PN SW) as (FN & _). fold path in FN.
  assert (RC : remove_crater 0 (n ++ tag) = n) by (destruct TG as [->| ->]; [rewrite app_nil_r; now apply remove_crater_id|now apply remove_crater_tag_end]).
  assert (PT : truthy (VStr path) = true). { unfold path. destruct dir; cbn; [destruct (n ++ tag); reflexivity|reflexivity]. }
  assert (CP : exists a2, complete_plot load file_of a = Ok (if truthy name then a2 else set_attribute a2 (L "name") (VStr n)) /\ a2 (L "cratercount") = Some c /\ a2 (L "source") = Some (VStr path) /\ forall k, k <> L "cratercount" -> k <> L "source" -> a2 k = a k).
  { destruct OR as [(O1 & O2 & O3)|[(O1 & O2)|(O1 & O2 & O3)]]; (assert (A1 := AT (L "source") _ ltac:(cbn; tauto) O1)); (assert (A2 := AT (L "cratercount") _ ltac:(cbn; tauto) O2)); unfold complete_plot, attribute; rewrite A1, A2; cbn [bind].
    - change (truthy VNone) with false. rewrite PT. cbn [negb andb]. rewrite O3. cbn [bind]. rewrite get_same. cbn [bind]. rewrite get_other, A1 by discriminate. cbn [bind]. rewrite get_other, AN by discriminate. cbn [bind]. rewrite PT. exists (set_attribute a (L "cratercount") c).
      split; [destruct (truthy name); cbn [negb andb]; [reflexivity|]; rewrite FN; cbn [bind]; now rewrite RC|]. split; [apply get_same|]. split; [rewrite get_other by discriminate; exact A1|]. intros. now apply get_other.
    - rewrite TC, PT. cbn [negb andb bind]. rewrite A2. cbn [bind]. rewrite A1. cbn [bind]. rewrite AN. cbn [bind]. rewrite PT. exists a. split; [destruct (truthy name); cbn [negb andb]; [reflexivity|]; rewrite FN; cbn [bind]; now rewrite RC|]. tauto.
    - rewrite TC. change (truthy (VStr [])) with false. cbn [negb andb bind]. rewrite A2. cbn [bind]. rewrite TC, O3. cbn [bind]. rewrite get_same. cbn [bind]. rewrite get_other, AN by discriminate. cbn [bind]. rewrite PT. exists (set_attribute a (L "source") (VStr path)).
      split; [destruct (truthy name); cbn [negb andb]; [reflexivity|]; rewrite FN; cbn [bind]; now rewrite RC|]. split; [rewrite get_other by discriminate; exact A2|]. split; [apply get_same|]. intros. now apply get_other. }
  destruct CP as (a2 & CP & C2 & S2 & O2). set (a3 := if truthy name then a2 else set_attribute a2 (L "name") (VStr n)) in *.
  assert (O3 : forall k, k <> L "name" -> a3 k = a2 k) by (intros k N; unfold a3; destruct (truthy name); [reflexivity|now apply get_other]).
  exists (set_attribute a3 (L "range") r'), name. split.
  { unfold new_plot, update_plot. rewrite E, CP. cbn [bind]. unfold attribute. rewrite (O3 (L "cratercount")), C2 by discriminate. cbn [bind]. rewrite TC. rewrite (O3 (L "range")), (O2 (L "range")), AR by discriminate. cbn [bind].
    rewrite (O3 (L "binning")), (O2 (L "binning")), AB by discriminate. cbn [bind]. rewrite (O3 (L "snap")), (O2 (L "snap")), AS by discriminate. cbn [bind]. rewrite DE. reflexivity. }
  split; [rewrite get_other, O3 by discriminate; exact C2|]. split; [rewrite get_other, O3 by discriminate; exact S2|]. split; [apply get_same|]. split; [exact NM|]. split.
  { rewrite get_other by discriminate. unfold a3. destruct (truthy name); [rewrite O2 by discriminate; exact AN|apply get_same]. }
  intros k v NI G. pose proof (P k) as Q. rewrite G in Q. destruct Q as (w & W & A). exists w. split; [exact W|].
  assert (N4 : k <> L "cratercount" /\ k <> L "source" /\ k <> L "range" /\ k <> L "name") by (repeat split; intros ->; apply NI; cbn; tauto). destruct N4 as (? & ? & ? & ?).
  rewrite get_other, O3, O2 by assumption. exact A.
Qed.
Print Assumptions C106_plot.
(** without a count or the file of one there is no plot *)
Theorem C106_needs_count : forall load file_of decode ds c s, proper ds -> given ds (L "cratercount") = Some c -> given ds (L "source") = Some s -> truthy c = false -> truthy s = false ->
  new_plot load file_of decode ds = Err AttributeError.
Proof.
  intros load file_of decode ds c s PR GC GS TC TS. destruct (settings_stored ds PR) as (a & E & P).
  assert (AT : forall k v, In k (map L ["cratercount"; "source"; "name"; "range"; "type"; "colour"; "binning"]%string) -> given ds k = Some v -> a k = Some v).
  { intros k v I G. specialize (P k). rewrite G in P. destruct P as (w & W & A). apply kept_plain in W; [congruence|exact I]. }
  assert (NM : exists name, a (L "name") = Some name).
  { destruct (given ds (L "name")) as [v|] eqn:G; [exists v; apply AT; [cbn; tauto|exact G]|]. exfalso. unfold given in G. rewrite last_given_app in G. change (last_given plot_defaults (L "name")) with (Some (VStr [])) in G. destruct (last_given (concat ds) (L "name")); discriminate. }
  destruct NM as (name & NM). apply AT in GC; [|cbn; tauto]. apply AT in GS; [|cbn; tauto].
  unfold new_plot, update_plot. rewrite E. unfold complete_plot, attribute. rewrite GC, GS. cbn [bind]. rewrite TC, TS. cbn [negb andb bind]. rewrite GC. cbn [bind]. rewrite TC. cbn [andb bind]. rewrite GS. cbn [bind]. rewrite NM. cbn [bind]. rewrite TS, andb_false_r. cbn [bind]. rewrite GC. cbn [bind]. now rewrite TC.
Qed.
Print Assumptions C106_needs_count.
(** A plot that is given another source keeps the count of the first one, and its name *)
Theorem C106_later_source_refuted : forall load file_of a c n g, a (L "cratercount") = Some c -> truthy c = true -> a (L "name") = Some n -> truthy n = true -> g <> [] ->
  exists a', update_plot load file_of a [[(L "source", VStr g)]] = Ok a' /\ a' (L "source") = Some (VStr g) /\ a' (L "cratercount") = Some c /\ a' (L "name") = Some n.
Proof.
  intros load file_of a c n g AC TC AN TN G. exists (set_attribute a (L "source") (VStr g)). assert (TG : truthy (VStr g) = true) by (destruct g; [contradiction|reflexivity]).
  split; [|split; [apply get_same|split; rewrite get_other by discriminate; assumption]].
  unfold update_plot. change (merge _) with [(L "source", VStr g)]. cbn [set_all]. change (convert_plot (L "source") (VStr g)) with (Ok (VStr g)). cbn iota. unfold complete_plot, attribute. rewrite get_same. rewrite get_other, AC by discriminate. cbn [bind].
  rewrite TC. cbn [negb andb bind]. rewrite get_other, AC by discriminate. cbn [bind]. rewrite TG. cbn [negb andb bind]. rewrite get_same. cbn [bind]. rewrite get_other, AN by discriminate. cbn [bind]. now rewrite TN.
Qed.
Print Assumptions C106_later_source_refuted.
(** A range given later is kept as it was given, and not decoded as at the beginning *)
Theorem C106_later_range_refuted : forall load file_of a c s n r, a (L "cratercount") = Some c -> truthy c = true -> a (L "source") = Some s -> truthy s = true -> a (L "name") = Some n -> truthy n = true ->
  exists a', update_plot load file_of a [[(L "range", r)]] = Ok a' /\ a' (L "range") = Some r.
Proof.
  intros load file_of a c s n r AC TC AS TS AN TN. exists (set_attribute a (L "range") r). split; [|apply get_same].
  unfold update_plot. change (merge _) with [(L "range", r)]. cbn [set_all]. change (convert_plot (L "range") r) with (Ok r). cbn iota. unfold complete_plot, attribute. rewrite get_other, AC by discriminate. cbn [bind]. rewrite get_other, AS by discriminate. cbn [bind].
  rewrite TC. cbn [negb andb bind]. rewrite get_other, AC by discriminate. cbn [bind]. rewrite TS. cbn [negb andb bind]. rewrite get_other, AS by discriminate. cbn [bind]. rewrite get_other, AN by discriminate. cbn [bind]. now rewrite TN.
Qed.
Print Assumptions C106_later_range_refuted.
Example C106_hypotheses_met : let ds := [[(L "source", VStr (L "data/Mare_CRATER.shp")); (L "snap", VStr (L "0"))]; [(L "type", VStr (L "c-fit"))]] in
  proper ds /\ directory (L "data/") /\ plain_name (L "Mare" ++ L "_CRATER") /\ short_word (L "shp") /\ crater_free (L "Mare") /\ given ds (L "source") = Some (VStr (L "data/" ++ (L "Mare" ++ L "_CRATER") ++ "."%char :: L "shp")) /\
  given ds (L "cratercount") = Some VNone /\ given ds (L "range") <> None /\ given ds (L "binning") <> None /\ given ds (L "snap") = Some (VStr (L "0")) /\ as_whole (VStr (L "0")) 0.
Proof.
  split. { intros k v G. apply given_in in G. cbn in G. assert (K : In k (map fst plot_defaults)) by (destruct G as [G|[G|[G|[]]]]; injection G as <- <-; apply existsb_iff; reflexivity). split; [exact K|].
    destruct G as [G|[G|[G|[]]]]; injection G as <- <-; eexists; apply convert_plot_known; try reflexivity; apply existsb_iff; reflexivity. }
  split; [split; [intros Q; repeat (destruct Q as [Q|Q]; [discriminate Q|]); exact Q|right; exists (L "data"), "/"%char; split; [reflexivity|now left]]|]. split; [repeat (constructor; [left; reflexivity|]); constructor|]. split; [split; [cbn; lia|]; repeat constructor|].
  split; [intros u v H; repeat (destruct u as [|? u]; [discriminate H|]; injection H as _ H); destruct u; discriminate|].
  split; [reflexivity|]. split; [reflexivity|]. split; [discriminate|]. split; [discriminate|]. split; [reflexivity|]. now constructor.
Qed.
