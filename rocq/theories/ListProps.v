(** C127: the lists of names that the program prints. *)
From Coq Require Import String Ascii List ZArith Reals Lia Bool.
From Verif Require Import Base NumModel StrModel StrSpec StrProofs TsModel TsSpec TsProofs TsProofs5 TsProps IoModel IoSpec IoProofs CliModel CliSpec CliProps2 EpModel EpProps FlProps LoadModel LoadSpec LoadProofs LoadProps ListModel.
Import ListNotations.

(** the definitions of a kind in l, in order, have the names ns *)
Definition names_in (l : list entry) (kind : str) (ns : list str) : Prop :=
  Forall2 (fun e n => exists fields, named_structure e n fields) (filter (fun e => if list_eq_dec ascii_dec (key_of e) kind then true else false) l) ns.
(** a heading and the names below it, one on each line *)
Definition section_text (bright : str -> str) (title : str) (ns : list str) : str := bright (nl :: title) ++ [nl] ++ join [nl] ns ++ [nl].

Lemma names_shown l kind : forall ts ns, Forall entry_ok l -> Forall2 means l ts -> names_in l kind ns -> mapM name_shown (values_of kind l ts) = Ok ns.
Proof.
  induction l as [|e l IH]; intros ts ns OK F N; inversion F as [|? t ? ts' M F']; subst.
  - inversion N; subst. reflexivity.
  - inversion OK as [|? ? Oe Ol]; subst. rewrite values_cons. unfold names_in in N. cbn [filter] in N.
    destruct (list_eq_dec ascii_dec (key_of e) kind) as [K|K].
    + inversion N as [|? n ? ns' (fields & NS) N']; subst. cbn [app mapM].
      destruct (structure_means e n fields t Oe M NS) as (d & -> & _ & (d' & Ed & Ln)). injection Ed as <-.
      unfold name_shown at 1. unfold sub, dict_get. rewrite Ln. cbn [bind]. rewrite (IH ts' ns' Ol F' N'). reflexivity.
    + exact (IH ts' ns Ol F' N).
Qed.
Lemma kind_listed f l kind ns : read_from f l -> several l kind -> names_in l kind ns -> kind_names f kind = Ok ns.
Proof.
  intros (OK & ts & M & H) S N. destruct (values_several l kind ts M S) as (v1 & v2 & vs & E). unfold kind_names, dict_get.
  rewrite (holds_lookup f l ts _ H), E. cbn [collected bind elements]. rewrite <- E. now apply names_shown.
Qed.

(** ** C127 *)
(** the list of functions shows, under three headings, the names of all chronology systems, equilibrium functions and epoch systems that are defined, built in
    or by the user, once for each definition and in the order of the definitions *)
Theorem C127_listing :
  forall bright f l ns1 ns2 ns3, read_from f l ->
    several l (L "chronology_system") -> several l (L "equilibrium") -> several l (L "epochs") ->
    names_in l (L "chronology_system") ns1 -> names_in l (L "equilibrium") ns2 -> names_in l (L "epochs") ns3 ->
    print_functions bright f =
      (section_text bright (L "Chronology systems:") ns1 ++ section_text bright (L "Equilibrium functions:") ns2 ++ section_text bright (L "Epoch systems:") ns3, None).
Proof.
  intros bright f l ns1 ns2 ns3 RF S1 S2 S3 N1 N2 N3. unfold print_functions, listed_kinds. cbn [print_kinds].
  rewrite (kind_listed f l _ ns1 RF S1 N1), (kind_listed f l _ ns2 RF S2 N2), (kind_listed f l _ ns3 RF S3 N3).
  f_equal. unfold section_text, print_line. rewrite app_nil_r. rewrite <- !app_assoc. reflexivity.
Qed.
(** a name is listed exactly if its definition is found; one that is not listed is refused, a chronology system by ending the program *)
Lemma names_defined l kind : forall ns n, names_in l kind ns -> In n ns -> exists fields, defines l kind n fields.
Proof.
  induction l as [|e l IH]; intros ns n N I; unfold names_in in N; cbn [filter] in N.
  - inversion N; subst. destruct I.
  - destruct (list_eq_dec ascii_dec (key_of e) kind) as [K|K].
    + inversion N as [|? m ? ns' (fields & NS) N']; subst. destruct (list_eq_dec ascii_dec m n) as [-> |D].
      * exists fields. exists [], e, l. repeat split; auto; [apply NS|apply NS|intros e' []].
      * destruct I as [E|I]; [contradiction|]. destruct (IH ns' n N' I) as (fields' & b & e0 & a & -> & K0 & NS0 & B). exists fields', (e :: b), e0, a. split; [reflexivity|]. split; [exact K0|]. split; [exact NS0|].
        intros e' [<- |I'] K'; [exists m, fields; auto|now apply B].
    + destruct (IH ns n N I) as (fields' & b & e0 & a & -> & K0 & NS0 & B). exists fields', (e :: b), e0, a. split; [reflexivity|]. split; [exact K0|]. split; [exact NS0|].
      intros e' [<- |I'] K'; [contradiction|now apply B].
Qed.
Lemma names_undefined l kind ns n : names_in l kind ns -> ~ In n ns -> undefined l kind n.
Proof.
  intros N NI e I K. assert (J : In e (filter (fun e => if list_eq_dec ascii_dec (key_of e) kind then true else false) l)).
  { apply filter_In. split; [exact I|]. destruct (list_eq_dec ascii_dec (key_of e) kind); [reflexivity|contradiction]. }
  clear I. unfold names_in in N. induction N as [|e0 m l0 ns0 (fields & NS) N IH]; [destruct J|]. destruct J as [-> |J].
  - exists m, fields. split; [exact NS|]. intros ->. apply NI. now left.
  - apply IH; [intros Q; apply NI; now right|exact J].
Qed.
Lemma listed_key kind : In kind [L "chronology_system"; L "equilibrium"; L "epochs"] -> TsSpec.key_ok kind.
Proof. intros [<- |[<- |[<- |[]]]]; split; try discriminate; repeat (constructor; [left; reflexivity|]); constructor. Qed.
Theorem C127_listed_names_are_known :
  forall fs f l kind ns n, In kind [L "chronology_system"; L "equilibrium"; L "epochs"] -> read_from f l -> several l kind -> names_in l kind ns ->
    (In n ns <-> exists d, definition fs kind (SDict f) n = Ok d) /\
    (~ In n ns -> definition fs kind (SDict f) n = Err ValueError) /\
    (kind = L "chronology_system" -> ~ In n ns -> make_system f n = Err SysExit).
Proof.
  intros fs f l kind ns n IK RF S N.
  assert (Y : In n ns -> exists d, definition fs kind (SDict f) n = Ok d).
  { intros I. destruct (names_defined l kind ns n N I) as (fields & D). destruct (definition_found fs kind (SDict f) l n fields (listed_key kind IK) (given_dict fs kind f l RF S) D) as (d & E & _). now exists (TDict d). }
  assert (Z : ~ In n ns -> definition fs kind (SDict f) n = Err ValueError).
  { intros NI. pose proof (names_undefined l kind ns n N NI) as U. destruct RF as (OK & ts & M & H). destruct (values_several l kind ts M S) as (v1 & v2 & vs & E).
    unfold definition, load_kind. cbn [bind]. unfold dict_get. rewrite (holds_lookup f l ts _ H). pose proof (values_named l kind n ts OK M U) as V. rewrite E in *. cbn [collected bind elements]. exact (find_none n _ V). }
  split; [split; [exact Y|]|split; [exact Z|]].
  - intros (d & E). destruct (in_dec (list_eq_dec ascii_dec) n ns) as [I|NI]; [exact I|]. rewrite (Z NI) in E. discriminate.
  - intros -> NI. apply (C96_unknown_system f l n RF S). now apply (names_undefined l _ ns).
Qed.
(** with a single definition of a kind the list stops after its heading, with a TypeError *)
Theorem C127_single_definition_refuted :
  forall bright f l ns1 e n fields l1 l2, read_from f l -> several l (L "chronology_system") -> names_in l (L "chronology_system") ns1 ->
    l = l1 ++ e :: l2 -> key_of e = L "equilibrium" -> named_structure e n fields -> (forall e', In e' (l1 ++ l2) -> key_of e' <> L "equilibrium") ->
    print_functions bright f = (section_text bright (L "Chronology systems:") ns1 ++ bright (nl :: L "Equilibrium functions:") ++ [nl], Some TypeError).
Proof.
  intros bright f l ns1 e n fields l1 l2 RF S1 N1 E K NS U. unfold print_functions, listed_kinds. cbn [print_kinds]. rewrite (kind_listed f l _ ns1 RF S1 N1).
  assert (Q : kind_names f (L "equilibrium") = Err TypeError).
  { destruct RF as (OK & ts & M & H). subst l. unfold kind_names, dict_get. rewrite (holds_lookup f _ ts _ H).
    destruct (values_app (L "equilibrium") l1 (e :: l2) ts M) as (ts1 & ts2 & F1 & F2 & ->). inversion F2 as [|? t ? ts3 Me F3]; subst.
    assert (W : forall l ts, Forall2 means l ts -> (forall e', In e' l -> key_of e' <> L "equilibrium") -> values_of (L "equilibrium") l ts = []).
    { clear. induction l as [|e l IH]; intros ts F U; inversion F as [|? t ? ts' M F']; subst; [reflexivity|]. rewrite values_cons.
      destruct (list_eq_dec ascii_dec (key_of e) (L "equilibrium")) as [Q|_]; [exfalso; exact (U e (or_introl eq_refl) Q)|]. apply IH; [exact F'|intros e' I; apply U; now right]. }
    rewrite (W l1 ts1 F1) by (intros e' I; apply U, in_or_app; now left). rewrite values_cons, (W l2 ts3 F3) by (intros e' I; apply U, in_or_app; now right).
    destruct (list_eq_dec ascii_dec (key_of e) (L "equilibrium")) as [_|Q]; [|contradiction].
    apply Forall_app in OK as (_ & OK). inversion OK as [|? ? Oe _]; subst. destruct (structure_means e n fields t Oe Me NS) as (d & -> & _ & (d' & Ed & Ln)). injection Ed as <-.
    cbn [app collected bind elements]. destruct d as [|(k, v) d]; [discriminate Ln|]. reflexivity. }
  rewrite Q. f_equal. unfold section_text, print_line. rewrite <- !app_assoc. reflexivity.
Qed.
(** the list of symbols and colours: the symbols with their codes, the colours by name; what stands at place i, name or code, selects symbol or colour i *)
Theorem C127_symbols_and_colours :
  forall bright path, exists symbols colours,
    print_symbols bright = bright (nl :: L "Plot symbols:") ++ [nl] ++ join (L ", ") (map (fun p => fst p ++ L " (" ++ snd p ++ L ")") symbols) ++ [nl] ++
                           bright (nl :: L "Colours:") ++ [nl] ++ join (L ", ") colours ++ [nl] /\
    length symbols = 15 /\ length colours = 32 /\
    (forall i name code, nth_error symbols i = Some (name, code) ->
       plot_value path (L "psym") name = Ok (PInt (Z.of_nat i)) /\ plot_value path (L "psym") code = Ok (PInt (Z.of_nat i))) /\
    (forall i name, nth_error colours i = Some name -> plot_value path (L "colour") name = Ok (PInt (Z.of_nat i))).
Proof.
  intros bright path. exists (combine marker_names marker_codes), palette_names. split; [|split; [reflexivity|split; [reflexivity|]]].
  - unfold print_symbols, print_line. rewrite <- !app_assoc. reflexivity.
  - pose proof (C65_values path) as (_ & _ & _ & C & S & _). split; [|exact C].
    intros i name code E. assert (Q : forall (A B : Type) (l : list A) (m : list B) i a b, nth_error (combine l m) i = Some (a, b) -> nth_error l i = Some a /\ nth_error m i = Some b).
    { clear. induction l as [|x l IH]; intros [|y m] [|i] a b E; cbn in *; try discriminate; [injection E as <- <-; auto|now apply IH]. }
    apply Q in E. destruct E as (E1 & E2). destruct (S i code name E2 E1). auto.
Qed.
(** a text printed with highlights: every line is printed, in order; one that begins with a star without it and bright, every other as it is *)
Theorem C127_highlights :
  forall bright ls, exists shown, print_highlighted bright ls = concat (map (fun s => s ++ [nl]) shown) /\
    Forall2 (fun l s => (forall r, l = ch "*" :: r -> s = bright r) /\ ((forall r, l <> ch "*" :: r) -> s = l)) ls shown.
Proof.
  intros bright ls. exists (map (fun l => match l with c :: r => if aeqb c (ch "*") then bright r else l | [] => l end) ls). split.
  - unfold print_highlighted. rewrite map_map. reflexivity.
  - induction ls as [|l ls IH]; [constructor|]. cbn [map]. constructor; [|exact IH]. destruct l as [|c r]; [split; [discriminate|reflexivity]|].
    destruct (aeqb_spec c (ch "*")) as [-> |D]; split; [intros r' Q; now injection Q as <-|intros Q; exfalso; now apply (Q r)|intros r' Q; injection Q as Q _; contradiction|reflexivity].
Qed.

(** ** The hypotheses can be met: two definitions of each kind, one with the name of an earlier one; and one equilibrium function only *)
Definition named_entry (kind name : str) : entry := structure_entry kind [text_field (L "name") name].
Definition two_of_each : list entry :=
  [named_entry (L "epochs") (L "Moon"); named_entry (L "chronology_system") (L "B"); named_entry (L "equilibrium") (L "Hartmann"); named_entry (L "chronology_system") (L "A");
   named_entry (L "equilibrium") (L "Trask"); named_entry (L "epochs") (L "Mars"); named_entry (L "chronology_system") (L "B")].
Definition one_equilibrium : list entry :=
  [named_entry (L "chronology_system") (L "B"); named_entry (L "equilibrium") (L "Trask"); named_entry (L "chronology_system") (L "A")].
Ltac written := split; [discriminate|]; split; [repeat (apply Forall_cons; [good_structure|]); apply Forall_nil|]; split;
  [|right; exists []; split; [reflexivity|constructor]];
  match goal with |- repeats_ok ?l => intros l1 e l2 E (a & b & x & A) _; exfalso; assert (I : In e l) by (rewrite E; apply in_or_app; right; now left); cbn in I; repeat (destruct I as [<- |I]; [discriminate A|]); destruct I end.
Lemma two_of_each_ok : well_written two_of_each [nl].
Proof. unfold two_of_each, named_entry. written. Qed.
Lemma one_equilibrium_ok : well_written one_equilibrium [nl].
Proof. unfold one_equilibrium, named_entry. written. Qed.
Lemma written_read l : well_written l [nl] -> exists f, read_from f l.
Proof. intros (N & OK & RP & T). destruct (C30_reading l [nl] N OK RP T) as (f & ts & _ & M & H). exists f. split; [exact OK|]. exists ts. auto. Qed.
Lemma named_entry_name kind n : exists fields, named_structure (named_entry kind n) n fields.
Proof.
  exists [text_field (L "name") n]. split; [exists [nl], []; reflexivity|]. exists (text_field (L "name") n). split; [|split; [reflexivity|right; exists sq; reflexivity]].
  exists [], []. split; [reflexivity|constructor].
Qed.
Example C127_hypotheses_met :
  (exists f, read_from f two_of_each /\ several two_of_each (L "chronology_system") /\ several two_of_each (L "equilibrium") /\ several two_of_each (L "epochs") /\ names_in two_of_each (L "chronology_system") [L "B"; L "A"; L "B"] /\ names_in two_of_each (L "equilibrium") [L "Hartmann"; L "Trask"] /\ names_in two_of_each (L "epochs") [L "Moon"; L "Mars"] /\ print_functions (fun s => s) f = ([nl] ++ L "Chronology systems:" ++ [nl] ++ L "B" ++ [nl] ++ L "A" ++ [nl] ++ L "B" ++ [nl] ++ [nl] ++ L "Equilibrium functions:" ++ [nl] ++ L "Hartmann" ++ [nl] ++ L "Trask" ++ [nl] ++
       [nl] ++ L "Epoch systems:" ++ [nl] ++ L "Moon" ++ [nl] ++ L "Mars" ++ [nl], None)) /\ (exists f, read_from f one_equilibrium /\ print_functions (fun s => s) f = ([nl] ++ L "Chronology systems:" ++ [nl] ++ L "B" ++ [nl] ++ L "A" ++ [nl] ++ [nl] ++ L "Equilibrium functions:" ++ [nl], Some TypeError)).
Proof.
  assert (NM : forall l kind ns ks, l = map (fun p => named_entry (fst p) (snd p)) ks -> ns = map snd (filter (fun p => if list_eq_dec ascii_dec (fst p) kind then true else false) ks) -> names_in l kind ns).
  { clear. intros l kind ns ks -> ->. induction ks as [|(k, n) ks IH]; [constructor|]. unfold names_in in *. cbn [map filter fst snd]. change (key_of (named_entry k n)) with k.
    destruct (list_eq_dec ascii_dec k kind); cbn [map snd]; [constructor; [apply named_entry_name|exact IH]|exact IH]. }
  set (ks := [(L "epochs", L "Moon"); (L "chronology_system", L "B"); (L "equilibrium", L "Hartmann"); (L "chronology_system", L "A"); (L "equilibrium", L "Trask"); (L "epochs", L "Mars"); (L "chronology_system", L "B")]).
  set (ks1 := [(L "chronology_system", L "B"); (L "equilibrium", L "Trask"); (L "chronology_system", L "A")]).
  split.
  - destruct (written_read _ two_of_each_ok) as (f & RF). exists f.
    assert (S1 : several two_of_each (L "chronology_system")) by (exists (firstn 1 two_of_each), (nth 1 two_of_each (text_field [] [])), (firstn 1 (skipn 2 two_of_each)), (nth 3 two_of_each (text_field [] [])), (skipn 4 two_of_each); repeat split).
    assert (S2 : several two_of_each (L "equilibrium")) by (exists (firstn 2 two_of_each), (nth 2 two_of_each (text_field [] [])), (firstn 1 (skipn 3 two_of_each)), (nth 4 two_of_each (text_field [] [])), (skipn 5 two_of_each); repeat split).
    assert (S3 : several two_of_each (L "epochs")) by (exists [], (nth 0 two_of_each (text_field [] [])), (firstn 4 (skipn 1 two_of_each)), (nth 5 two_of_each (text_field [] [])), (skipn 6 two_of_each); repeat split).
    assert (N1 : names_in two_of_each (L "chronology_system") [L "B"; L "A"; L "B"]) by (apply (NM _ _ _ ks); reflexivity).
    assert (N2 : names_in two_of_each (L "equilibrium") [L "Hartmann"; L "Trask"]) by (apply (NM _ _ _ ks); reflexivity).
    assert (N3 : names_in two_of_each (L "epochs") [L "Moon"; L "Mars"]) by (apply (NM _ _ _ ks); reflexivity).
    repeat (split; [assumption|]). rewrite (C127_listing (fun s => s) f two_of_each _ _ _ RF S1 S2 S3 N1 N2 N3). reflexivity.
  - destruct (written_read _ one_equilibrium_ok) as (f & RF). exists f. split; [exact RF|].
    assert (S1 : several one_equilibrium (L "chronology_system")) by (exists [], (nth 0 one_equilibrium (text_field [] [])), (firstn 1 (skipn 1 one_equilibrium)), (nth 2 one_equilibrium (text_field [] [])), []; repeat split).
    assert (N1 : names_in one_equilibrium (L "chronology_system") [L "B"; L "A"]) by (apply (NM _ _ _ ks1); reflexivity).
    destruct (named_entry_name (L "equilibrium") (L "Trask")) as (fields & NS).
    rewrite (C127_single_definition_refuted (fun s => s) f one_equilibrium _ _ _ fields (firstn 1 one_equilibrium) (skipn 2 one_equilibrium) RF S1 N1 eq_refl eq_refl NS); [reflexivity|].
    intros e' I. cbn in I. destruct I as [<- |[<- |[]]]; discriminate.
Qed.
Print Assumptions C127_listing.
Print Assumptions C127_listed_names_are_known.
Print Assumptions C127_single_definition_refuted.
Print Assumptions C127_symbols_and_colours.
Print Assumptions C127_highlights.
