(** Properties C33-C35 and C37-C39: the command line. *)
From Coq Require Import String Ascii List Arith ZArith Bool Lia Sorted Permutation.
From Verif Require Import Base NumModel NumLemmas StrModel StrSpec StrProofs StrProofs2 FmtSpec FmtModel CliModel CliSpec CliProofs CliProofs2 CliProofs3.
Import ListNotations.

(** ** C33 *)
Theorem C33_decode :
  forall (s : list str) v amb inv, plain_text v -> Forall no_newline s ->
    match decode_abbreviation s v amb inv with
    | Ok (Some i) => exists e, nth_error s i = Some e /\ abbreviates v e /\
        (forall j e', nth_error s j = Some e' -> abbreviates v e' ->
           (length e < length e' \/ length e = length e' /\ i <= j) /\ (amb = false -> j = i))
    | Ok None => inv = true /\ forall j e', nth_error s j = Some e' -> ~ abbreviates v e'
    | Err x => x = SysExit /\
        (inv = false /\ (forall j e', nth_error s j = Some e' -> ~ abbreviates v e') \/
         amb = false /\ exists i j e e', i <> j /\ nth_error s i = Some e /\ abbreviates v e /\
                                        nth_error s j = Some e' /\ abbreviates v e')
    end.
Proof. intros. now apply decode_spec. Qed.
Print Assumptions C33_decode.
(** a full name resolves to an item with that name, and to itself if no other item differs only in case *)
Theorem C33_full_name :
  forall (s : list str) v inv, plain_text v -> Forall no_newline s -> In v s ->
    exists i e, decode_abbreviation s v true inv = Ok (Some i) /\ nth_error s i = Some e /\ same_text e v /\
      (forall k, nth_error s k = Some v -> (forall j e', nth_error s j = Some e' -> same_text e' v -> j = k) -> i = k).
Proof.
  intros s v inv P N I. pose proof (C33_decode s v true inv P N) as H. apply In_nth_error in I. destruct I as (j & J).
  destruct (decode_abbreviation s v true inv) as [[i|]|x].
  - destruct H as (e & E & A & M). exists i, e. split; [reflexivity|]. split; [exact E|].
    assert (S : same_text e v).
    { destruct (M j v J (abbr_refl v)) as (LM & _). unfold same_text. symmetry. apply abbr_same; [exact A|].
      destruct LM as [LM|LM]; lia. }
    split; [exact S|]. intros k K U. now apply (U i e).
  - destruct H as (_ & H). exfalso. apply (H j v J), abbr_refl.
  - destruct H as (_ & [(_ & H)|(H & _)]); [exfalso; apply (H j v J), abbr_refl|discriminate].
Qed.
Print Assumptions C33_full_name.
(** every name delivered with the program resolves to itself, with the flags the program uses *)
Definition resolves (amb : bool) (s : list str) : bool :=
  forallb (fun p => match decode_abbreviation s (snd p) amb false with Ok (Some i) => Nat.eqb i (fst p) | _ => false end) (enumerate s).
Theorem C33_shipped_names :
  forall s amb, In (amb, s) [(false, presentations); (true, craterplot_keys); (true, oplot_types); (true, binnings);
      (true, palette_names); (true, marker_names); (true, shipped_systems); (true, shipped_equilibria); (true, shipped_epochs);
      (false, planets)] ->
    forall i e, nth_error s i = Some e -> decode_abbreviation s e amb false = Ok (Some i).
Proof.
  intros s amb I.
  assert (R : resolves amb s = true).
  { cbn [In] in I. decompose [or] I; match goal with H : (_, _) = _ |- _ => injection H as <- <-; vm_compute; reflexivity | H : False |- _ => contradiction end. }
  intros i e E. unfold resolves in R. rewrite forallb_forall in R. apply enumerate_In in E. specialize (R _ E). cbn [fst snd] in R.
  destruct (decode_abbreviation s e amb false) as [[j|]|]; try discriminate. apply Nat.eqb_eq in R. now subst.
Qed.
Print Assumptions C33_shipped_names.
(** where ambiguity is not allowed, a full name that abbreviates another one is rejected *)
Theorem C33_full_name_refuted :
  exists s v, In v s /\ decode_abbreviation s v false false = Err SysExit.
Proof. exists [L "rate"; L "chronology rate"], (L "rate"). split; [now left|]. reflexivity. Qed.
Print Assumptions C33_full_name_refuted.
Example C33_hypotheses_met :
  plain_text (L "psn") /\ decode_abbreviation oplot_types (L "PSN") true false = Ok (Some 3) /\
  decode_abbreviation presentations (L "c") false false = Err SysExit /\
  decode_abbreviation shipped_systems (L "MoonNeukum2001") true false = Ok (Some 1) /\
  decode_abbreviation planets (L "Vesta") false true = Ok None.
Proof.
  split; [|vm_compute; auto]. unfold plain_text. repeat constructor; cbn; intros I; decompose [or] I; discriminate || contradiction.
Qed.

(** ** C39 *)
Theorem C39_pairs :
  forall values kvs, kvs <> [] -> NoDup (map fst kvs) ->
    Forall (fun kv => key_ok (fst kv) /\ ~ In "="%char (snd kv)) kvs ->
    join (L " ") values = join (L ",") (map pair_text kvs) ->
    plot_dict values = Ok kvs.
Proof.
  intros values kvs N D F E. rewrite (plot_dict_pairs values kvs N); [|exact F|exact E]. rewrite (dict_of_nodup kvs []); [reflexivity|exact D].
Qed.
Print Assumptions C39_pairs.
(** a repeated key has its last value *)
Theorem C39_repeated :
  forall values kvs, kvs <> [] ->
    Forall (fun kv => key_ok (fst kv) /\ ~ In "="%char (snd kv)) kvs ->
    join (L " ") values = join (L ",") (map pair_text kvs) ->
    exists d, plot_dict values = Ok d /\ NoDup (map fst d) /\ forall k, last_given d k = last_given kvs k.
Proof.
  intros values kvs N F E. exists (dict_of [] kvs). split; [apply plot_dict_pairs; [exact N|exact F|exact E]|]. split.
  - apply (dict_of_last kvs [] []). constructor.
  - intros k. destruct (dict_of_last kvs [] k) as (_ & H); [constructor|]. etransitivity; [exact H|]. match goal with |- match ?o with Some _ => _ | None => _ end = _ => destruct o eqn:X end; rewrite ?X; symmetry; exact X.
Qed.
Print Assumptions C39_repeated.
Example C39_hypotheses_met :
  plot_dict [L "source=my file.scc,range=[.2,.7],name=Area"; L "1,"; L "2"] =
    Ok [(L "source", L "my file.scc"); (L "range", L "[.2,.7]"); (L "name", L "Area 1, 2")] /\
  Forall (fun kv => key_ok (fst kv) /\ ~ In "="%char (snd kv)) [(L "range", L "[.2,.7]")] /\
  plot_dict [L "source"] = Err SysExit.
Proof.
  split; [vm_compute; reflexivity|]. split; [|reflexivity]. repeat constructor; try discriminate.
  cbn. intros I; decompose [or] I; discriminate || contradiction.
Qed.

(** ** C35 *)
Theorem C35_round_trip :
  forall fs out args fs',
    Forall (fun a => a <> [] /\ single_line a /\ (looks_like_option a -> harmless a)) args ->
    write_cs fs out args = Ok fs' ->
    exists content, file_get fs' (out ++ L ".cs") = Some content /\ command_args content = Ok args.
Proof.
  intros fs out args fs' F H. unfold write_cs in H. destruct (cs_content args) as [c|] eqn:E; [|discriminate].
  cbn [bind] in H. injection H as <-. exists c. split; [apply file_get_set|]. now apply command_round_trip.
Qed.
Print Assumptions C35_round_trip.
(** the file is always written under the same condition *)
Theorem C35_written :
  forall fs out args, Forall (fun a => a <> []) args -> exists fs', write_cs fs out args = Ok fs'.
Proof. intros fs out args F. unfold write_cs. rewrite (cs_content_ok args F). eexists. reflexivity. Qed.
Print Assumptions C35_written.
(** an empty argument (-title "") ends the run before any output; an argument starting with a dash and containing a
    blank is split in two; a second line of a title that is blank or starts with # is lost *)
Theorem C35_round_trip_refuted :
  (forall fs out a b, write_cs fs out (a ++ [[]] ++ b) = Err IndexError) /\
  (exists args c, Forall (fun a => a <> []) args /\ cs_content args = Ok c /\ command_args c <> Ok args) /\
  (exists args c, Forall (fun a => a <> []) args /\ Forall (fun a => looks_like_option a -> harmless a) args /\
     cs_content args = Ok c /\ command_args c <> Ok args).
Proof.
  split; [|split].
  - intros fs out a b. unfold write_cs, cs_content.
    assert (E : mapM cs_piece (a ++ [[]] ++ b) = Err IndexError).
    { induction a as [|x a IH]; [reflexivity|]. change ((x :: a) ++ [[]] ++ b) with (x :: (a ++ [[]] ++ b)). cbn [mapM].
      rewrite IH. destruct x as [|c t]; [reflexivity|]. cbn [cs_piece].
      match goal with |- context [if ?q then _ else _] => now destruct q end. }
    now rewrite E.
  - exists [L "-title"; L "-my title"]. eexists. split; [repeat constructor; discriminate|]. split; [reflexivity|]. vm_compute. discriminate.
  - exists [L "-title"; L "a" ++ [nl] ++ L "#1"]. eexists. split; [repeat constructor; discriminate|]. split.
    + apply Forall_cons; [intros _; unfold harmless; repeat constructor|].
      apply Forall_cons; [intros (t & H & _); discriminate|constructor].
    + split; [reflexivity|]. vm_compute. discriminate.
Qed.
Print Assumptions C35_round_trip_refuted.
Example C35_hypotheses_met :
  let args := [L "-title"; L "It's a ""test"" #2"; L "-xrange"; L "-3"; L "2"; L "-p"; L "source=a b.scc,range=[.2,.7]"] in
  Forall (fun a => a <> [] /\ single_line a /\ (looks_like_option a -> harmless a)) args /\
  exists c, cs_content args = Ok c /\ command_args c = Ok args.
Proof.
  cbv zeta. split.
  - repeat apply Forall_cons; try apply Forall_nil; (split; [discriminate|]); (split; [split; cbn; intros I; decompose [or] I; discriminate || contradiction|]);
      intros (t & E & H); try discriminate E; unfold harmless; repeat constructor.
  - eexists. split; vm_compute; reflexivity.
Qed.

(** ** C38 *)
Theorem C38_selection :
  forall items zs, items <> [] -> Forall2 typed_int items zs ->
    exists r, ra_decode_selection (Some (join (L ",") items)) = Some r /\ Permutation r zs /\ StronglySorted Z.le r.
Proof.
  intros items zs N F. exists (sort Z.leb zs). split; [now apply selection_spec|]. split; [symmetry; apply sort_perm|].
  assert (S : StronglySorted (fun a b => Z.leb a b = true) (sort Z.leb zs)).
  { apply sort_sorted; intros; rewrite ?Z.leb_le in *; lia. }
  clear -S. induction S; constructor; auto. eapply Forall_impl; [|eassumption]. intros b B. now apply Z.leb_le.
Qed.
Print Assumptions C38_selection.
(** no option and an empty one mean no selection *)
Theorem C38_none : ra_decode_selection None = None /\ ra_decode_selection (Some []) = None.
Proof. split; reflexivity. Qed.
Print Assumptions C38_none.
Example C38_hypotheses_met :
  Forall2 typed_int [L "12"; L " -3 "; L "+7"] [12; -3; 7]%Z /\ ra_decode_selection (Some (L "12, -3 ,+7")) = Some [-3; 7; 12]%Z /\
  ra_decode_selection (Some (L "0")) = Some [0]%Z.
Proof.
  split; [|vm_compute; auto]. constructor; [|constructor; [|constructor; [|constructor]]].
  - apply (typed_plus [] (L "12") [] []); auto; try discriminate; repeat constructor.
  - apply (typed_minus (L " ") (L "3") (L " ")); try discriminate; repeat constructor.
  - apply (typed_plus [] (L "7") [] (L "+")); auto; try discriminate; repeat constructor.
Qed.

(** ** C37 *)
(** a file named without a directory, or by an absolute path, is read if it exists *)
Theorem C37_found :
  forall cwd isdir fs values dir content,
    filename values (L "p") None None 4 = Ok dir -> (dir = [] \/ isabs values = true \/ isdir (path_join cwd dir) = false) ->
    file_get fs (path_join cwd values) = Some content ->
    forall args, command_args content = Ok args ->
    exists cwd', input_file cwd isdir fs values = Ok (cwd', path_join cwd values, args).
Proof.
  intros cwd isdir fs values dir content FN O G args A. unfold input_file. rewrite FN. cbn [bind].
  set (cwd' := if negb (seqb dir []) && isdir (path_join cwd dir) then path_join cwd dir else cwd).
  assert (P : path_join cwd' values = path_join cwd values).
  { unfold cwd'. destruct O as [->|[O|O]].
    - reflexivity.
    - assert (J : forall c, path_join c values = values) by (intros c; unfold path_join; now rewrite O). now rewrite !J.
    - rewrite O, andb_false_r. reflexivity. }
  rewrite P, G, A. cbn [bind]. exists cwd'. reflexivity.
Qed.
Print Assumptions C37_found.
(** a relative name with a directory is looked up inside that directory instead *)
Theorem C37_relative :
  forall cwd isdir fs values dir,
    filename values (L "p") None None 4 = Ok dir -> dir <> [] -> isdir (path_join cwd dir) = true ->
    file_get fs (path_join (path_join cwd dir) values) = None ->
    input_file cwd isdir fs values = Err FileNotFound.
Proof.
  intros cwd isdir fs values dir FN N D G. unfold input_file. rewrite FN. cbn [bind]. rewrite (seqb_false _ _ N), D. cbn [negb andb].
  now rewrite G.
Qed.
Print Assumptions C37_relative.
Theorem C37_found_refuted :
  exists cwd isdir fs values content,
    file_get fs (path_join cwd values) = Some content /\ input_file cwd isdir fs values = Err FileNotFound.
Proof.
  exists (L "/home/u"), (fun d => seqb d (L "/home/u/runs/")), [(L "/home/u/runs/a.cs", L "-cs 1")], (L "runs/a.cs"), (L "-cs 1").
  split; vm_compute; reflexivity.
Qed.
Print Assumptions C37_found_refuted.
Example C37_hypotheses_met :
  input_file (L "/home/u") (fun _ => true) [(L "/home/u/a.cs", L "-cs 1")] (L "a.cs") = Ok (L "/home/u", L "/home/u/a.cs", [L "-cs"; L "1"]) /\
  input_file (L "/") (fun _ => true) [(L "/d/a.cs", L "-cs 1")] (L "/d/a.cs") = Ok (L "/d/", L "/d/a.cs", [L "-cs"; L "1"]).
Proof. split; vm_compute; reflexivity. Qed.

(** ** C34 *)
(** every property of every overplot: the value given; else, for carry-over properties and type, that of the previous
    overplot; else the default.  (With -i the source is additionally prefixed, see below.) *)
Theorem C34_carry_over :
  forall path pres input load ds ps, construct_plot_dicts path pres input load ds = Ok ps ->
    length ps = length ds /\
    forall i d p k, nth_error ds i = Some d -> nth_error ps i = Some p -> k <> L "source" \/ input = None ->
      (forall v, given_last d k v -> plot_value path k v = Ok (p k)) /\
      (not_given d k ->
         match i with
         | O => p k = documented_default pres k
         | S j => exists q, nth_error ps j = Some q /\
                    p k = if in_dec (list_eq_dec ascii_dec) k (L "type" :: map L ["source"; "psym"; "snap"; "isochron"; "error_bars"; "colour"; "binning"]%string)
                          then q k else documented_default pres k
         end).
Proof.
  intros path pres input load ds ps H. destruct (plot_dicts_spec _ _ _ _ _ _ _ _ H) as (LE & SP). split; [exact LE|].
  intros i d p k D P O. destruct (SP i d p D P) as (S1 & S2 & _). split; [intros v G; now apply S1|].
  intros G. specialize (S2 k G O). destruct i as [|j]; [rewrite S2; apply plot_start_first|].
  assert (Q : exists q, nth_error ps j = Some q).
  { destruct (nth_error ps j) as [q|] eqn:E; [now exists q|]. apply nth_error_None in E.
    assert (S j < length ps) by (apply nth_error_Some; congruence). lia. }
  destruct Q as (q & Q). exists q. split; [exact Q|]. rewrite Q in S2. rewrite S2.
  destruct (plot_start_next pres q k) as (N1 & N2 & N3). change (map L _) with carry_over.
  destruct (in_dec (list_eq_dec ascii_dec) k (L "type" :: carry_over)) as [I|I].
  - destruct I as [<-|I]; [now apply N2|now apply N1].
  - apply N3; [intros X; apply I; now right|intros ->; apply I; now left].
Qed.
Print Assumptions C34_carry_over.
(** the first overplot must name a source; every overplot reads the file it ends up with *)
Theorem C34_source :
  forall path pres input load d ds ps, construct_plot_dicts path pres input load (d :: ds) = Ok ps ->
    ~ not_given d (L "source") /\
    forall p, In p ps -> exists s, p (L "source") = PStr s /\ load s = Ok tt.
Proof.
  intros path pres input load d ds ps H. split.
  - unfold construct_plot_dicts in H. cbn [plot_dicts] in H.
    destruct (plot_one path pres input load None false d) as [[p s]|] eqn:E; [|discriminate]. now apply plot_one_first in E.
  - destruct (plot_dicts_spec _ _ _ _ _ _ _ _ H) as (LE & SP). intros p I. apply In_nth_error in I. destruct I as (i & I).
    destruct (nth_error (d :: ds) i) as [d'|] eqn:D.
    + now destruct (SP i d' p D I) as (_ & _ & X).
    + apply nth_error_None in D. assert (i < length ps) by (apply nth_error_Some; congruence). lia.
Qed.
Print Assumptions C34_source.
(** type is inherited although the source changes, and with -i an inherited source gets the directory of the command file
    a second time *)
Theorem C34_carry_over_refuted :
  (exists q p, construct_plot_dicts (L "/cs/") (L "differential") None (fun _ => Ok tt)
       [[(L "source", L "a.scc"); (L "type", L "poisson")]; [(L "source", L "b.scc")]] = Ok [q; p] /\
     p (L "source") = PStr (L "b.scc") /\ p (L "type") = PStr (L "poisson")) /\
  (exists q p, construct_plot_dicts (L "/cs/") (L "differential") (Some (L "run/x.cs")) (fun _ => Ok tt)
       [[(L "source", L "a.scc")]; [(L "colour", L "red")]] = Ok [q; p] /\
     p (L "source") = PStr (L "run/run/a.scc")).
Proof.
  split; eexists _, _; (split; [reflexivity|]); vm_compute; auto.
Qed.
Print Assumptions C34_carry_over_refuted.
Example C34_hypotheses_met :
  exists q p, construct_plot_dicts (L "/cs/") (L "differential") None (fun _ => Ok tt)
      [[(L "src", L "a.scc"); (L "psym", L "fo"); (L "rng", L "[1,2]")]; [(L "type", L "dfit"); (L "col", L "red")]] = Ok [q; p] /\
    p (L "source") = PStr (L "a.scc") /\ p (L "psym") = q (L "psym") /\ p (L "colour") = PInt 1 /\
    p (L "type") = PStr (L "d-fit") /\ q (L "range") = PList [L "1"; L "2"] /\ p (L "range") = PList [L "0"; L "inf"].
Proof. eexists _, _. split; [reflexivity|]. vm_compute. repeat split. Qed.
