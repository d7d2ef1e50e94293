(** Properties C36, C57, C65-C67: settings and values of the command line, output files. *)
From Coq Require Import String Ascii List Arith ZArith Bool Lia Sorted Permutation.
From Verif Require Import Base NumModel NumLemmas StrModel StrSpec StrProofs StrProofs2 FmtSpec FmtModel CliModel CliSpec CliProofs CliProofs2 CliProofs3 CliProps.
Import ListNotations.

(** ** C65: values of -p options *)
Theorem C65_values :
  forall path,
    (forall k a b, In k [L "range"; L "offset_age"] -> Forall (fun c => ~ In c (L "[],")) (a ++ b) ->
       plot_value path k (L "[" ++ a ++ L "," ++ b ++ L "]") = Ok (PList [a; b])) /\
    (forall i t s, nth_error oplot_types i = Some t -> nth_error oplot_types_short i = Some s ->
       plot_value path (L "type") t = Ok (PStr s)) /\
    (forall b, In b binnings -> plot_value path (L "binning") b = Ok (PStr b)) /\
    (forall i n, nth_error palette_names i = Some n -> plot_value path (L "colour") n = Ok (PInt (Z.of_nat i))) /\
    (forall i c n, nth_error marker_codes i = Some c -> nth_error marker_names i = Some n ->
       plot_value path (L "psym") c = Ok (PInt (Z.of_nat i)) /\ plot_value path (L "psym") n = Ok (PInt (Z.of_nat i))) /\
    (forall h, length h = 6 -> Forall (fun c => In c (L "0123456789abcdefABCDEF")) h ->
       plot_value path (L "colour") (L "#" ++ h) = Ok (PStr (L "#" ++ h))) /\
    (forall h, no_newline h -> (length h <> 6 \/ Exists (fun c => ~ In c (L "0123456789abcdefABCDEF")) h) ->
       plot_value path (L "colour") (L "#" ++ h) = Err SysExit).
Proof.
  intros path.
  assert (HX : forall c, is_hex c = true <-> In c (L "0123456789abcdefABCDEF")).
  { intros c. split.
    - destruct c as [[] [] [] [] [] [] [] []]; vm_compute; intros; try discriminate; tauto.
    - intros I. cbn in I. decompose [or] I; subst; try reflexivity. contradiction. }
  repeat split.
  - intros k a b K F.
    assert (N : ~ In (ch ",") a /\ ~ In (ch ",") b /\ ~ In (ch "[") (a ++ L "," ++ b) /\ ~ In (ch "]") (a ++ L "," ++ b)).
    { rewrite Forall_forall in F. repeat split; rewrite ?in_app_iff; intros I.
      - apply (F (ch ",")); [rewrite in_app_iff; now left|cbn; tauto].
      - apply (F (ch ",")); [rewrite in_app_iff; now right|cbn; tauto].
      - apply (F (ch "[")); [rewrite in_app_iff; destruct I as [I|[I|I]]; auto; cbn in I; destruct I as [I|[]]; discriminate|cbn; tauto].
      - apply (F (ch "]")); [rewrite in_app_iff; destruct I as [I|[I|I]]; auto; cbn in I; destruct I as [I|[]]; discriminate|cbn; tauto]. }
    destruct N as (N1 & N2 & N3 & N4).
    assert (E : strip (fun c => mem c (L "[]")) (L "[" ++ a ++ L "," ++ b ++ L "]") = a ++ L "," ++ b).
    { transitivity (strip (fun c => mem c (L "[]")) (L "[" ++ (a ++ L "," ++ b) ++ L "]")); [now rewrite <- !app_assoc|].
      now apply strip_brackets. }
    assert (V : plot_value path k (L "[" ++ a ++ L "," ++ b ++ L "]") =
                Ok (PList (split_chr (ch ",") [] (strip (fun c => mem c (L "[]")) (L "[" ++ a ++ L "," ++ b ++ L "]"))))).
    { cbn in K. destruct K as [<-|[<-|[]]]; reflexivity. }
    rewrite V, E. do 2 f_equal. change (a ++ L "," ++ b) with (a ++ ch "," :: b). rewrite split_chr_app by exact N1.
    now rewrite split_chr_none.
  - intros i t s T S. assert (D : decode_abbreviation oplot_types t true false = Ok (Some i)) by (apply C33_shipped_names with (s := oplot_types); [cbn; auto|exact T]).
    change (plot_value path (L "type") t) with (do! x <- decode_name oplot_types oplot_types_short t true; Ok (PStr x)).
    unfold decode_name. rewrite D. cbn [bind]. rewrite S. reflexivity.
  - intros b B. apply In_nth_error in B. destruct B as (i & B).
    assert (D : decode_abbreviation binnings b true false = Ok (Some i)) by (apply C33_shipped_names with (s := binnings); [cbn; auto|exact B]).
    change (plot_value path (L "binning") b) with (do! x <- decode_name binnings binnings b true; Ok (PStr x)).
    unfold decode_name. rewrite D. cbn [bind]. rewrite B. reflexivity.
  - intros i n N.
    assert (D : decode_abbreviation palette_names n true false = Ok (Some i)) by (apply C33_shipped_names with (s := palette_names); [cbn; auto 10|exact N]).
    change (plot_value path (L "colour") n) with
      (match n with
       | [] => Err IndexError
       | c :: _ => if aeqb c (ch "#") then if hex_colour n then Ok (PStr n) else Err SysExit
                   else do! i <- decode_abbreviation palette_names n true false;
                        Ok (match i with Some i => PInt (Z.of_nat i) | None => PInt (-1) end)
       end).
    rewrite D. assert (H : match n with [] => false | c :: _ => negb (aeqb c (ch "#")) end = true).
    { apply nth_error_In in N. clear D. revert n N. apply (proj1 (Forall_forall (fun n : str => match n with [] => false | c :: _ => negb (aeqb c (ch "#")) end = true) palette_names)). repeat constructor. }
    destruct n as [|c n]; [discriminate|]. apply negb_true_iff in H. now rewrite H.
  - assert (X : forallb (fun p => match index_of (snd p) marker_codes with [i] => Nat.eqb i (fst p) | _ => false end) (enumerate marker_codes) = true)
      by (vm_compute; reflexivity).
    rewrite forallb_forall in X. apply enumerate_In in H. specialize (X _ H). cbn [fst snd] in X.
    change (plot_value path (L "psym") c) with
      (match index_of c marker_codes with
       | [i] => Ok (PInt (Z.of_nat i))
       | _ => do! i <- decode_abbreviation marker_names c true false; Ok (match i with Some i => PInt (Z.of_nat i) | None => PInt (-1) end)
       end).
    destruct (index_of c marker_codes) as [|j [|]]; try discriminate. apply Nat.eqb_eq in X. now subst.
  - assert (D : decode_abbreviation marker_names n true false = Ok (Some i)) by (apply C33_shipped_names with (s := marker_names); [cbn; auto 10|exact H0]).
    change (plot_value path (L "psym") n) with
      (match index_of n marker_codes with
       | [i] => Ok (PInt (Z.of_nat i))
       | _ => do! i <- decode_abbreviation marker_names n true false; Ok (match i with Some i => PInt (Z.of_nat i) | None => PInt (-1) end)
       end).
    assert (X : index_of n marker_codes = []).
    { apply nth_error_In in H0. clear -H0. revert n H0. apply (proj1 (Forall_forall (fun n : str => index_of n marker_codes = []) marker_names)). repeat constructor. }
    now rewrite X, D.
  - intros h LH F.
    assert (E : hex_colour (L "#" ++ h) = true).
    { cbn [L list_ascii_of_string app hex_colour]. rewrite LH. rewrite firstn_all2 by lia. rewrite skipn_all2 by lia.
      cbn. rewrite andb_true_r. apply forallb_forall. intros c I. apply HX. now apply (proj1 (Forall_forall _ _) F). }
    change (plot_value path (L "colour") (L "#" ++ h)) with (if hex_colour (L "#" ++ h) then Ok (PStr (L "#" ++ h)) else Err SysExit).
    now rewrite E.
  - intros h N O.
    assert (E : hex_colour (L "#" ++ h) = false).
    { cbn [L list_ascii_of_string app hex_colour]. change (aeqb "#" (ch "#")) with true. cbn [andb].
      destruct (6 <=? length h) eqn:L6; [|reflexivity]. apply Nat.leb_le in L6. cbn [andb].
      destruct (skipn 6 h) as [|x r] eqn:SK.
      - assert (length h = 6). { pose proof (skipn_length 6 h) as X. rewrite SK in X. cbn in X. lia. }
        rewrite andb_true_r. destruct O as [O|O]; [contradiction|]. rewrite firstn_all2 by lia.
        apply Exists_exists in O. destruct O as (c & I & NI). apply Bool.not_true_is_false. intros FA.
        rewrite forallb_forall in FA. apply NI, HX, FA, I.
      - assert (AE : at_end (x :: r) = false); [|rewrite AE; apply andb_false_r].
        cbn. destruct r as [|y r]; [|reflexivity]. unfold is_nl. destruct (aeqb_spec x nl) as [->|]; [|reflexivity].
        exfalso. apply N. rewrite <- (firstn_skipn 6 h), SK, in_app_iff. right. now left. }
    change (plot_value path (L "colour") (L "#" ++ h)) with (if hex_colour (L "#" ++ h) then Ok (PStr (L "#" ++ h)) else Err SysExit).
    now rewrite E.
Qed.
Print Assumptions C65_values.
(** the numbers 0-31 and 0-14 announced in the help text for colour and psym do not select the entry with that number *)
Theorem C65_numbers_refuted :
  plot_value [] (L "colour") (L "3") = Ok (PInt 26) /\ plot_value [] (L "colour") (L "0") = Err SysExit /\
  plot_value [] (L "psym") (L "5") = Ok (PInt 4) /\ plot_value [] (L "psym") (L "1") = Err SysExit.
Proof. vm_compute. auto. Qed.
Print Assumptions C65_numbers_refuted.
Example C65_hypotheses_met :
  plot_value (L "/cs/") (L "source") (L "%sample%/a.scc") = Ok (PStr (L "/cs/sample/a.scc")) /\
  plot_value [] (L "colour") (L "#12aB9f") = Ok (PStr (L "#12aB9f")) /\ plot_value [] (L "range") (L "[.2,inf]") = Ok (PList [L ".2"; L "inf"]).
Proof. vm_compute. auto. Qed.

(** ** C36 *)
Definition plain_settings : list str := map L
  ["title"; "isochrons"; "legend"; "print_dimensions"; "pt_size"; "font"; "ref_diameter"; "sig_figs"; "mu"; "invert";
   "transparent"; "style"; "min_diameter"; "n_samples"; "bins"; "ra_offset"; "ra_show"]%string.
Lemma start_documented pres k : k <> L "presentation" -> k <> L "text_halo" -> start_config pres k = documented_setting pres k.
Proof.
  intros N1 N2. unfold start_config, documented_setting, cput.
  assert (D : forall a b, (if list_eq_dec ascii_dec a b then true else false) = seqb a b).
  { intros a b. destruct (list_eq_dec ascii_dec a b) as [->|N]; [now rewrite seqb_refl|]. symmetry. now apply seqb_false. }
  assert (T : forall l, (if in_dec (list_eq_dec ascii_dec) pres l then true else false) = existsb (seqb pres) l).
  { intros l. destruct (in_dec (list_eq_dec ascii_dec) pres l) as [I|I].
    - symmetry. now apply existsb_In.
    - symmetry. apply not_true_is_false. intros X. now apply I, existsb_In. }
  set (tl := map L ["chronology"; "rate"; "sequence"; "uncertainty"]%string) in *.
  pose proof (D k (L "legend")) as D1. pose proof (D pres (L "sequence")) as D2.
  pose proof (D k (L "xrange")) as D3. pose proof (D k (L "yrange")) as D4. specialize (T tl).
  rewrite <- T, <- D2.
  destruct (list_eq_dec ascii_dec k (L "text_halo")) as [|_]; [contradiction|].
  destruct (list_eq_dec ascii_dec k (L "legend")) as [->|].
  - destruct (list_eq_dec ascii_dec pres (L "sequence")); [reflexivity|].
    destruct (in_dec (list_eq_dec ascii_dec) pres tl); reflexivity.
  - destruct (list_eq_dec ascii_dec pres (L "sequence")); rewrite <- ?D1;
      destruct (in_dec (list_eq_dec ascii_dec) pres tl); rewrite <- ?D3, <- ?D4, ?(seqb_false _ _ N1);
      destruct (list_eq_dec ascii_dec k (L "yrange")) as [->|]; try reflexivity;
      destruct (list_eq_dec ascii_dec k (L "xrange")) as [->|]; reflexivity.
Qed.
(** every option given has the value given, every other its documented value *)
Theorem C36_settings :
  forall names isdir normpath pf_range val c,
    construct_cps_dict names isdir normpath pf_range (command_line val) = Ok c ->
    exists pres, c (L "presentation") = VText pres /\
      (val (L "presentation") = VNone -> pres = L "differential") /\
      (forall t, val (L "presentation") = VText t -> decode_name presentations presentations t false = Ok pres) /\
      (forall k, In k plain_settings \/ pres <> L "Hartmann" /\ In k [L "xrange"; L "yrange"] ->
         (forall v, val k = v -> v <> VNone -> c k = v) /\ (val k = VNone -> c k = documented_setting pres k)) /\
      (forall z, val (L "text_halo") = VFlag z -> z <> 0%Z -> c (L "text_halo") = VFlag z) /\
      (val (L "text_halo") = VNone -> c (L "text_halo") = documented_setting pres (L "text_halo")) /\
      (forall k, In k [L "chronology_system"; L "equilibrium"; L "epochs"] ->
         (forall t, val k = VText t -> exists x, decode_name (names k) (names k) t true = Ok x /\ c k = VText x) /\
         (val k = VNone -> c k = set_defaults k)) /\
      (exists n, In n (names (L "chronology_system")) /\ c (L "chronology_system") = VText n) /\
      (forall t, val (L "measure") = VText t -> c (L "measure") = VSet (split_chr (ch ",") [] t)) /\
      (val (L "measure") = VNone -> c (L "measure") = VSet [L "m2cnd"; L "sdaa"]).
Proof.
  intros names isdir normpath pf_range val c H. apply construct_inv in H.
  destruct H as (pres & c1 & P & I & CS & K & T1 & T2). exists pres.
  assert (K' : forall k, k <> L "text_halo" -> k <> L "xrange" -> k <> L "yrange" -> c k = c1 k) by (intros; apply K; auto).
  assert (PL : forall k, In k plain_settings -> In k parser_dests /\ In k plain_options /\ k <> L "presentation" /\ k <> L "text_halo" /\ k <> L "xrange" /\ k <> L "yrange").
  { intros k Hk. cbn in Hk. decompose [or] Hk; subst; try contradiction; repeat split; try discriminate; now apply existsb_In. }
  split; [|split; [|split; [|split; [|split; [|split; [|split; [|split; [|split]]]]]]]].
  - rewrite K' by discriminate. erewrite items_inert; [|now apply existsb_In|discriminate|exact I|reflexivity..].
    unfold start_config. destruct (existsb _ _), (seqb pres (L "sequence")); rewrite ?cput_other by discriminate; apply cput_same.
  - intros V. rewrite V in P. congruence.
  - intros t V. now rewrite V in P.
  - intros k O.
    assert (X : c k = c1 k /\ In k parser_dests /\ In k plain_options /\ k <> L "presentation" /\ k <> L "text_halo").
    { destruct O as [O|[NH O]].
      - destruct (PL k O) as (? & ? & ? & ? & ? & ?). rewrite K' by assumption. tauto.
      - assert (k <> L "text_halo") by (cbn in O; destruct O as [<-|[<-|[]]]; discriminate).
        split; [now apply K|]. cbn in O. destruct O as [<-|[<-|[]]]; repeat split; try discriminate; now apply existsb_In. }
    destruct X as (-> & X1 & X2 & X3 & X4). rewrite (items_plain _ _ _ val k _ _ X1 X2 I). split.
    + intros v <- N. now destruct (val k).
    + intros ->. now apply start_documented.
  - intros z V Z. assert (E : c1 (L "text_halo") = VFlag z).
    { erewrite items_plain; [|now apply existsb_In|now apply existsb_In|exact I]. now rewrite V. }
    rewrite E in T1. rewrite T1; [reflexivity|]. cbn. now apply Z.eqb_neq.
  - intros V. assert (E : c1 (L "text_halo") = VNone).
    { erewrite items_plain; [|now apply existsb_In|now apply existsb_In|exact I]. rewrite V. unfold start_config.
      destruct (existsb _ _), (seqb pres (L "sequence")); rewrite ?cput_other by discriminate; reflexivity. }
    rewrite E in T2. rewrite T2 by reflexivity. unfold text_halo_default, documented_setting.
    destruct (list_eq_dec ascii_dec (L "text_halo") (L "legend")) as [X|_]; [discriminate|].
    destruct (list_eq_dec ascii_dec (L "text_halo") (L "text_halo")) as [_|X]; [|congruence]. f_equal.
    destruct (in_dec (list_eq_dec ascii_dec) pres _) as [X|X].
    + assert (Y : In pres (map L ["uncertainty"; "sequence"; "chronology"; "rate"]%string)) by (cbn in X |- *; tauto).
      apply existsb_In in Y. now rewrite Y.
    + match goal with |- (if ?b then _ else _) = _ => destruct b eqn:Y; [|reflexivity] end. apply existsb_In in Y. exfalso. apply X. cbn in Y |- *. tauto.
  - intros k Hk.
    assert (NK : k <> L "text_halo" /\ k <> L "xrange" /\ k <> L "yrange").
    { cbn in Hk. destruct Hk as [<-|[<-|[<-|[]]]]; repeat split; discriminate. }
    destruct NK as (N1 & N2 & N3). rewrite (K' k N1 N2 N3). split.
    + intros t V. eapply items_named; [exact Hk|exact I|exact V].
    + intros V. rewrite (items_named_none names isdir normpath val k _ _ Hk I V). unfold start_config.
      destruct (existsb _ _), (seqb pres (L "sequence")); cbn in Hk; destruct Hk as [<-|[<-|[<-|[]]]]; rewrite ?cput_other by discriminate; reflexivity.
  - destruct CS as (n & N1 & N2). exists n. rewrite K' by discriminate. auto.
  - intros t V. rewrite K' by discriminate. now apply (items_measure names isdir normpath val _ _ I).
  - intros V. rewrite K' by discriminate. destruct (items_measure names isdir normpath val _ _ I) as (_ & M). rewrite (M V).
    unfold start_config. destruct (existsb _ _), (seqb pres (L "sequence")); rewrite ?cput_other by discriminate; reflexivity.
Qed.
Print Assumptions C36_settings.
(** the formats: those of -f; without -f png, csv and the extension of -o *)
Theorem C36_formats :
  forall names isdir normpath pf_range val c,
    construct_cps_dict names isdir normpath pf_range (command_line val) = Ok c ->
    (forall l, val (L "format") = VSet l -> c (L "format") = VSet l) /\
    (val (L "format") = VNone -> val (L "out") = VNone -> c (L "format") = VSet [L "png"; L "csv"]) /\
    (forall t, val (L "out") = VText t -> isdir t = false ->
       (exists pn, filename t (L "pn") None None 4 = Ok pn /\ c (L "out") = VText pn) /\
       (val (L "format") = VNone ->
        (filename t (L "e") None None 4 = Ok [] -> c (L "format") = VSet [L "png"; L "csv"]) /\
        forall a x, filename t (L "e") None None 4 = Ok (L "." ++ a :: x) -> a <> "."%char ->
          exists f, c (L "format") = VSet f /\ forall y, In y f <-> y = L "png" \/ y = L "csv" \/ y = a :: x)).
Proof.
  intros names isdir normpath pf_range val c H. apply construct_inv in H.
  destruct H as (pres & c1 & P & I & CS & K & T1 & T2).
  assert (S0 : start_config pres (L "format") = VSet [L "png"; L "csv"]).
  { unfold start_config. destruct (existsb _ _), (seqb pres (L "sequence")); rewrite ?cput_other by discriminate; reflexivity. }
  destruct (items_format names isdir normpath val _ _ _ S0 I) as (f & F & F1 & F2).
  assert (KF : c (L "format") = VSet f) by (rewrite <- F; apply K; [discriminate|split; discriminate]).
  split; [|split].
  - intros l V. now rewrite KF, (F1 l V).
  - intros V O. rewrite KF. f_equal. now apply (F2 V).
  - intros t V D. split.
    + destruct (items_out names isdir normpath val _ _ t I V D) as (pn & N & O). exists pn. split; [exact N|].
      rewrite <- O. apply K; [discriminate|split; discriminate].
    + intros VF. destruct (F2 VF) as (_ & _ & F3). split.
      * intros E. rewrite KF. now rewrite (F3 t [] V D E).
      * intros a x E N. exists f. split; [exact KF|]. rewrite (F3 t _ V D E). clear -N. intros y.
        assert (X : lstrip (fun x => aeqb x (ch ".")) (L "." ++ a :: x) = a :: x).
        { assert (Q : aeqb a (ch ".") = false) by (destruct (aeqb_spec a (ch ".")); [contradiction|reflexivity]).
          change (L "." ++ a :: x) with (ch "." :: a :: x). cbn [lstrip]. change (aeqb (ch ".") (ch ".")) with true. cbv iota. now rewrite Q. }
        rewrite X. unfold set_add. destruct (existsb (seqb (a :: x)) [L "png"; L "csv"]) eqn:B.
        { apply existsb_In in B. cbn [In] in *. intuition (subst; auto). }
        { rewrite in_app_iff. cbn [In]. intuition auto. }
Qed.
Print Assumptions C36_formats.
(** -text_halo 0 is overridden; -f drops the extension of -o; -p hartmann overrides -xrange and -yrange *)
Definition one_system (k : str) : list str := [L "Moon, Neukum (1983)"].
Theorem C36_settings_refuted :
  (exists val c, construct_cps_dict one_system (fun _ => false) (fun x => x) (fun _ => None) (command_line val) = Ok c /\
     val (L "text_halo") = VFlag 0 /\ c (L "text_halo") = VFlag 1) /\
  (exists val c, construct_cps_dict one_system (fun _ => false) (fun x => x) (fun _ => None) (command_line val) = Ok c /\
     val (L "out") = VText (L "x.pdf") /\ val (L "format") = VSet [L "png"] /\ c (L "format") = VSet [L "png"] /\ c (L "out") = VText (L "x")) /\
  (exists val c, construct_cps_dict one_system (fun _ => false) (fun x => x) (fun _ => None) (command_line val) = Ok c /\
     val (L "xrange") = VPair (L "-2") (L "1") /\ val (L "presentation") = VText (L "hart") /\
     c (L "xrange") = VPair (L "-3.15") (L "2.56")).
Proof.
  split; [|split].
  - exists (cput (fun _ => VNone) (L "text_halo") (VFlag 0)). eexists. split; [reflexivity|]. vm_compute. auto.
  - exists (cput (cput (fun _ => VNone) (L "out") (VText (L "x.pdf"))) (L "format") (VSet [L "png"])). eexists. split; [reflexivity|].
    vm_compute. auto.
  - exists (cput (cput (fun _ => VNone) (L "presentation") (VText (L "hart"))) (L "xrange") (VPair (L "-2") (L "1"))). eexists.
    split; [reflexivity|]. vm_compute. auto.
Qed.
Print Assumptions C36_settings_refuted.
Example C36_hypotheses_met :
  exists c, construct_cps_dict one_system (fun _ => false) (fun x => x) (fun _ => None)
      (command_line (cput (cput (cput (fun _ => VNone) (L "out") (VText (L "x.pdf"))) (L "presentation") (VText (L "seq"))) (L "title") (VText (L "T")))) = Ok c /\
    c (L "title") = VText (L "T") /\ c (L "format") = VSet [L "png"; L "csv"; L "pdf"] /\ c (L "legend") = VText (L "A") /\
    c (L "xrange") = VPair (L "4.2") (L "1e-2").
Proof. eexists. split; [reflexivity|]. vm_compute. auto. Qed.

(** ** C57 *)
Theorem C57_outputs :
  forall pres measures select out formats,
    pres <> L "uncertainty" -> NoDup formats -> Forall (fun f => In f (map L ["png"; "tif"; "pdf"; "svg"; "csv"]%string)) formats ->
    let files := o_files (write_output_files pres None measures select out formats) in
    map fst files = map (fun f => out ++ L "." ++ f) formats /\ NoDup (map fst files) /\
    forall f d, In (out ++ L "." ++ f, d) files -> d = if list_eq_dec ascii_dec f (L "csv") then Table else Diagram.
Proof.
  intros pres measures select out formats N ND F. cbv zeta. unfold write_output_files.
  destruct (plain_outputs pres measures select formats
              {| o_name := out; o_drawn := false; o_result := false; o_files := [] |} N F) as (_ & ->).
  cbn [o_files o_name app]. rewrite map_map. cbn [fst].
  assert (INJ : forall f g : str, out ++ L "." ++ f = out ++ L "." ++ g -> f = g).
  { intros f g E. apply app_inv_head in E. now injection E. }
  split; [reflexivity|]. split.
  - apply FinFun.Injective_map_NoDup; [exact INJ|exact ND].
  - intros f d I. apply in_map_iff in I. destruct I as (g & E & G). pose proof (f_equal fst E) as E1. pose proof (f_equal snd E) as E2.
    cbn [fst snd] in E1, E2. apply INJ in E1. subst g d. rewrite Forall_forall in F. specialize (F f G).
    destruct (known_cases f F) as [(A & B)|(A & ->)].
    + rewrite A. destruct (list_eq_dec ascii_dec f (L "csv")) as [->|]; [discriminate A|reflexivity].
    + reflexivity.
Qed.
Print Assumptions C57_outputs.
(** uncertainty diagrams: only the first image format gets them, a second one gets an ordinary diagram; randomness
    analysis: the table is named after the data file if an image format comes before it in the set, after -o otherwise *)
Theorem C57_outputs_refuted :
  (exists formats out, NoDup formats /\
     o_files (write_output_files (L "uncertainty") None [] None out formats) =
       [(out ++ L "_k.png", AgeArea (L "k")); (out ++ L "_err.png", AgeArea (L "err")); (out ++ L "_age.png", AgeArea (L "age"));
        (out ++ L ".pdf", Diagram)]) /\
  (exists out base, map fst (o_files (write_output_files (L "differential") (Some base) [L "sdaa"] None out [L "png"; L "csv"])) = [base ++ L "-sdaa.png"; base ++ L ".csv"] /\
     map fst (o_files (write_output_files (L "differential") (Some base) [L "sdaa"] None out [L "csv"; L "png"])) = [out ++ L ".csv"; base ++ L "-sdaa.png"]).
Proof.
  split.
  - exists [L "png"; L "pdf"], (L "x"). split; [|vm_compute; reflexivity].
    constructor; [cbn; intros [I|[]]; discriminate|]. constructor; [intros []|constructor].
  - exists (L "x"), (L "d/y"). vm_compute. auto.
Qed.
Print Assumptions C57_outputs_refuted.
Example C57_hypotheses_met :
  o_files (write_output_files (L "cumulative") None [] None (L "x") [L "csv"; L "pdf"; L "png"]) =
    [(L "x.csv", Table); (L "x.pdf", Diagram); (L "x.png", Diagram)].
Proof. vm_compute. reflexivity. Qed.

(** ** C66: where the output goes *)
Theorem C66_given_name : forall isdir o dflt, isdir o = false -> set_default_filename isdir (Some o) dflt = Ok o.
Proof. intros isdir o dflt H. unfold set_default_filename. now rewrite H. Qed.
Print Assumptions C66_given_name.
Theorem C66_default_name :
  (forall isdir dflt, set_default_filename isdir None dflt = Ok dflt) /\
  (forall i pres chron dmin sources, default_filename (Some i) pres chron dmin sources = filename i (L "pn") None None 4).
Proof. split; reflexivity. Qed.
Print Assumptions C66_default_name.
Lemma mapM_ok_iff {X Y} (f : X -> res Y) l1 l2 r1 : (forall x, In x l1 <-> In x l2) -> mapM f l1 = Ok r1 ->
  exists r2, mapM f l2 = Ok r2 /\ forall y, In y r1 <-> In y r2.
Proof.
  assert (IN : forall l r, mapM f l = Ok r -> (forall x, In x l -> exists y, f x = Ok y) /\ forall y, In y r <-> exists x, In x l /\ f x = Ok y).
  { induction l as [|x l IH]; cbn; intros r H.
    - injection H as <-. split; [easy|]. intros y. split; [easy|]. now intros (x & [] & _).
    - destruct (f x) as [y|] eqn:E; [|discriminate]. cbn in H. destruct (mapM f l) as [r'|] eqn:M; [|discriminate].
      cbn in H. injection H as <-. destruct (IH r' eq_refl) as (A & B). split.
      + intros x' [<-|I]; [now exists y|now apply A].
      + intros y'. cbn. rewrite B. split.
        * intros [<-|(x' & I & F)]; [exists x; auto|exists x'; auto].
        * intros (x' & [<-|I] & F); [left; congruence|right; now exists x']. }
  assert (EX : forall l, (forall x, In x l -> exists y, f x = Ok y) -> exists r, mapM f l = Ok r).
  { induction l as [|x l IH]; intros A; [now exists []|]. cbn. destruct (A x (or_introl eq_refl)) as (y & ->). cbn.
    destruct IH as (r & ->); [intros; apply A; now right|]. cbn. now eexists. }
  intros E H. destruct (IN _ _ H) as (A & B). destruct (EX l2) as (r2 & R2); [intros x I; now apply A, E|].
  exists r2. split; [exact R2|]. intros y. rewrite B. destruct (IN _ _ R2) as (_ & B2). rewrite B2.
  split; intros (x & I & F); exists x; (split; [apply E; exact I|exact F]).
Qed.
Lemma dedup_spec l : NoDup (dedup l) /\ forall x, In x (dedup l) <-> In x l.
Proof.
  induction l as [|a l (N & I)]; [split; [constructor|easy]|]. cbn [dedup]. split.
  - constructor; [|now apply NoDup_filter]. rewrite filter_In. intros (_ & X). now rewrite seqb_refl in X.
  - intros x. cbn. rewrite filter_In, I. destruct (seqb_spec a x) as [->|]; cbn; intuition congruence.
Qed.
Lemma str_leb_total a : forall b, str_leb a b = true \/ str_leb b a = true.
Proof.
  induction a as [|x a IH]; intros [|y b]; cbn [str_leb]; auto.
  destruct (Nat.ltb_spec (nat_of_ascii x) (nat_of_ascii y)); [now left|].
  destruct (Nat.ltb_spec (nat_of_ascii y) (nat_of_ascii x)); [now right|].
  assert (E : x = y) by (rewrite <- (ascii_nat_embedding x), <- (ascii_nat_embedding y); f_equal; lia). subst y.
  destruct (aeqb_spec x x); [|congruence]. cbn [andb orb]. apply IH.
Qed.
Lemma str_leb_trans a : forall b c, str_leb a b = true -> str_leb b c = true -> str_leb a c = true.
Proof.
  induction a as [|x a IH]; intros [|y b] [|z c]; cbn [str_leb]; auto; try discriminate.
  rewrite !orb_true_iff, !andb_true_iff, !Nat.ltb_lt.
  destruct (aeqb_spec x y) as [->|], (aeqb_spec y z) as [->|]; intuition (try discriminate; try lia).
  - right. destruct (aeqb_spec z z); [|congruence]. split; [reflexivity|]. eapply IH; eassumption.
Qed.
Lemma str_leb_antisym a : forall b, str_leb a b = true -> str_leb b a = true -> a = b.
Proof.
  induction a as [|x a IH]; intros [|y b]; cbn [str_leb]; auto; try discriminate.
  rewrite !orb_true_iff, !andb_true_iff, !Nat.ltb_lt.
  destruct (aeqb_spec x y) as [->|N].
  - intros [A|(_ & A)] [B|(_ & B)]; try lia. f_equal. now apply IH.
  - destruct (aeqb_spec y x) as [|_]; [congruence|]. intros [A|(A & _)] [B|(B & _)]; try discriminate. lia.
Qed.
Lemma sort_dedup l m : (forall x, In x l <-> In x m) -> sort str_leb (dedup l) = sort str_leb (dedup m).
Proof.
  intros E. apply sort_perm_eq; [intros x y F; destruct (str_leb_total x y) as [T|T]; [congruence|exact T]|intros; eapply str_leb_trans; eassumption|intros; now apply str_leb_antisym|].
  apply NoDup_Permutation; [apply dedup_spec|apply dedup_spec|]. intros x. rewrite !(proj2 (dedup_spec _)). apply E.
Qed.
(** the default name is made of the names of the sources and does not depend on their order *)
Theorem C66_default_order :
  forall pres chron dmin s1 s2 n, (forall x, In x s1 <-> In x s2) ->
    default_filename None pres chron dmin s1 = Ok n -> default_filename None pres chron dmin s2 = Ok n.
Proof.
  intros pres chron dmin s1 s2 n E H. unfold default_filename in *.
  destruct (existsb (seqb pres) (map L ["chronology"; "rate"; "uncertainty"]%string)); [exact H|].
  destruct (mapM (fun s => filename s (L "n") None None 4) s1) as [n1|] eqn:M1; [|discriminate]. cbn [bind] in H.
  destruct (mapM_ok_iff _ s1 s2 n1 E M1) as (n2 & M2 & E2). rewrite M2. cbn [bind].
  rewrite <- H. clear H. f_equal.
  assert (X : sort str_leb (dedup n2) = sort str_leb (dedup n1)) by (apply sort_dedup; intros x; symmetry; apply E2).
  destruct n1 as [|a n1], n2 as [|b n2]; [reflexivity| | |now rewrite X].
  - exfalso. apply (proj2 (E2 b)). now left.
  - exfalso. apply (proj1 (E2 a)). now left.
Qed.
Print Assumptions C66_default_order.
(** -o with the name of a directory *)
Theorem C66_directory_refuted : forall isdir o dflt, isdir o = true -> set_default_filename isdir (Some o) dflt = Err NameError.
Proof. intros isdir o dflt H. unfold set_default_filename. now rewrite H. Qed.
Print Assumptions C66_directory_refuted.

Example C66_hypotheses_met :
  default_filename None (L "differential") [] [] [L "d/b.scc"; L "a.diam"; L "b.scc"] = Ok (L "a_b") /\
  default_filename None (L "rate") (L "Moon, Neukum (1983)") [] [] = Ok (L "MoonNeukum1983_rate").
Proof. split; vm_compute; reflexivity. Qed.
