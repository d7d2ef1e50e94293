(** C93 and C94: conversions, and the course of a run. *)
From Coq Require Import String Ascii List Arith ZArith Bool Lia.
From Verif Require Import Base StrModel StrSpec StrProofs StrProofs2 StrProps CliModel FmtModel FmtSpec FmtProofs FlModel MainModel MainProofs.
Import ListNotations.

(** ** C93 *)
(** what a conversion to [fmt] makes, in the directory [d], under the name [m] *)
Definition products (d m fmt : str) : list (str * written) :=
  if list_eq_dec ascii_dec fmt (L "stat") then [(d ++ m ++ L ".stat", Statistics)]
  else if list_eq_dec ascii_dec fmt (L "scc") then [(d ++ m ++ L ".scc", Scc)]
  else if list_eq_dec ascii_dec fmt (L "shp") then [(d ++ m ++ L "_CRATER.shp", CraterShapes); (d ++ m ++ L "_AREA.shp", AreaShapes)]
  else [(d ++ m ++ L "_map.cs", Commands); (d ++ m ++ L "_map." ++ fmt, Map)].
(** the conversions there are: to a format, from files with an extension and a tag in their name *)
Definition images : list str := map L ["png"; "svg"; "pdf"]%string.
Inductive conversion : str -> str -> str -> Prop :=
| Cstat_diam : conversion (L "stat") (L "diam") []
| Cstat_scc : conversion (L "stat") (L "scc") []
| Cstat_shp : conversion (L "stat") (L "shp") (L "_CRATER")
| Cscc : conversion (L "scc") (L "shp") (L "_CRATER")
| Cshp : conversion (L "shp") (L "scc") []
| Cmap_shp fmt : In fmt images -> conversion fmt (L "shp") (L "_CRATER")
| Cmap_scc fmt : In fmt images -> conversion fmt (L "scc") [].

Lemma dots_away k s : match s with c :: _ => c <> "."%char | [] => True end -> lstrip_dots (repeat "."%char k ++ s) = s.
Proof. intros H. unfold lstrip_dots. induction k as [|k IH]; [|exact IH]. cbn [repeat app]. destruct s as [|c s]; [reflexivity|]. cbn [lstrip]. destruct (aeqb_spec c (ch ".")) as [E|]; [contradiction|reflexivity]. Qed.
Lemma dir_empty : directory []. Proof. split; [intros []|now left]. Qed.
Ltac letters := intros ?c ?Hc; cbn in Hc; repeat (destruct Hc as [<-|Hc]; [split; discriminate|]); destruct Hc.
Ltac noins := cbn; intros Hc; repeat (destruct Hc as [Hc|Hc]; [discriminate|]); destruct Hc.
Ltac known D P W i1 := rewrite (filename_known _ _ _ _ i1 [] _ _ D P W); [|letters|first [reflexivity|intros; reflexivity|noins]|noins].
Lemma tag_plain e tag fmt : conversion fmt e tag -> plain_name tag /\ short_word e /\ short_word fmt /\ (forall c s, fmt = c :: s -> c <> "."%char) /\ (forall c s, e = c :: s -> c <> "."%char).
Proof.
  assert (SW : forall s, existsb (seqb s) (map L ["stat"; "scc"; "shp"; "diam"; "png"; "svg"; "pdf"]%string) = true -> short_word s /\ (forall c t, s = c :: t -> c <> "."%char)).
  { intros s H. apply existsb_exists in H as (x & I & E). destruct (seqb_spec s x) as [->|]; [|discriminate]. cbn in I.
    repeat (destruct I as [<-|I]; [split; [split; [cbn; lia|repeat (constructor; [reflexivity|]); constructor]|intros ? ? K; injection K as <- _; discriminate]|]). destruct I. }
  assert (PT : plain_name (L "_CRATER")) by (repeat (constructor; [left; reflexivity|]); constructor).
  intros C. assert (Q : existsb (seqb fmt) (map L ["stat"; "scc"; "shp"; "diam"; "png"; "svg"; "pdf"]%string) = true /\ existsb (seqb e) (map L ["stat"; "scc"; "shp"; "diam"; "png"; "svg"; "pdf"]%string) = true /\ plain_name tag).
  { destruct C as [| | | | |f I|f I]; (split; [|split; [reflexivity|first [exact PT|constructor]]]); try reflexivity; cbn in I; repeat (destruct I as [<-|I]; [reflexivity|]); destruct I. }
  destruct Q as (Q1 & Q2 & Q3). destruct (SW _ Q1), (SW _ Q2). auto.
Qed.
Lemma source_name dir n tag e : directory dir -> plain_name n -> plain_name tag -> short_word e ->
  filename (dir ++ n ++ tag ++ "."%char :: e) (L "n") None None 4 = Ok (n ++ tag) /\ filename (dir ++ n ++ tag ++ "."%char :: e) (L "e") None None 4 = Ok ("."%char :: e).
Proof.
  intros D P T E. assert (PT : plain_name (n ++ tag)) by (apply Forall_app; auto). rewrite (app_assoc n).
  split; known D PT E (@nil ascii); cbn [flat_map piece]; cbn; now rewrite app_nil_r.
Qed.
Lemma count_name_ok dir n tag e fmt : conversion fmt e tag -> directory dir -> plain_name n -> crater_free n -> count_name (dir ++ n ++ tag ++ "."%char :: e) = Ok n.
Proof.
  intros C D P F. destruct (tag_plain _ _ _ C) as (PT & SE & _). destruct (source_name dir n tag e D P PT SE) as (A & B). unfold count_name. rewrite A, B. cbn [bind]. f_equal.
  destruct C; cbn [seqb L]; try (change (seqb _ (L ".shp")) with true); rewrite ?app_nil_r; try reflexivity; cbn match; now apply remove_crater_tag_end.
Qed.

(** without -o the products stand in the current directory, under the name of the source *)
Theorem C93_named_after_the_source :
  forall isdir dir n tag e fmt k, directory dir -> plain_name n -> crater_free n -> conversion fmt e tag ->
    convert_format isdir false (repeat "."%char k ++ fmt) (dir ++ n ++ tag ++ "."%char :: e) (L "out") = Ok (products [] n fmt, true).
Proof.
  intros isdir dir n tag e fmt k D P F C. pose proof (count_name_ok dir n tag e fmt C D P F) as CN.
  destruct (tag_plain _ _ _ C) as (PT & SE & SF & NF & NE). destruct (source_name dir n tag e D P PT SE) as (A & B).
  unfold convert_format. rewrite dots_away by (destruct fmt; [trivial|eapply NF; reflexivity]). rewrite A, B. cbn [bind].
  assert (LE : lstrip_dots ("."%char :: e) = e) by (apply (dots_away 1); destruct e; [trivial|eapply NE; reflexivity]). rewrite LE.
  unfold outfile. change (seqb (L "out") (L "out")) with true. cbn match. cbn [bind].
  assert (PNT : plain_name (n ++ tag)) by (apply Forall_app; auto).
  change ((n ++ tag) ++ L "." ++ fmt) with ((n ++ tag) ++ "."%char :: fmt).
  assert (SN : forall x i, plain_name x -> filename (x ++ "."%char :: fmt) (L "p1e") (Some i) None 4 = Ok (i ++ "."%char :: fmt)).
  { intros x i Px. change (x ++ "."%char :: fmt) with ([] ++ x ++ "."%char :: fmt). known dir_empty Px SF i. cbn. now rewrite app_nil_r. }
  destruct C as [| | | | |f I|f I].
  - cbn [seqb andb existsb]. change (seqb (L "stat") (L "stat") && existsb (seqb (L "diam")) (map L ["diam"; "scc"; "shp"]%string)) with true. cbn match. rewrite CN. cbn [bind]. rewrite SN by exact PNT. reflexivity.
  - change (seqb (L "stat") (L "stat") && existsb (seqb (L "scc")) (map L ["diam"; "scc"; "shp"]%string)) with true. cbn match. rewrite CN. cbn [bind]. rewrite SN by exact PNT. reflexivity.
  - change (seqb (L "stat") (L "stat") && existsb (seqb (L "shp")) (map L ["diam"; "scc"; "shp"]%string)) with true. cbn match. rewrite CN. cbn [bind]. rewrite SN by exact PNT. reflexivity.
  - change (seqb (L "scc") (L "stat") && existsb (seqb (L "shp")) (map L ["diam"; "scc"; "shp"]%string)) with false. change (seqb (L "scc") (L "scc")) with true. change (seqb (L "shp") (L "shp")) with true. cbn match. rewrite CN. cbn [bind]. rewrite SN by exact PNT. reflexivity.
  - change (seqb (L "shp") (L "stat") && existsb (seqb (L "scc")) (map L ["diam"; "scc"; "shp"]%string)) with false. change (seqb (L "shp") (L "scc")) with false. change (seqb (L "shp") (L "shp")) with true. change (seqb (L "scc") (L "scc")) with true. cbn match.
    rewrite app_nil_r. change (n ++ "."%char :: L "shp") with ([] ++ n ++ "."%char :: L "shp").
    known dir_empty P SF (L "_CRATER"). cbn [bind]. known dir_empty P SF (L "_AREA"). cbn [bind].
    change (products [] n (L "shp")) with [(n ++ L "_CRATER.shp", CraterShapes); (n ++ L "_AREA.shp", AreaShapes)].
    cbn [flat_map L map list_ascii_of_string]. repeat f_equal.
  - assert (X : seqb f (L "stat") && existsb (seqb (L "shp")) (map L ["diam"; "scc"; "shp"]%string) = false /\ seqb f (L "scc") = false /\ seqb f (L "shp") = false /\ existsb (seqb f) (map L ["png"; "svg"; "pdf"]%string) = true /\ crater_free ("."%char :: f) /\
       products [] n f = [(n ++ L "_map.cs", Commands); (n ++ L "_map." ++ f, Map)]).
    { cbn in I. destruct I as [<-|[<-|[<-|[]]]]; (split; [reflexivity|]); (split; [reflexivity|]); (split; [reflexivity|]); (split; [reflexivity|]); (split; [|reflexivity]);
        apply (crater_free_app_plain [] ("."%char :: _)); try (intros a b Q; destruct a; discriminate Q); intros c Hc; cbn in Hc; cbn; intuition (subst; discriminate). }
    destruct X as (-> & -> & -> & -> & FR & ->). change (existsb (seqb (L "shp")) (map L ["shp"; "scc"]%string)) with true. cbn match.
    rewrite <- app_assoc, remove_crater_tag by assumption. change (n ++ "."%char :: f) with ([] ++ n ++ "."%char :: f). known dir_empty P SF (L "_map"). cbn [bind flat_map].
    assert (E1 : flat_map (piece [] n ("."%char :: f) (L "_map") []) (L "pn1e") = [] ++ (n ++ L "_map") ++ "."%char :: f) by (cbn; now rewrite app_nil_r, <- app_assoc).
    rewrite E1. assert (PM : plain_name (n ++ L "_map")) by (apply Forall_app; split; [exact P|repeat (constructor; [left; reflexivity|]); constructor]).
    known dir_empty PM SF (L ".cs"). cbn [bind]. cbn. rewrite <- !app_assoc. reflexivity.
  - assert (X : seqb f (L "stat") && existsb (seqb (L "scc")) (map L ["diam"; "scc"; "shp"]%string) = false /\ seqb f (L "scc") = false /\ seqb f (L "shp") = false /\ existsb (seqb f) (map L ["png"; "svg"; "pdf"]%string) = true /\ crater_free ("."%char :: f) /\
       products [] n f = [(n ++ L "_map.cs", Commands); (n ++ L "_map." ++ f, Map)]).
    { cbn in I. destruct I as [<-|[<-|[<-|[]]]]; (split; [reflexivity|]); (split; [reflexivity|]); (split; [reflexivity|]); (split; [reflexivity|]); (split; [|reflexivity]);
        apply (crater_free_app_plain [] ("."%char :: _)); try (intros a b Q; destruct a; discriminate Q); intros c Hc; cbn in Hc; cbn; intuition (subst; discriminate). }
    destruct X as (-> & -> & -> & -> & FR & ->). change (existsb (seqb (L "scc")) (map L ["shp"; "scc"]%string)) with true. cbn match.
    rewrite app_nil_r. rewrite remove_crater_id by (apply crater_free_dot; [exact F|]; intros a b Q; apply (FR ("."%char :: a) b); cbn [app]; now rewrite Q).
    change (n ++ "."%char :: f) with ([] ++ n ++ "."%char :: f). known dir_empty P SF (L "_map"). cbn [bind flat_map].
    assert (E1 : flat_map (piece [] n ("."%char :: f) (L "_map") []) (L "pn1e") = [] ++ (n ++ L "_map") ++ "."%char :: f) by (cbn; now rewrite app_nil_r, <- app_assoc).
    rewrite E1. assert (PM : plain_name (n ++ L "_map")) by (apply Forall_app; split; [exact P|repeat (constructor; [left; reflexivity|]); constructor]).
    known dir_empty PM SF (L ".cs"). cbn [bind]. cbn. rewrite <- !app_assoc. reflexivity.
Qed.

(** ending in a dot and a short word *)
Definition ends (s w : str) : Prop := exists a, s = a ++ "."%char :: w.
Definition known_word (w : str) : Prop := In w (map L ["stat"; "scc"; "shp"; "diam"; "png"; "svg"; "pdf"; "cs"]%string).
Lemma known_short w : known_word w -> short_word w.
Proof. unfold known_word. cbn. intros I. repeat (destruct I as [<-|I]; [split; [cbn; lia|repeat (constructor; [reflexivity|]); constructor]|]). destruct I. Qed.
Lemma ends_differ s t v w : short_word v -> short_word w -> v <> w -> ends s v -> ends t w -> s <> t.
Proof. intros (_ & V) (_ & W) N (a & ->) (b & ->) E. apply last_dot in E as (_ & E); auto. Qed.
Lemma filename_piece o code i x : no_newline o -> (forall c, In c code -> c <> "u"%char /\ c <> "b"%char) -> (In "1"%char code -> no_newline i) -> ~ In "2"%char code ->
  filename o code (Some i) None 4 = Ok x ->
  no_newline x /\ forall w, short_word w -> ends o w -> exists p n, o = p ++ n ++ "."%char :: w /\ x = flat_map (piece p n ("."%char :: w) i []) code.
Proof.
  intros N C NI N2 E. destruct (C25_pieces 4 o N) as (p & n & e & EQ & P1 & P2 & MAX & P3 & H).
  rewrite (H code i [] (Some i) None C) in E by (tauto || contradiction). assert (EX : flat_map (piece p n e i []) code = x) by exact (f_equal (fun r => match r with Ok y => y | Err _ => [] end) E). subst x. split.
  - intros I. apply in_flat_map in I as (c & Ic & I). unfold piece in I. rewrite EQ in N. apply no_newline_app in N as (Np & N). apply no_newline_app in N as (Nn & Ne).
    repeat (destruct (ascii_dec c _) in I; [subst c; first [now apply Np|now apply Nn|now apply Ne|now apply (NI Ic)|destruct I]|]). destruct I.
  - intros w (WL & WW) (a & EA). exists p, n.
    assert (LE : length ("."%char :: w) <= length e) by (apply (MAX a); [exact EA|]; right; exists w; auto).
    destruct P2 as [->|(v & -> & _ & V)]; [cbn in LE; lia|]. change (L "." ++ v) with ("."%char :: v) in *.
    rewrite EA, app_assoc in EQ. destruct (last_dot _ _ _ _ WW V EQ) as (-> & <-). rewrite EA, <- app_assoc. auto.
Qed.
Lemma filename_none o code x : ~ In "1"%char code -> ~ In "2"%char code -> (forall c, In c code -> c <> "u"%char /\ c <> "b"%char) -> no_newline o ->
  filename o code None None 4 = Ok x -> filename o code (Some []) None 4 = Ok x.
Proof.
  intros A B C N E. destruct (C25_pieces 4 o N) as (p & n & e & _ & _ & _ & _ & _ & H).
  rewrite (H code [] [] None None C) in E by (tauto || contradiction). rewrite (H code [] [] (Some []) None C) by (tauto || contradiction). exact E.
Qed.
Lemma filename_nonl o code x : ~ In "1"%char code -> ~ In "2"%char code -> (forall c, In c code -> c <> "u"%char /\ c <> "b"%char) -> no_newline o ->
  filename o code None None 4 = Ok x -> no_newline x.
Proof.
  intros A B C N E. apply filename_none in E; [|exact A|exact B|exact C|exact N].
  destruct (filename_piece o code [] x N C ltac:(intros; contradiction) B E) as (H & _). exact H.
Qed.
Lemma ends_app x w : ends (x ++ "."%char :: w) w. Proof. now exists x. Qed.
(** removing CRATER leaves an extension alone *)
Lemma remove_ends w : (forall c, In c w -> ~ In c (L "CRATER")) -> forall s k, k <= length s -> exists y, remove_crater k (s ++ "."%char :: w) = y ++ "."%char :: w.
Proof.
  intros W. assert (FR : crater_free ("."%char :: w)).
  { apply (crater_free_app_plain [] ("."%char :: w)); [intros a b Q; destruct a; discriminate Q|]. intros c [<-|Hc]; [cbn; intuition discriminate|now apply W]. }
  assert (IN : forall a s, ~ In "."%char a -> starts_with a (s ++ "."%char :: w) = true -> length a <= length s).
  { intros a s NI H. apply starts_app in H as (b & H). destruct (le_lt_dec (length a) (length s)) as [Q|Q]; [exact Q|]. exfalso.
    destruct (app_split _ _ _ _ H (Nat.lt_le_incl _ _ Q)) as (m & -> & E2). destruct m as [|c m]; [rewrite app_nil_r in Q; lia|]. injection E2 as <- _. apply NI, in_or_app. right. now left. }
  induction s as [|c s IH]; intros k K.
  - assert (k = 0) as -> by (cbn in K; lia). exists []. exact (remove_crater_id _ FR).
  - cbn [app]. destruct k as [|k]; [|cbn [remove_crater]; apply IH; cbn in K; lia].
    cbn [remove_crater].
    assert (TL : forall m, 0 < m -> m <= length (c :: s) -> (if starts_with (L "_") (skipn m (c :: s ++ "."%char :: w)) then m else m - 1) <= length s).
    { intros m M0 H. cbn [length] in H. destruct (starts_with (L "_") _) eqn:E; [|lia]. destruct (Nat.eq_dec m (S (length s))) as [->|]; [|lia]. exfalso.
      change (c :: s ++ "."%char :: w) with ((c :: s) ++ "."%char :: w) in E. rewrite skipn_app in E. cbn [length] in E. rewrite Nat.sub_diag in E.
      rewrite skipn_all2 in E by (cbn; lia). discriminate E. }
    destruct (starts_with (L "_CRATER") (c :: s ++ "."%char :: w)) eqn:E1.
    { apply IH, TL; [lia|]. apply (IN (L "_CRATER") (c :: s)); [cbn; intuition discriminate|exact E1]. }
    destruct (starts_with (L "CRATER") (c :: s ++ "."%char :: w)) eqn:E2.
    { apply IH, TL; [lia|]. apply (IN (L "CRATER") (c :: s)); [cbn; intuition discriminate|exact E2]. }
    destruct (IH 0 (Nat.le_0_l _)) as (y & ->). now exists (c :: y).
Qed.
Lemma remove_subset c : forall s k, In c (remove_crater k s) -> In c s.
Proof.
  induction s as [|x s IH]; intros k; [intros []|]. cbn [remove_crater]. destruct k; [|intros H; right; eauto].
  destruct (starts_with (L "_CRATER") (x :: s)); [intros H; right; eauto|]. destruct (starts_with (L "CRATER") (x :: s)); [intros H; right; eauto|].
  intros [<-|H]; [now left|right; eauto].
Qed.

(** a conversion never writes over its source *)
Theorem C93_source_kept :
  forall isdir input fmt src out files said f w, no_newline fmt -> no_newline src -> no_newline out ->
    convert_format isdir input fmt src out = Ok (files, said) -> In (f, w) files -> f <> src.
Proof.
  intros isdir input fmt src out files said f w NF NS NO E I. unfold convert_format in E. set (f1 := lstrip_dots fmt) in *.
  destruct (filename src (L "e") None None 4) as [e0|] eqn:E0; [|discriminate E]. cbn [bind] in E.
  destruct (filename src (L "n") None None 4) as [n|] eqn:En; [|discriminate E]. cbn [bind] in E.
  destruct (outfile isdir n out (L "." ++ f1)) as [o|] eqn:Eo; [|discriminate E]. cbn [bind] in E.
  assert (NN : no_newline n) by (apply (filename_nonl src (L "n") n); [noins|noins|letters|exact NS|exact En]).
  assert (NF1 : no_newline f1).
  { intros Q. apply NF. unfold f1, lstrip_dots in Q. clear -Q. induction fmt as [|c r IH]; [destruct Q|]. cbn [lstrip] in Q. destruct (aeqb c (ch ".")); [right; auto|exact Q]. }
  assert (OE : no_newline o /\ ends o f1).
  { unfold outfile in Eo. destruct (seqb out (L "out")).
    - injection Eo as <-. split; [|now exists n]. apply no_newline_app. split; [exact NN|]. intros [Q|Q]; [discriminate Q|now apply NF1].
    - destruct (isdir out); [injection Eo as <-; split; [|exists (out ++ n); now rewrite <- app_assoc]; apply no_newline_app; split; [exact NO|]; apply no_newline_app; split; [exact NN|]; intros [Q|Q]; [discriminate Q|now apply NF1]|].
      destruct (filename out (L "pn") None None 4) as [pn|] eqn:Ep; [|discriminate Eo]. cbn [bind] in Eo. injection Eo as <-. split; [|now exists pn]. apply no_newline_app. split; [|intros [Q|Q]; [discriminate Q|now apply NF1]].
      apply (filename_nonl out (L "pn") pn); [noins|noins|letters|exact NO|exact Ep]. }
  destruct OE as (NOo & OE).
  (* the extension of the source *)
  assert (SE : forall v, short_word v -> lstrip_dots e0 = v -> v <> [] -> ends src v).
  { intros v SV L0 NV. destruct (C25_pieces 4 src NS) as (p & m & e & EQ & _ & P2 & _ & _ & H). rewrite (H (L "e") [] [] None None) in E0; [|letters|noins|noins].
    cbn in E0. injection E0 as <-. rewrite app_nil_r in L0. destruct P2 as [->|(u & -> & _ & U)]; [contradict NV; now rewrite <- L0|].
    assert (lstrip_dots ("."%char :: u) = u) as LU. { apply (dots_away 1). destruct u as [|c u]; [trivial|]. inversion U as [|? ? Wc _]; subst. intros ->. discriminate Wc. }
    change (L "." ++ u) with ("."%char :: u) in *. rewrite LU in L0. subst v. exists (p ++ m). now rewrite <- app_assoc. }
  assert (KW : forall v, known_word v -> short_word v) by exact known_short.
  assert (CNN : forall cn, count_name src = Ok cn -> no_newline cn).
  { intros cn K. unfold count_name in K. rewrite En, E0 in K. cbn [bind] in K.
    assert (KE : cn = (if seqb e0 (L ".shp") then remove_crater 0 n else n)) by exact (f_equal (fun r => match r with Ok y => y | Err _ => [] end) (eq_sym K)). rewrite KE.
    destruct (seqb e0 (L ".shp")); [intros Q; apply NN; now apply remove_subset in Q|exact NN]. }
  assert (P1E : forall cn x v, no_newline cn -> short_word v -> ends o v -> filename o (L "p1e") (Some cn) None 4 = Ok x -> ends x v).
  { intros cn x v NC SV EV K. destruct (filename_piece o (L "p1e") cn x NOo ltac:(letters) ltac:(auto) ltac:(noins) K) as (_ & K'). clear K. rename K' into K. destruct (K v SV EV) as (p & m & _ & ->). exists (p ++ cn). cbn. now rewrite app_nil_r, <- app_assoc. }
  assert (PN1E : forall cn o x v, no_newline o -> no_newline cn -> short_word v -> ends o v -> filename o (L "pn1e") (Some cn) None 4 = Ok x -> no_newline x /\ ends x v).
  { intros cn o' x v NO' NC SV EV K. destruct (filename_piece o' (L "pn1e") cn x NO' ltac:(letters) ltac:(auto) ltac:(noins) K) as (NX & K'). clear K. rename K' into K. split; [exact NX|]. destruct (K v SV EV) as (p & m & _ & ->). exists (p ++ m ++ cn). cbn. now rewrite app_nil_r, <- !app_assoc. }
  assert (kn : forall v, existsb (seqb v) (map L ["stat"; "scc"; "shp"; "diam"; "png"; "svg"; "pdf"; "cs"]%string) = true -> known_word v).
  { intros v Q. apply existsb_exists in Q as (x & Ix & Q). destruct (seqb_spec v x) as [->|]; [exact Ix|discriminate]. }
  destruct (seqb_spec f1 (L "stat")) as [F1|N1]; cbn [andb] in E.
  - rewrite F1 in *. change (seqb (L "stat") (L "scc")) with false in E. change (seqb (L "stat") (L "shp")) with false in E. change (existsb (seqb (L "stat")) (map L ["png"; "svg"; "pdf"]%string)) with false in E.
    destruct (existsb (seqb (lstrip_dots e0)) (map L ["diam"; "scc"; "shp"]%string)) eqn:EE; [|injection E as <- _; destruct I].
    destruct (count_name src) as [cn|] eqn:Ec; [|discriminate E]. cbn [bind] in E. destruct (filename o (L "p1e") (Some cn) None 4) as [x|] eqn:Ex; [|discriminate E]. cbn [bind] in E.
    injection E as <- _. destruct I as [I|[]]. injection I as <- _.
    apply existsb_exists in EE as (v & Iv & Ev). destruct (seqb_spec (lstrip_dots e0) v) as [EV|]; [|discriminate].
    eapply (ends_differ x src (L "stat") v); [apply KW, kn; reflexivity|apply KW; cbn in Iv |-*; intuition| |apply (P1E cn); [auto|apply KW, kn; reflexivity|exact OE|exact Ex]|apply SE; [apply KW; cbn in Iv |-*; intuition|exact EV|]]; clear -Iv; cbn in Iv; destruct Iv as [<-|[<-|[<-|[]]]]; discriminate.
  - destruct (seqb_spec f1 (L "scc")) as [F1|N2].
    + rewrite F1 in *. destruct (seqb_spec (lstrip_dots e0) (L "shp")) as [EV|]; [|injection E as <- _; destruct I].
      destruct (count_name src) as [cn|] eqn:Ec; [|discriminate E]. cbn [bind] in E. destruct (filename o (L "p1e") (Some cn) None 4) as [x|] eqn:Ex; [|discriminate E]. cbn [bind] in E.
      injection E as <- _. destruct I as [I|[]]. injection I as <- _.
      apply (ends_differ x src (L "scc") (L "shp")); [apply KW, kn; reflexivity|apply KW, kn; reflexivity|discriminate|apply (P1E cn); [auto|apply KW, kn; reflexivity|exact OE|exact Ex]|apply SE; [apply KW, kn; reflexivity|exact EV|discriminate]].
    + destruct (seqb_spec f1 (L "shp")) as [F1|N3].
      * rewrite F1 in *. destruct (seqb_spec (lstrip_dots e0) (L "scc")) as [EV|]; [|injection E as <- _; destruct I].
        destruct (filename o (L "pn1e") (Some (L "_CRATER")) None 4) as [x|] eqn:Ex; [|discriminate E]. cbn [bind] in E.
        destruct (filename o (L "pn1e") (Some (L "_AREA")) None 4) as [y|] eqn:Ey; [|discriminate E]. cbn [bind] in E. injection E as <- _.
        assert (Q : exists i, no_newline i /\ filename o (L "pn1e") (Some i) None 4 = Ok f) by (destruct I as [I|[I|[]]]; injection I as <- _; eexists; (split; [|eassumption]); noins).
        destruct Q as (i & Ni & Q).
        apply (ends_differ f src (L "shp") (L "scc")); [apply KW, kn; reflexivity|apply KW, kn; reflexivity|discriminate|apply (PN1E i o f (L "shp")); auto; apply KW, kn; reflexivity|apply SE; [apply KW, kn; reflexivity|exact EV|discriminate]].
      * destruct (existsb (seqb f1) (map L ["png"; "svg"; "pdf"]%string)) eqn:EI; [|injection E as <- _; destruct I].
        destruct (existsb (seqb (lstrip_dots e0)) (map L ["shp"; "scc"]%string)) eqn:EE; [|injection E as <- _; destruct I].
        apply existsb_exists in EE as (v & Iv & Ev). destruct (seqb_spec (lstrip_dots e0) v) as [EV|]; [|discriminate].
        apply existsb_exists in EI as (u & Iu & Eu). destruct (seqb_spec f1 u) as [EU|]; [|discriminate]. rewrite EU in *. clear EU Eu Ev.
        assert (KU : known_word u) by (cbn in Iu |-*; intuition). assert (KV : known_word v) by (cbn in Iv |-*; intuition).
        assert (ER : ends (remove_crater 0 o) u).
        { destruct OE as (a & ->). destruct (remove_ends u) with (s := a) (k := 0) as (y & ->); [|lia|now exists y]. intros c Hc. cbn in Iu. destruct Iu as [<-|[<-|[<-|[]]]]; cbn in Hc; cbn; intuition (subst; discriminate). }
        assert (NR : no_newline (remove_crater 0 o)) by (intros Q; apply NOo; now apply remove_subset in Q).
        assert (FIN : forall x t, known_word t -> ends x t -> t <> v -> x <> src).
        { intros x t KT ET NT. apply (ends_differ x src t v); auto. apply SE; auto. clear -Iv. intros ->. cbn in Iv. destruct Iv as [Q|[Q|[]]]; discriminate Q. }
        destruct input.
        { injection E as <- _. destruct I as [I|[]]. injection I as <- _. apply (FIN _ u); auto. clear -Iu Iv. cbn in Iu, Iv. intros ->. destruct Iu as [<-|[<-|[<-|[]]]]; destruct Iv as [Q|[Q|[]]]; discriminate Q. }
        destruct (filename (remove_crater 0 o) (L "pn1e") (Some (L "_map")) None 4) as [x|] eqn:Ex; [|discriminate E]. cbn [bind] in E.
        destruct (filename x (L "pn1") (Some (L ".cs")) None 4) as [y|] eqn:Ey; [|discriminate E]. cbn [bind] in E. injection E as <- _.
        destruct (PN1E (L "_map") _ _ u NR ltac:(noins) (KW _ KU) ER Ex) as (NX & EX).
        destruct I as [I|[I|[]]]; injection I as <- _.
        { destruct (filename_piece x (L "pn1") (L ".cs") y NX ltac:(letters) ltac:(intros _; noins) ltac:(noins) Ey) as (_ & K). destruct (K u (KW _ KU) EX) as (p & m & _ & ->).
          apply (FIN _ (L "cs")); [apply kn; reflexivity|exists (p ++ m); cbn; now rewrite <- app_assoc|]. clear -Iv. cbn in Iv. intros <-. destruct Iv as [Q|[Q|[]]]; discriminate Q. }
        { apply (FIN _ u); auto. clear -Iu Iv. cbn in Iu, Iv. intros ->. destruct Iu as [<-|[<-|[<-|[]]]]; destruct Iv as [Q|[Q|[]]]; discriminate Q. }
Qed.

Lemma tables fmt e tag : conversion fmt e tag -> In fmt images ->
  seqb fmt (L "stat") = false /\ seqb fmt (L "scc") = false /\ seqb fmt (L "shp") = false /\ existsb (seqb fmt) (map L ["png"; "svg"; "pdf"]%string) = true /\
  existsb (seqb e) (map L ["shp"; "scc"]%string) = true /\ crater_free ("."%char :: fmt) /\ crater_free fmt /\
  forall d m, products d m fmt = [(d ++ m ++ L "_map.cs", Commands); (d ++ m ++ L "_map." ++ fmt, Map)].
Proof.
  intros C I. assert (E : existsb (seqb e) (map L ["shp"; "scc"]%string) = true) by (destruct C; first [reflexivity|cbn in I; exfalso; repeat (destruct I as [I|I]; [discriminate I|]); destruct I]). rewrite E. clear C E.
  assert (Q : crater_free []) by (intros a b Q; destruct a; discriminate Q).
  cbn in I. destruct I as [<-|[<-|[<-|[]]]]; repeat (split; [reflexivity|]); (split; [apply (crater_free_app_plain [] ("."%char :: _) Q); intros c Hc; cbn in Hc; cbn; intuition (subst; discriminate)|]);
    (split; [apply (crater_free_app_plain [] (_ :: _) Q); intros c Hc; cbn in Hc; cbn; intuition (subst; discriminate)|]); intros; reflexivity.
Qed.
Lemma user_outfile isdir d m n ext : directory d -> plain_name m -> ~ In "."%char m -> d ++ m <> L "out" -> isdir (d ++ m) = false -> outfile isdir n (d ++ m) ext = Ok (d ++ m ++ ext).
Proof.
  intros D P ND NO NI. unfold outfile. destruct (seqb_spec (d ++ m) (L "out")) as [E|_]; [contradiction|]. rewrite NI.
  rewrite (filename_bare d m (L "pn") [] [] None None D P ND); [|letters|noins|noins]. cbn. now rewrite app_nil_r, <- app_assoc.
Qed.
Lemma user_setup isdir input dir n tag e fmt d m :
  directory dir -> plain_name n -> conversion fmt e tag -> directory d -> plain_name m -> ~ In "."%char m -> d ++ m <> L "out" -> isdir (d ++ m) = false ->
  convert_format isdir input fmt (dir ++ n ++ tag ++ "."%char :: e) (d ++ m) =
  (let src := dir ++ n ++ tag ++ "."%char :: e in let o := d ++ m ++ "."%char :: fmt in
   if seqb fmt (L "stat") && existsb (seqb e) (map L ["diam"; "scc"; "shp"]%string) then
     do! cn <- count_name src; do! o <- filename o (L "p1e") (Some cn) None 4; Ok ([(o, Statistics)], true)
   else if seqb fmt (L "scc") then
     if seqb e (L "shp") then do! cn <- count_name src; do! o <- filename o (L "p1e") (Some cn) None 4; Ok ([(o, Scc)], true) else Ok ([], true)
   else if seqb fmt (L "shp") then
     if seqb e (L "scc") then
       do! c <- filename o (L "pn1e") (Some (L "_CRATER")) None 4; do! a <- filename o (L "pn1e") (Some (L "_AREA")) None 4; Ok ([(c, CraterShapes); (a, AreaShapes)], true)
     else Ok ([], true)
   else if existsb (seqb fmt) (map L ["png"; "svg"; "pdf"]%string) then
     if existsb (seqb e) (map L ["shp"; "scc"]%string) then
       let o := remove_crater 0 o in
       if input then Ok ([(o, Map)], true)
       else do! o <- filename o (L "pn1e") (Some (L "_map")) None 4; do! c <- filename o (L "pn1") (Some (L ".cs")) None 4; Ok ([(c, Commands); (o, Map)], true)
     else Ok ([], true)
   else Ok ([], false)).
Proof.
  intros D P C D2 P2 ND NO NI. destruct (tag_plain _ _ _ C) as (PT & SE & SF & NF & NE). destruct (source_name dir n tag e D P PT SE) as (A & B).
  unfold convert_format. assert (LF : lstrip_dots fmt = fmt) by (apply (dots_away 0); destruct fmt; [trivial|eapply NF; reflexivity]). rewrite LF, A, B. cbn [bind].
  assert (LE : lstrip_dots ("."%char :: e) = e) by (apply (dots_away 1); destruct e; [trivial|eapply NE; reflexivity]). rewrite LE.
  rewrite user_outfile by assumption. reflexivity.
Qed.
(** with -o, shapes and maps get that name *)
Theorem C93_named_by_the_user :
  forall isdir dir n tag e fmt d m, directory dir -> plain_name n -> conversion fmt e tag ->
    fmt = L "shp" \/ In fmt images /\ crater_free (d ++ m) ->
    directory d -> plain_name m -> ~ In "."%char m -> d ++ m <> L "out" -> isdir (d ++ m) = false ->
    convert_format isdir false fmt (dir ++ n ++ tag ++ "."%char :: e) (d ++ m) = Ok (products d m fmt, true).
Proof.
  intros isdir dir n tag e fmt d m D P C K D2 P2 ND NO NI. rewrite user_setup by assumption. cbv zeta. destruct (tag_plain _ _ _ C) as (PT & SE & SF & _).
  destruct K as [->|(I & F)].
  - assert (e = L "scc") as ->. { clear -C. inversion C as [| | | | |f I|f I]; try reflexivity. subst. cbn in I. repeat (destruct I as [I|I]; [discriminate I|]). destruct I. }
    change (seqb (L "shp") (L "stat") && existsb (seqb (L "scc")) (map L ["diam"; "scc"; "shp"]%string)) with false. change (seqb (L "shp") (L "scc")) with false. change (seqb (L "shp") (L "shp")) with true. change (seqb (L "scc") (L "scc")) with true. cbn match.
    known D2 P2 SF (L "_CRATER"). cbn [bind]. known D2 P2 SF (L "_AREA"). cbn [bind].
    change (products d m (L "shp")) with [(d ++ m ++ L "_CRATER.shp", CraterShapes); (d ++ m ++ L "_AREA.shp", AreaShapes)]. reflexivity.
  - destruct (tables _ _ _ C I) as (-> & -> & -> & -> & -> & FR & FR2 & ->). cbn [andb]. cbn match.
    rewrite app_assoc, remove_crater_id by now apply crater_free_dot. rewrite <- app_assoc. known D2 P2 SF (L "_map"). cbn [bind].
    assert (E1 : flat_map (piece d m ("."%char :: fmt) (L "_map") []) (L "pn1e") = d ++ (m ++ L "_map") ++ "."%char :: fmt) by (cbn; now rewrite app_nil_r, <- app_assoc).
    rewrite E1. assert (PM : plain_name (m ++ L "_map")) by (apply Forall_app; split; [exact P2|repeat (constructor; [left; reflexivity|]); constructor]).
    known D2 PM SF (L ".cs"). cbn [bind]. cbn. rewrite <- !app_assoc. reflexivity.
Qed.
(** statistics and scc files are put in the directory of -o, but under the name of the source: the name of -o is not used *)
Theorem C93_user_name_ignored_refuted :
  forall isdir dir n tag e fmt d m, directory dir -> plain_name n -> crater_free n -> conversion fmt e tag -> fmt = L "stat" \/ fmt = L "scc" ->
    directory d -> plain_name m -> ~ In "."%char m -> d ++ m <> L "out" -> isdir (d ++ m) = false ->
    convert_format isdir false fmt (dir ++ n ++ tag ++ "."%char :: e) (d ++ m) = Ok (products d n fmt, true).
Proof.
  intros isdir dir n tag e fmt d m D P F C K D2 P2 ND NO NI. rewrite user_setup by assumption. cbv zeta. destruct (tag_plain _ _ _ C) as (PT & SE & SF & _).
  rewrite (count_name_ok dir n tag e fmt C D P F). cbn [bind]. known D2 P2 SF n. cbn [bind].
  assert (E1 : flat_map (piece d m ("."%char :: fmt) n []) (L "p1e") = d ++ n ++ "."%char :: fmt) by (cbn; now rewrite app_nil_r). rewrite E1.
  destruct K as [->| ->].
  - assert (existsb (seqb e) (map L ["diam"; "scc"; "shp"]%string) = true) as -> by (clear -C; inversion C as [| | | | |f I|f I]; subst; try reflexivity; cbn in I; repeat (destruct I as [I|I]; [discriminate I|]); destruct I).
    reflexivity.
  - assert (e = L "shp") as -> by (clear -C; inversion C as [| | | | |f I|f I]; subst; try reflexivity; cbn in I; repeat (destruct I as [I|I]; [discriminate I|]); destruct I).
    reflexivity.
Qed.
(** the conversions there are not: nothing is written, although for the formats in the last column the program says that it was *)
Theorem C93_no_such_conversion :
  forall isdir dir n e fmt, directory dir -> plain_name n -> short_word e -> ~ In "."%char e -> (forall tag, ~ conversion fmt e tag) -> match fmt with c :: _ => c <> "."%char | [] => True end ->
    convert_format isdir false fmt (dir ++ n ++ "."%char :: e) (L "out") = Ok ([], if in_dec (list_eq_dec ascii_dec) fmt (L "scc" :: L "shp" :: images) then true else false).
Proof.
  intros isdir dir n e fmt D P SE NE NC NF. destruct (source_name dir n [] e D P ltac:(constructor) SE) as (A & B). cbn [app] in A, B.
  unfold convert_format. assert (LF : lstrip_dots fmt = fmt) by now apply (dots_away 0). rewrite LF, A, B. cbn [bind].
  assert (LE : lstrip_dots ("."%char :: e) = e) by (apply (dots_away 1); destruct e as [|c e]; [trivial|intros ->; apply NE; now left]). rewrite LE.
  unfold outfile. change (seqb (L "out") (L "out")) with true. cbn match. cbn [bind].
  destruct (seqb_spec fmt (L "stat")) as [->|N1]; cbn [andb].
  - destruct (existsb (seqb e) (map L ["diam"; "scc"; "shp"]%string)) eqn:EE.
    + exfalso. apply existsb_exists in EE as (v & Iv & Ev). destruct (seqb_spec e v) as [->|]; [|discriminate]. cbn in Iv. destruct Iv as [<-|[<-|[<-|[]]]]; eapply NC; constructor.
    + reflexivity.
  - destruct (seqb_spec fmt (L "scc")) as [->|N2].
    + destruct (seqb_spec e (L "shp")) as [->|]; [exfalso; eapply NC; constructor|reflexivity].
    + destruct (seqb_spec fmt (L "shp")) as [->|N3].
      * destruct (seqb_spec e (L "scc")) as [->|]; [exfalso; eapply NC; constructor|reflexivity].
      * destruct (existsb (seqb fmt) (map L ["png"; "svg"; "pdf"]%string)) eqn:EI.
        { apply existsb_exists in EI as (v & Iv & Ev). destruct (seqb_spec fmt v) as [->|]; [|discriminate]. change (In v images) in Iv.
          destruct (existsb (seqb e) (map L ["shp"; "scc"]%string)) eqn:EE.
          - exfalso. apply existsb_exists in EE as (u & Iu & Eu). destruct (seqb_spec e u) as [->|]; [|discriminate]. cbn in Iu. destruct Iu as [<-|[<-|[]]]; eapply NC; constructor; exact Iv.
          - destruct (in_dec (list_eq_dec ascii_dec) v (L "scc" :: L "shp" :: images)) as [|K]; [reflexivity|]. exfalso. apply K. right. now right. }
        { destruct (in_dec (list_eq_dec ascii_dec) fmt (L "scc" :: L "shp" :: images)) as [[K|[K|K]]|]; [now symmetry in K|now symmetry in K| |reflexivity]. exfalso.
          assert (existsb (seqb fmt) (map L ["png"; "svg"; "pdf"]%string) = true) as Q by (apply existsb_exists; exists fmt; split; [exact K|apply seqb_refl]). congruence. }
Qed.
(** a map from a directory whose name contains CRATER is put elsewhere *)
Theorem C93_directories_changed_refuted :
  convert_format (fun _ => false) false (L "png") (L "a.scc") (L "CRATERS/a") = Ok ([(L "S/a_map.cs", Commands); (L "S/a_map.png", Map)], true).
Proof. vm_compute. reflexivity. Qed.
(** running the command file of a map made without -o (its name is then the default name of the output) makes the same map again *)
Theorem C93_map_repeated :
  forall isdir dir n tag e fmt, directory dir -> plain_name n -> crater_free n -> conversion fmt e tag -> In fmt images -> ~ In "."%char n -> isdir (n ++ L "_map") = false ->
    exists cs map, convert_format isdir false fmt (dir ++ n ++ tag ++ "."%char :: e) (L "out") = Ok ([(cs, Commands); (map, Map)], true) /\
      default_filename (Some cs) (L "map") [] [] [] = Ok (n ++ L "_map") /\
      convert_format isdir true fmt (dir ++ n ++ tag ++ "."%char :: e) (n ++ L "_map") = Ok ([(map, Map)], true).
Proof.
  intros isdir dir n tag e fmt D P F C I ND NI. exists (n ++ L "_map.cs"), (n ++ L "_map." ++ fmt).
  pose proof (C93_named_after_the_source isdir dir n tag e fmt 0 D P F C) as Q. destruct (tables _ _ _ C I) as (T1 & T2 & T3 & T4 & T5 & FR & FR2 & T6). rewrite T6 in Q. split; [exact Q|].
  assert (PM : plain_name (n ++ L "_map")) by (apply Forall_app; split; [exact P|repeat (constructor; [left; reflexivity|]); constructor]).
  assert (NDM : ~ In "."%char (n ++ L "_map")) by (intros H; apply in_app_or in H as [H|H]; [contradiction|revert H; noins]).
  destruct (tag_plain _ _ _ C) as (PT & SE & SF & _). split.
  - cbn [default_filename]. change (n ++ L "_map.cs") with ([] ++ n ++ L "_map" ++ "."%char :: L "cs"). rewrite (app_assoc n).
    assert (SC : short_word (L "cs")) by (split; [cbn; lia|repeat (constructor; [reflexivity|]); constructor]).
    known dir_empty PM SC (@nil ascii). cbn. now rewrite app_nil_r.
  - change (n ++ L "_map") with ([] ++ n ++ L "_map") at 1.
    rewrite (user_setup isdir true dir n tag e fmt [] (n ++ L "_map")); auto; [|exact dir_empty|].
    + cbv zeta. rewrite T1, T2, T3, T4, T5. cbn [andb]. cbn match. cbn [app]. rewrite remove_crater_id; [now rewrite <- app_assoc|].
      apply crater_free_dot; [|exact FR2]. apply crater_free_app_plain; [exact F|]. intros c Hc. cbn in Hc. cbn. intuition (subst; discriminate).
    + cbn [app]. intros E. assert (L1 : rev (n ++ L "_map") = rev (L "out")) by now rewrite E. rewrite rev_app_distr in L1. discriminate L1.
Qed.
(** but of one made with -o it makes another file *)
Theorem C93_map_repeated_refuted :
  convert_format (fun _ => false) false (L "png") (L "a.scc") (L "b") = Ok ([(L "b_map.cs", Commands); (L "b_map.png", Map)], true) /\
  convert_format (fun _ => false) true (L "png") (L "a.scc") (L "b") = Ok ([(L "b.png", Map)], true).
Proof. split; vm_compute; reflexivity. Qed.
Lemma area_id s : crater_free s -> crater_to_area 0 s = s.
Proof.
  induction s as [|c s IH]; intros F; [reflexivity|]. destruct (straddle_end _ F) as (A & _). cbn [crater_to_area]. rewrite A. f_equal. apply IH. now apply crater_free_tail in F.
Qed.
Lemma area_tag s : crater_free s -> crater_to_area 0 (s ++ L "_CRATER") = s ++ L "_AREA".
Proof.
  intros F. induction s as [|c s IH]; [reflexivity|]. cbn [app].
  assert (A : starts_with (L "CRATER") ((c :: s) ++ "_"%char :: L "CRATER") = false) by (apply straddle; [exact F|discriminate|now left]).
  cbn [crater_to_area]. change (L "_CRATER") with ("_"%char :: L "CRATER") in IH |- *. cbn [app] in A. rewrite A. f_equal. apply IH. now apply crater_free_tail in F.
Qed.
(** the two shapefiles that a conversion writes are found again when the file of the craters is read *)
Theorem C93_shapes_found_again :
  forall isdir dir n d m, directory dir -> plain_name n -> directory d -> plain_name m -> crater_free m -> ~ In "."%char m -> d ++ m <> L "out" -> isdir (d ++ m) = false ->
    exists craters areas, convert_format isdir false (L "shp") (dir ++ n ++ L ".scc") (d ++ m) = Ok ([(craters, CraterShapes); (areas, AreaShapes)], true) /\
      area_file craters = Ok areas /\ count_name craters = Ok m.
Proof.
  intros isdir dir n d m D P D2 P2 F ND NO NI. exists (d ++ m ++ L "_CRATER.shp"), (d ++ m ++ L "_AREA.shp").
  assert (SW : short_word (L "shp")) by (split; [cbn; lia|repeat (constructor; [reflexivity|]); constructor]).
  assert (PM : plain_name (m ++ L "_CRATER")) by (apply Forall_app; split; [exact P2|repeat (constructor; [left; reflexivity|]); constructor]).
  split; [exact (C93_named_by_the_user isdir dir n [] (L "scc") (L "shp") d m D P Cshp (or_introl eq_refl) D2 P2 ND NO NI)|].
  split; [|exact (count_name_ok d m (L "_CRATER") (L "shp") (L "stat") Cstat_shp D2 P2 F)].
  unfold area_file. change (d ++ m ++ L "_CRATER.shp") with (d ++ m ++ L "_CRATER" ++ "."%char :: L "shp"). rewrite (app_assoc m).
  known D2 PM SW (@nil ascii). cbn [bind].
  assert (E1 : flat_map (piece d (m ++ L "_CRATER") ("."%char :: L "shp") [] []) (L "n") = m ++ L "_CRATER") by (cbn; now rewrite app_nil_r). rewrite E1, (area_tag m F).
  known D2 PM SW (m ++ L "_AREA"). f_equal.
  assert (E2 : forall i, flat_map (piece d (m ++ L "_CRATER") ("."%char :: L "shp") i []) (L "p1e") = d ++ i ++ L ".shp") by (intros i; cbn; reflexivity).
  rewrite E2, <- app_assoc. reflexivity.
Qed.
Lemma crater_no_overlap a b : crater_free a -> a <> [] -> starts_with (L "CRATER") (a ++ L "CRATER" ++ b) = false.
Proof.
  intros F N. destruct (starts_with (L "CRATER") (a ++ L "CRATER" ++ b)) eqn:E; [|reflexivity]. exfalso. apply starts_app in E as (x & E).
  destruct (le_lt_dec (length (L "CRATER")) (length a)) as [H|H].
  - destruct (app_split _ _ _ _ (eq_sym E) H) as (m & -> & _). apply (F [] m). reflexivity.
  - cbn in H. destruct a as [|a1 [|a2 [|a3 [|a4 [|a5 [|a6 a]]]]]]; try (cbn in H; lia); try contradiction; cbn in E; discriminate E.
Qed.
Lemma area_inside a b : crater_free a -> crater_free b -> crater_to_area 0 (a ++ L "CRATER" ++ b) = a ++ L "AREA" ++ b.
Proof.
  intros F G. induction a as [|c a IH].
  - cbn [app]. rewrite <- (area_id b G) at 2. reflexivity.
  - pose proof (crater_no_overlap (c :: a) b F ltac:(discriminate)) as A. cbn [app] in A |- *. cbn [crater_to_area]. rewrite A. f_equal. apply IH. now apply crater_free_tail in F.
Qed.
(** the outlines are sought under the name in which CRATER is replaced by AREA, in the directory of the craters *)
Theorem C93_area_file :
  forall dir a b e, directory dir -> plain_name (a ++ L "CRATER" ++ b) -> crater_free a -> crater_free b -> short_word e ->
    area_file (dir ++ (a ++ L "CRATER" ++ b) ++ "."%char :: e) = Ok (dir ++ (a ++ L "AREA" ++ b) ++ "."%char :: e).
Proof.
  intros dir a b e D P F G SW. unfold area_file. set (n := a ++ L "CRATER" ++ b) in *. known D P SW (@nil ascii). cbn [bind].
  assert (E1 : flat_map (piece dir n ("."%char :: e) [] []) (L "n") = n) by (cbn; now rewrite app_nil_r). rewrite E1. unfold n at 2. rewrite (area_inside a b F G).
  known D P SW (a ++ L "AREA" ++ b). f_equal. cbn. now rewrite app_nil_r.
Qed.
(** a file without CRATER in its name is taken for the file of its own outlines *)
Theorem C93_untagged_shapes_refuted :
  forall dir n, directory dir -> plain_name n -> crater_free n -> area_file (dir ++ n ++ L ".shp") = Ok (dir ++ n ++ L ".shp").
Proof.
  intros dir n D P F. assert (SW : short_word (L "shp")) by (split; [cbn; lia|repeat (constructor; [reflexivity|]); constructor]).
  unfold area_file. change (dir ++ n ++ L ".shp") with (dir ++ n ++ "."%char :: L "shp"). known D P SW (@nil ascii). cbn [bind].
  assert (E1 : flat_map (piece dir n ("."%char :: L "shp") [] []) (L "n") = n) by (cbn; now rewrite app_nil_r). rewrite E1, (area_id n F).
  known D P SW n. f_equal.
Qed.
Example C93_hypotheses_met :
  directory (L "data/") /\ plain_name (L "Pickering") /\ crater_free (L "Pickering") /\ conversion (L "png") (L "shp") (L "_CRATER") /\
  convert_format (fun _ => false) false (L ".png") (L "data/Pickering_CRATER.shp") (L "out") = Ok ([(L "Pickering_map.cs", Commands); (L "Pickering_map.png", Map)], true) /\
  convert_format (fun _ => false) false (L "scc") (L "data/Pickering_CRATER.shp") (L "b/c") = Ok ([(L "b/Pickering.scc", Scc)], true) /\
  (forall tag, ~ conversion (L "scc") (L "scc") tag) /\
  convert_format (fun _ => false) false (L "scc") (L "a.scc") (L "out") = Ok ([], true) /\
  convert_format (fun _ => false) false (L "txt") (L "a.scc") (L "out") = Ok ([], false).
Proof.
  split; [split; [noins|right; exists (L "data"), "/"%char; auto]|]. split; [repeat (constructor; [left; reflexivity|]); constructor|].
  split; [intros a b E; assert (In "C"%char (a ++ L "CRATER" ++ b)) as H by (apply in_or_app; right; now left); rewrite <- E in H; revert H; noins|].
  split; [apply Cmap_shp; now left|]. split; [vm_compute; reflexivity|]. split; [vm_compute; reflexivity|].
  split; [intros tag C; inversion C as [| | | | |f I|f I]; subst; cbn in I; repeat (destruct I as [I|I]; [discriminate I|]); destruct I|]. split; vm_compute; reflexivity.
Qed.

Print Assumptions C93_named_after_the_source.
Print Assumptions C93_source_kept.
Print Assumptions C93_named_by_the_user.
Print Assumptions C93_user_name_ignored_refuted.
Print Assumptions C93_no_such_conversion.
Print Assumptions C93_directories_changed_refuted.
Print Assumptions C93_map_repeated.
Print Assumptions C93_map_repeated_refuted.
Print Assumptions C93_shapes_found_again.
Print Assumptions C93_area_file.
Print Assumptions C93_untagged_shapes_refuted.

(** ** C94 *)
Definition command_file (d : deed) : Prop := match d with CommandFile _ _ => True | _ => False end.
Definition a_file (d : deed) : Prop := match d with CommandFile _ _ | Output _ _ | Conversion _ _ => True | _ => False end.
Definition outputs (l : list (str * drawing)) : list deed := map (fun f => Output (fst f) (snd f)) l.
(** nothing else is asked for than diagrams *)
Definition plots_only (o : options) : Prop :=
  op_icon o = false /\ op_functions_user o = [] /\ op_lcs o = false /\ op_lpc o = false /\ op_about o = false /\ op_version o = false /\ op_merge o = false /\ op_demo o = false /\ op_convert o = None.
Lemma write_all save l : (forall f, In f l -> save f = None) -> write_until save l = (outputs l, None).
Proof. induction l as [|f l IH]; intros H; [reflexivity|]. cbn [write_until outputs map]. rewrite (H f) by now left. rewrite IH by (intros; apply H; now right). reflexivity. Qed.
Lemma write_some save a f b x : (forall g, In g a -> save g = None) -> save f = Some x -> write_until save (a ++ f :: b) = (outputs a, Some x).
Proof. induction a as [|g a IH]; intros H S1; cbn [app write_until outputs map]; [now rewrite S1|]. rewrite (H g) by now left. rewrite IH by (auto; intros; apply H; now right). reflexivity. Qed.
Definition files_of (ps : plotset) : list (str * drawing) := o_files (write_output_files (ps_pres ps) (ps_ra ps) (ps_measures ps) (ps_select ps) (ps_out ps) (ps_formats ps)).
Definition name_of (ps : plotset) : str := o_name (write_output_files (ps_pres ps) (ps_ra ps) (ps_measures ps) (ps_select ps) (ps_out ps) (ps_formats ps)).
Lemma plots_main isdir setf merge demo ps save o args0 c : plots_only o -> ps_scale ps = None -> cs_content args0 = Ok c ->
  main isdir None setf merge demo (Ok ps) save o args0 =
  match write_until save (files_of ps) with (ds, Some x) => (ds, Some x) | (ds, None) => (ds ++ (if op_input o then [] else [CommandFile (name_of ps ++ L ".cs") c]), None) end.
Proof.
  intros (H1 & H2 & H3 & H4 & H5 & H6 & H7 & H8 & H9) SC EC. unfold main. rewrite H1, H2, H3, H4, H5, H6, H7, H8, H9, SC, EC. cbn [seqb negb]. reflexivity.
Qed.
(** a run that succeeds makes all its outputs, and then keeps the command line, unless that came from a file *)
Theorem C94_complete_run :
  forall isdir setf merge demo ps save o args0 c, plots_only o -> ps_scale ps = None -> cs_content args0 = Ok c -> (forall f, In f (files_of ps) -> save f = None) ->
    main isdir None setf merge demo (Ok ps) save o args0 = (outputs (files_of ps) ++ (if op_input o then [] else [CommandFile (name_of ps ++ L ".cs") c]), None).
Proof. intros isdir setf merge demo ps save o args0 c P SC EC H. rewrite (plots_main _ _ _ _ _ _ _ _ c) by assumption. now rewrite write_all. Qed.
(** when an output cannot be made, those before it stay, those after it and the command file are not made *)
Theorem C94_failed_output :
  forall isdir setf merge demo ps save o args0 c a f b x, plots_only o -> ps_scale ps = None -> cs_content args0 = Ok c ->
    files_of ps = a ++ f :: b -> (forall g, In g a -> save g = None) -> save f = Some x ->
    main isdir None setf merge demo (Ok ps) save o args0 = (outputs a, Some x).
Proof. intros isdir setf merge demo ps save o args0 c a f b x P SC EC E H S1. rewrite (plots_main _ _ _ _ _ _ _ _ c) by assumption. rewrite E, (write_some save a f b x); auto. Qed.
(** so whenever a command file is there after a run for diagrams, every output is there, and it holds the command line *)
Theorem C94_command_file_last :
  forall isdir fns setf merge demo settings save o args0 deeds e f c, op_convert o = None ->
    main isdir fns setf merge demo settings save o args0 = (deeds, e) -> In (CommandFile f c) deeds ->
    e = None /\ op_input o = false /\ cs_content args0 = Ok c /\
    exists ps, settings = Ok ps /\ f = name_of ps ++ L ".cs" /\ deeds = outputs (files_of ps) ++ [CommandFile f c].
Proof.
  intros isdir fns setf merge demo settings save o args0 deeds e f c NC M I. unfold main in M.
  assert (NO : forall x, In (CommandFile f c) (outputs x) -> False) by (intros x Q; apply in_map_iff in Q as (y & Q & _); discriminate Q).
  destruct (op_icon o); [injection M as <- <-; destruct I as [I|[]]; discriminate I|]. destruct fns as [x|]; [injection M as <- <-; destruct I|].
  destruct (negb (seqb (op_functions_user o) [])); [destruct (setf _); injection M as <- <-; repeat (destruct I as [I|I]; [discriminate I|]); destruct I|].
  destruct (op_lcs o); [injection M as <- <-; destruct I as [I|[]]; discriminate I|]. destruct (op_lpc o); [injection M as <- <-; destruct I as [I|[]]; discriminate I|].
  destruct (op_about o); [injection M as <- <-; destruct I as [I|[]]; discriminate I|]. destruct (op_version o); [injection M as <- <-; destruct I as [I|[]]; discriminate I|].
  destruct (op_merge o); [destruct merge; injection M as <- <-; repeat (destruct I as [I|I]; [discriminate I|]); destruct I|].
  destruct (op_demo o); [destruct demo; injection M as <- <-; repeat (destruct I as [I|I]; [discriminate I|]); destruct I|].
  destruct settings as [ps|x]; [|injection M as <- <-; destruct I]. destruct (cs_content args0) as [cc|x] eqn:EC; [|injection M as <- <-; destruct I]. rewrite NC in M.
  destruct (ps_scale ps); [injection M as <- <-; destruct I|]. change (o_files (write_output_files _ _ _ _ _ _)) with (files_of ps) in M. change (o_name (write_output_files _ _ _ _ _ _)) with (name_of ps) in M.
  assert (W : forall l ds x, write_until save l = (ds, x) -> (x = None -> ds = outputs l) /\ ~ In (CommandFile f c) ds).
  { induction l as [|y l IH]; cbn [write_until]; intros ds x Q; [injection Q as <- <-; split; [reflexivity|intros []]|].
    destruct (save y); [injection Q as <- <-; split; [discriminate|intros []]|]. destruct (write_until save l) as (d1 & x1) eqn:Q1. injection Q as <- <-. destruct (IH _ _ eq_refl) as (A & B).
    split; [intros ->; cbn [outputs map]; f_equal; now apply A|]. intros [Q|Q]; [discriminate Q|contradiction]. }
  destruct (write_until save (files_of ps)) as (ds & [x|]) eqn:Q; destruct (W _ _ _ Q) as (A & B); injection M as <- <-; [contradiction|].
  destruct (op_input o); [rewrite app_nil_r in I; contradiction|]. apply in_app_or in I as [I|[I|[]]]; [contradiction|].
  pose proof (f_equal (fun d => match d with CommandFile g _ => g | _ => [] end) I) as IF. pose proof (f_equal (fun d => match d with CommandFile _ g => g | _ => [] end) I) as IC.
  cbv beta iota in IF, IC. subst cc.
  split; [reflexivity|]. split; [reflexivity|]. split; [reflexivity|]. exists ps. split; [reflexivity|]. split; [now symmetry|]. rewrite (A eq_refl), <- IF. reflexivity.
Qed.
(** what else can be asked for, in the order of precedence *)
Definition requests (o : options) : list (bool * deed) :=
  [(op_icon o, CreateIcon); (match op_functions_user o with [] => false | _ => true end, SetFunctions (op_functions_user o)); (op_lcs o, ListSystems); (op_lpc o, ListColours);
   (op_about o, PrintAbout); (op_version o, PrintVersion); (op_merge o, Merge); (op_demo o, Demo)].
(** the first of them is done, the rest is ignored; no diagram, conversion or command file is made, however the settings of the diagrams may be wrong *)
Theorem C94_one_request :
  forall isdir settings save o args0 b d a, requests o = b ++ (true, d) :: a -> (forall r, In r b -> fst r = false) ->
    main isdir None (fun _ => None) None None settings save o args0 = ([d], None) /\ ~ a_file d.
Proof.
  intros isdir settings save o args0 b d a E H. unfold requests in E. unfold main.
  destruct b as [|b1 b]; [injection E as -> <- _; split; [reflexivity|intros []]|]. injection E as <- E. rewrite (H _ (or_introl eq_refl) : op_icon o = false).
  assert (U : negb (seqb (op_functions_user o) []) = match op_functions_user o with [] => false | _ => true end) by (destruct (op_functions_user o); reflexivity). rewrite U.
  destruct b as [|b1 b]; [injection E as -> <- _; split; [reflexivity|intros []]|]. injection E as <- E.
  rewrite (H _ (or_intror (or_introl eq_refl)) : match op_functions_user o with [] => false | _ => true end = false).
  destruct b as [|b1 b]; [injection E as -> <- _; split; [reflexivity|intros []]|]. injection E as <- E. rewrite (H (op_lcs o, ListSystems) ltac:(cbn; auto 10) : op_lcs o = false).
  destruct b as [|b1 b]; [injection E as -> <- _; split; [reflexivity|intros []]|]. injection E as <- E. rewrite (H (op_lpc o, ListColours) ltac:(cbn; auto 10) : op_lpc o = false).
  destruct b as [|b1 b]; [injection E as -> <- _; split; [reflexivity|intros []]|]. injection E as <- E. rewrite (H (op_about o, PrintAbout) ltac:(cbn; auto 10) : op_about o = false).
  destruct b as [|b1 b]; [injection E as -> <- _; split; [reflexivity|intros []]|]. injection E as <- E. rewrite (H (op_version o, PrintVersion) ltac:(cbn; auto 10) : op_version o = false).
  destruct b as [|b1 b]; [injection E as -> <- _; split; [reflexivity|intros []]|]. injection E as <- E. rewrite (H (op_merge o, Merge) ltac:(cbn; auto 10) : op_merge o = false).
  destruct b as [|b1 b]; [injection E as -> <- _; split; [reflexivity|intros []]|]. injection E as <- E. destruct b; discriminate E.
Qed.
(** a conversion makes no diagram *)
Theorem C94_conversion_only :
  forall isdir fns setf merge demo settings save o args0 deeds e f d, op_convert o <> None ->
    main isdir fns setf merge demo settings save o args0 = (deeds, e) -> ~ In (Output f d) deeds.
Proof.
  intros isdir fns setf merge demo settings save o args0 deeds e f d NC M I. unfold main in M.
  destruct (op_icon o); [injection M as <- <-; destruct I as [I|[]]; discriminate I|]. destruct fns as [x|]; [injection M as <- <-; destruct I|].
  destruct (negb (seqb (op_functions_user o) [])); [destruct (setf _); injection M as <- <-; repeat (destruct I as [I|I]; [discriminate I|]); destruct I|].
  destruct (op_lcs o); [injection M as <- <-; destruct I as [I|[]]; discriminate I|]. destruct (op_lpc o); [injection M as <- <-; destruct I as [I|[]]; discriminate I|].
  destruct (op_about o); [injection M as <- <-; destruct I as [I|[]]; discriminate I|]. destruct (op_version o); [injection M as <- <-; destruct I as [I|[]]; discriminate I|].
  destruct (op_merge o); [destruct merge; injection M as <- <-; repeat (destruct I as [I|I]; [discriminate I|]); destruct I|].
  destruct (op_demo o); [destruct demo; injection M as <- <-; repeat (destruct I as [I|I]; [discriminate I|]); destruct I|].
  destruct settings as [ps|x]; [|injection M as <- <-; destruct I]. destruct (cs_content args0) as [cc|x] eqn:EC; [|injection M as <- <-; destruct I].
  destruct (op_convert o) as [(fmt & src)|]; [|contradiction]. destruct (convert_format _ _ _ _ _) as [(fs & said)|]; injection M as <- <-; [|destruct I].
  apply in_map_iff in I as ((g & w) & Q & _). cbn in Q. destruct w; discriminate Q.
Qed.
(** while the functions cannot be read nothing works but the icon: not even naming another file of functions *)
Theorem C94_functions_unreadable_refuted :
  forall isdir x setf merge demo settings save o args0, op_icon o = false -> main isdir (Some x) setf merge demo settings save o args0 = ([], Some x).
Proof. intros isdir x setf merge demo settings save o args0 H. unfold main. now rewrite H. Qed.
(** the command file of a map is written before the map *)
Theorem C94_command_file_before_the_map_refuted :
  forall isdir setf merge demo ps save dir n tag e fmt o args0 c, directory dir -> plain_name n -> crater_free n -> conversion fmt e tag -> In fmt images ->
    o = mkOptions false [] false false false false false false (Some (fmt, dir ++ n ++ tag ++ "."%char :: e)) false -> ps_out ps = L "out" -> cs_content args0 = Ok c ->
    main isdir None setf merge demo (Ok ps) save o args0 = ([CommandFile (n ++ L "_map.cs") c; Conversion (n ++ L "_map." ++ fmt) Map], None).
Proof.
  intros isdir setf merge demo ps save dir n tag e fmt o args0 c D P F C I -> EO EC. unfold main.
  cbn [op_icon op_functions_user op_lcs op_lpc op_about op_version op_merge op_demo op_convert op_input seqb negb]. rewrite EC, EO.
  rewrite (C93_named_after_the_source isdir dir n tag e fmt 0 D P F C : convert_format isdir false fmt _ _ = _).
  destruct (tables _ _ _ C I) as (_ & _ & _ & _ & _ & _ & _ & ->). reflexivity.
Qed.
(** the demonstrations have different outputs *)
Theorem C94_demonstrations_apart : forall i j, demo_out i = demo_out j -> i = j.
Proof.
  assert (V : forall i, digits_value (two_digits i) = Z.of_nat i).
  { intros i. unfold two_digits, int_str. destruct (Z.ltb_spec (Z.of_nat i) 0); [lia|]. destruct (dec_str_spec (Z.of_nat i) ltac:(lia)) as (_ & _ & V). destruct (Nat.ltb i 10); [|exact V].
    rewrite digits_value_app, V. change (digits_value (L "0")) with 0%Z. lia. }
  intros i j E. unfold demo_out in E. apply app_inv_head in E. apply app_inv_tail in E. apply Nat2Z.inj. now rewrite <- !V, E.
Qed.
Example C94_hypotheses_met :
  let o := mkOptions false [] false false false false false false None false in
  let ps := mkPlotset (L "differential") None [] None (L "a") [L "png"; L "csv"] None in
  plots_only o /\ files_of ps = [(L "a.png", Diagram); (L "a.csv", Table)] /\
  main (fun _ => false) None (fun _ => None) None None (Ok ps) (fun _ => None) o [L "-o"; L "a"] =
    ([Output (L "a.png") Diagram; Output (L "a.csv") Table; CommandFile (L "a.cs") (L "-o a")], None) /\
  main (fun _ => false) None (fun _ => None) None None (Ok ps) (fun f => if seqb (fst f) (L "a.csv") then Some ZeroDivision else None) o [L "-o"; L "a"] =
    ([Output (L "a.png") Diagram], Some ZeroDivision) /\
  main (fun _ => false) None (fun _ => None) None None (Err KeyError) (fun _ => None) (mkOptions false [] false true true false false false None false) [] = ([ListColours], None) /\
  demo_out 7 = L "demo/07-demo".
Proof. repeat split; vm_compute; reflexivity. Qed.
Print Assumptions C94_complete_run.
Print Assumptions C94_failed_output.
Print Assumptions C94_command_file_last.
Print Assumptions C94_one_request.
Print Assumptions C94_conversion_only.
Print Assumptions C94_functions_unreadable_refuted.
Print Assumptions C94_command_file_before_the_map_refuted.
Print Assumptions C94_demonstrations_apart.
