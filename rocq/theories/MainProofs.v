(** Lemmas about file names and the removal of CRATER. *)
From Coq Require Import String Ascii List Arith ZArith Bool Lia.
From Verif Require Import Base StrModel StrSpec StrProofs StrProofs2 StrProps CliModel FmtModel MainModel.
Import ListNotations.

(** a directory: nothing, or something that ends with a separator *)
Definition directory (d : str) : Prop := no_newline d /\ (d = [] \/ exists q c, d = q ++ [c] /\ (c = "/"%char \/ c = bsl \/ c = ":"%char)).
Definition short_word (w : str) : Prop := 1 <= length w <= 4 /\ Forall (fun c => is_word c = true) w.
Lemma last_dot (a b : str) v w : Forall (fun c => is_word c = true) v -> Forall (fun c => is_word c = true) w ->
  a ++ "."%char :: v = b ++ "."%char :: w -> a = b /\ v = w.
Proof.
  intros V W E. destruct (le_lt_dec (length a) (length b)) as [H|H].
  - destruct (app_split _ _ _ _ E H) as (m & -> & E2). destruct m as [|c m]; [rewrite app_nil_r; injection E2 as ->; auto|].
    exfalso. injection E2 as <- E2. rewrite E2 in V. rewrite Forall_forall in V. specialize (V "."%char ltac:(apply in_or_app; right; now left)). discriminate.
  - destruct (app_split _ _ _ _ (eq_sym E) (Nat.lt_le_incl _ _ H)) as (m & -> & E2). destruct m as [|c m]; [rewrite app_nil_r; injection E2 as ->; auto|].
    exfalso. injection E2 as <- E2. rewrite E2 in W. rewrite Forall_forall in W. specialize (W "."%char ltac:(apply in_or_app; right; now left)). discriminate.
Qed.
Lemma short_plain w : short_word w -> plain_name ("."%char :: w).
Proof.
  intros (_ & W). constructor; [right; cbn; auto|]. eapply Forall_impl; [|exact W]. auto.
Qed.
(** the pieces of a file name with an extension *)
Lemma filename_known dir n w code i1 i2 o1 o2 : directory dir -> plain_name n -> short_word w ->
  (forall c, In c code -> c <> "u"%char /\ c <> "b"%char) -> (In "1"%char code -> o1 = Some i1) -> (In "2"%char code -> o2 = Some i2) ->
  filename (dir ++ n ++ "."%char :: w) code o1 o2 4 = Ok (flat_map (piece dir n ("."%char :: w) i1 i2) code).
Proof.
  intros (N & D) P SW C H1 H2. pose proof (short_plain w SW) as PW. destruct SW as (WL & WW).
  assert (PN : plain_name (n ++ "."%char :: w)) by (apply Forall_app; split; assumption).
  assert (NN : no_newline (dir ++ n ++ "."%char :: w)) by (apply no_newline_app; split; [exact N|now apply plain_no_newline]).
  destruct (C25_pieces 4 _ NN) as (p & m & e & E & P1 & P2 & MAX & P3 & H).
  assert (U : dir = p /\ n ++ "."%char :: w = m ++ e).
  { apply parts_unique; auto.
    - apply Forall_app. split; [exact P1|]. now apply extension_plain in P2.
    - intros q c Q. destruct D as [->|(d & c' & -> & K)]; [destruct q; discriminate|]. apply app_inj_tail in Q. destruct Q as (_ & <-).
      destruct K as [->|[->| ->]]; cbn; intuition discriminate.
    - intros q c Q K. apply (P3 q c Q). now constructor. }
  destruct U as (<- & U).
  assert (X : n = m /\ "."%char :: w = e).
  { assert (LE : length ("."%char :: w) <= length e).
    { apply (MAX (dir ++ n)); [now rewrite <- app_assoc|]. right. exists w. split; [reflexivity|]. split; assumption. }
    destruct P2 as [->|(v & -> & _ & V)]; [cbn in LE; lia|]. cbn [L app] in U. change (L "." ++ v) with ("."%char :: v) in *.
    destruct (last_dot n m w v WW V U) as (-> & ->). auto. }
  destruct X as (<- & <-). apply H; assumption.
Qed.
(** and of one without a dot *)
Lemma filename_bare dir n code i1 i2 o1 o2 : directory dir -> plain_name n -> ~ In "."%char n ->
  (forall c, In c code -> c <> "u"%char /\ c <> "b"%char) -> (In "1"%char code -> o1 = Some i1) -> (In "2"%char code -> o2 = Some i2) ->
  filename (dir ++ n) code o1 o2 4 = Ok (flat_map (piece dir n [] i1 i2) code).
Proof.
  intros (N & D) P ND C H1 H2.
  assert (NN : no_newline (dir ++ n)) by (apply no_newline_app; split; [exact N|now apply plain_no_newline]).
  destruct (C25_pieces 4 _ NN) as (p & m & e & E & P1 & P2 & MAX & P3 & H).
  assert (U : dir = p /\ n = m ++ e).
  { apply parts_unique; auto.
    - apply Forall_app. split; [exact P1|]. now apply extension_plain in P2.
    - intros q c Q. destruct D as [->|(d & c' & -> & K)]; [destruct q; discriminate|]. apply app_inj_tail in Q. destruct Q as (_ & <-).
      destruct K as [->|[->| ->]]; cbn; intuition discriminate.
    - intros q c Q K. apply (P3 q c Q). now constructor. }
  destruct U as (<- & ->). destruct P2 as [->|(v & -> & _ & V)].
  - rewrite app_nil_r in *. apply H; assumption.
  - exfalso. apply ND. apply in_or_app. right. now left.
Qed.

(** ** CRATER *)
Definition crater_free (s : str) : Prop := forall a b, s <> a ++ L "CRATER" ++ b.
Lemma crater_free_tail c s : crater_free (c :: s) -> crater_free s.
Proof. intros F a b E. apply (F (c :: a) b). cbn [app]. now rewrite E. Qed.
Lemma starts_app a s : starts_with a s = true -> exists b, s = a ++ b.
Proof. unfold starts_with. intros H. destruct (seqb_spec a (firstn (length a) s)) as [E|]; [|discriminate]. exists (skipn (length a) s). rewrite E at 1. symmetry. apply firstn_skipn. Qed.
Lemma starts_prefix a b : starts_with a (a ++ b) = true.
Proof. unfold starts_with. rewrite firstn_app, Nat.sub_diag, firstn_all. cbn [firstn]. rewrite app_nil_r. apply seqb_refl. Qed.
(** CRATER cannot begin in a text without it and end behind an underscore or a dot *)
Lemma straddle s c t : crater_free s -> s <> [] -> (c = "_"%char \/ c = "."%char) -> starts_with (L "CRATER") (s ++ c :: t) = false.
Proof.
  intros F N C. destruct (starts_with (L "CRATER") (s ++ c :: t)) eqn:E; [|reflexivity]. exfalso. apply starts_app in E as (b & E).
  destruct (le_lt_dec (length (L "CRATER")) (length s)) as [H|H].
  - destruct (app_split _ _ _ _ (eq_sym E) H) as (m & -> & _). apply (F [] m). reflexivity.
  - destruct (app_split _ _ _ _ E (Nat.lt_le_incl _ _ H)) as (m & E1 & E2). destruct m as [|x m]; [rewrite app_nil_r in E1; rewrite <- E1 in H; lia|].
    cbn [app] in E2. injection E2 as <- E2.
    assert (I : In c (L "CRATER")) by (rewrite E1; apply in_or_app; right; now left).
    cbn in I. destruct C as [-> | ->]; intuition discriminate.
Qed.
Lemma straddle_end s : crater_free s -> starts_with (L "CRATER") s = false /\ starts_with (L "_CRATER") s = false.
Proof.
  intros F. split; destruct (starts_with _ s) eqn:E; try reflexivity; exfalso; apply starts_app in E as (b & ->); [apply (F [] b)|apply (F (L "_") b)]; reflexivity.
Qed.
Lemma remove_crater_id s : crater_free s -> remove_crater 0 s = s.
Proof.
  induction s as [|c s IH]; intros F; [reflexivity|]. destruct (straddle_end _ F) as (A & B). cbn [remove_crater]. rewrite A, B. f_equal. apply IH. now apply crater_free_tail in F.
Qed.
Lemma crater_free_dot s t : crater_free s -> crater_free t -> crater_free (s ++ "."%char :: t).
Proof.
  intros F G a b E. destruct (le_lt_dec (length s) (length a)) as [H|H].
  - destruct (app_split _ _ _ _ E H) as (m & -> & E2). destruct m as [|x m]; [discriminate E2|]. injection E2 as <- E2. exact (G m b E2).
  - destruct (app_split _ _ _ _ (eq_sym E) (Nat.lt_le_incl _ _ H)) as (m & -> & E2).
    assert (M : m <> []) by (intros ->; rewrite app_nil_r in H; lia).
    assert (Fm : crater_free m). { intros x y ->. apply (F (a ++ x) y). now rewrite <- app_assoc. }
    pose proof (straddle m "."%char t Fm M (or_intror eq_refl)) as S0. rewrite <- E2, starts_prefix in S0. discriminate.
Qed.
Lemma crater_free_app_plain (s t : str) : crater_free s -> (forall c, In c t -> ~ In c (L "CRATER")) -> crater_free (s ++ t).
Proof.
  intros F G a b E. destruct (le_lt_dec (length s) (length a)) as [H|H].
  - destruct (app_split _ _ _ _ E H) as (m & -> & ->). apply (G "C"%char); [apply in_or_app; right; now left|now left].
  - destruct (app_split _ _ _ _ (eq_sym E) (Nat.lt_le_incl _ _ H)) as (m & -> & E2).
    destruct (le_lt_dec (length (L "CRATER")) (length m)) as [K|K].
    + destruct (app_split _ _ _ _ E2 K) as (m' & -> & _). exact (F a m' eq_refl).
    + destruct (app_split _ _ _ _ (eq_sym E2) (Nat.lt_le_incl _ _ K)) as (m' & E3 & E4). destruct m' as [|x m']; [rewrite app_nil_r in E3; rewrite <- E3 in K; lia|].
      apply (G x); [rewrite E4; now left|rewrite E3; apply in_or_app; right; now left].
Qed.
(** _CRATER behind a text without it is removed *)
Lemma remove_crater_tag s t : crater_free s -> crater_free ("."%char :: t) -> remove_crater 0 (s ++ L "_CRATER" ++ "."%char :: t) = s ++ "."%char :: t.
Proof.
  intros F G. induction s as [|c s IH].
  - cbn [app]. rewrite <- (remove_crater_id _ G) at 2. reflexivity.
  - cbn [app]. assert (A : starts_with (L "CRATER") ((c :: s) ++ "_"%char :: L "CRATER" ++ "."%char :: t) = false) by (apply straddle; [exact F|discriminate|now left]).
    assert (B : starts_with (L "_CRATER") ((c :: s) ++ "_"%char :: L "CRATER" ++ "."%char :: t) = false).
    { destruct s as [|d s]; [destruct (starts_with (L "_CRATER") _) eqn:E; [|reflexivity]; apply starts_app in E as (b & E); apply (f_equal (fun l => nth 1 l "x"%char)) in E; vm_compute in E; discriminate E|].
      cbn [app]. destruct (starts_with (L "_CRATER") (c :: d :: s ++ "_"%char :: L "CRATER" ++ "."%char :: t)) eqn:E; [|reflexivity]. exfalso.
      apply starts_app in E as (b & E). assert (E2 : d :: s ++ "_"%char :: L "CRATER" ++ "."%char :: t = L "CRATER" ++ b) by exact (f_equal (@tl ascii) E). pose proof (straddle (d :: s) "_"%char (L "CRATER" ++ "."%char :: t) (crater_free_tail _ _ F) ltac:(discriminate) (or_introl eq_refl)) as Q.
      change ((d :: s) ++ "_"%char :: L "CRATER" ++ "."%char :: t) with (d :: s ++ "_"%char :: L "CRATER" ++ "."%char :: t) in Q. rewrite E2, starts_prefix in Q. discriminate. }
    change ((c :: s) ++ "_"%char :: L "CRATER" ++ "."%char :: t) with (c :: (s ++ L "_CRATER" ++ "."%char :: t)) in A, B.
    change (c :: s ++ L "_CRATER" ++ "."%char :: t) with (c :: (s ++ L "_CRATER" ++ "."%char :: t)). cbn [remove_crater]. rewrite A, B. f_equal. apply IH. now apply crater_free_tail in F.
Qed.
Lemma remove_crater_tag_end s : crater_free s -> remove_crater 0 (s ++ L "_CRATER") = s.
Proof.
  intros F. induction s as [|c s IH]; [reflexivity|]. cbn [app].
  assert (A : starts_with (L "CRATER") ((c :: s) ++ "_"%char :: L "CRATER") = false) by (apply straddle; [exact F|discriminate|now left]).
  assert (B : starts_with (L "_CRATER") ((c :: s) ++ "_"%char :: L "CRATER") = false).
  { destruct s as [|d s]; [destruct (starts_with (L "_CRATER") _) eqn:E; [|reflexivity]; apply starts_app in E as (b & E); apply (f_equal (fun l => nth 1 l "x"%char)) in E; vm_compute in E; discriminate E|].
    cbn [app]. destruct (starts_with (L "_CRATER") (c :: d :: s ++ "_"%char :: L "CRATER")) eqn:E; [|reflexivity]. exfalso.
    apply starts_app in E as (b & E). assert (E2 : d :: s ++ "_"%char :: L "CRATER" = L "CRATER" ++ b) by exact (f_equal (@tl ascii) E). pose proof (straddle (d :: s) "_"%char (L "CRATER") (crater_free_tail _ _ F) ltac:(discriminate) (or_introl eq_refl)) as Q.
    change ((d :: s) ++ "_"%char :: L "CRATER") with (d :: s ++ "_"%char :: L "CRATER") in Q. rewrite E2, starts_prefix in Q. discriminate. }
  change ((c :: s) ++ "_"%char :: L "CRATER") with (c :: (s ++ L "_CRATER")) in A, B.
  change (c :: s ++ L "_CRATER") with (c :: (s ++ L "_CRATER")). cbn [remove_crater]. rewrite A, B. f_equal. apply IH. now apply crater_free_tail in F.
Qed.
