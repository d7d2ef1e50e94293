From Coq Require Import String Ascii List ZArith Lia Bool Arith.
From Verif Require Import Base StrModel StrSpec.
Import ListNotations.

Lemma aeqb_spec a b : reflect (a = b) (aeqb a b).
Proof. apply Ascii.eqb_spec. Qed.
Lemma aeqb_refl a : aeqb a a = true.
Proof. destruct (aeqb_spec a a); congruence. Qed.
Lemma seqb_spec a : forall b, reflect (a = b) (seqb a b).
Proof.
  induction a as [|x a IH]; intros [|y b]; cbn; try (constructor; congruence).
  destruct (aeqb_spec x y) as [->|N]; cbn; [|constructor; congruence].
  destruct (IH b) as [->|N]; constructor; congruence.
Qed.
Lemma seqb_refl a : seqb a a = true.
Proof. destruct (seqb_spec a a); congruence. Qed.
Lemma mem_In c s : mem c s = true <-> In c s.
Proof.
  unfold mem. rewrite existsb_exists. split.
  - intros (x & H & E). destruct (aeqb_spec c x); [now subst|discriminate].
  - intros H. exists c. now rewrite aeqb_refl.
Qed.

Section Match.
  Context {X : Type}.
  Implicit Types (k : str -> str -> option X) (p : ascii -> bool).
  Definition all p (s : str) : Prop := Forall (fun c => p c = true) s.

  Lemma lazy_some p s : forall acc k r, lazy_cls p acc s k = Some r ->
    exists w t, s = w ++ t /\ all p w /\ k (rev acc ++ w) t = Some r /\
      forall w1 c w2, w = w1 ++ c :: w2 -> k (rev acc ++ w1) (c :: w2 ++ t) = None.
  Proof.
    induction s as [|c s IH]; intros acc k r; cbn [lazy_cls].
    - destruct (k (rev acc) []) eqn:E; [|discriminate]. intros [= <-]. exists [], []. cbn [app]. rewrite app_nil_r. repeat split; auto.
      + constructor.
      + intros w1 c w2 H. destruct w1; discriminate.
    - destruct (k (rev acc) (c :: s)) eqn:E.
      + intros [= <-]. exists [], (c :: s). rewrite app_nil_r. repeat split; auto; [constructor|]. intros w1 ? w2 H. destruct w1; discriminate.
      + destruct (p c) eqn:P; [|discriminate]. intros H. destruct (IH _ _ _ H) as (w & t & -> & A & K & F).
        cbn [rev] in K, F. rewrite <- app_assoc in K. exists (c :: w), t. repeat split; auto; [now constructor|].
        intros w1 c1 w2 Hw. destruct w1 as [|c0 w1].
        * cbn in Hw. injection Hw as -> ->. rewrite app_nil_r. exact E.
        * cbn in Hw. injection Hw as -> ->. rewrite <- (F w1 c1 w2 eq_refl), <- app_assoc. reflexivity.
  Qed.
  Lemma lazy_none p s : forall acc k, lazy_cls p acc s k = None ->
    forall w t, s = w ++ t -> all p w -> k (rev acc ++ w) t = None.
  Proof.
    induction s as [|c s IH]; intros acc k; cbn [lazy_cls].
    - destruct (k (rev acc) []) eqn:E; [discriminate|]. intros _ w t H _. symmetry in H. apply app_eq_nil in H. destruct H as (-> & ->).
      now rewrite app_nil_r.
    - destruct (k (rev acc) (c :: s)) eqn:E; [discriminate|]. intros H w t Hs A. destruct w as [|c0 w].
      + cbn in Hs. subst t. now rewrite app_nil_r.
      + cbn in Hs. injection Hs as -> ->. inversion A; subst. rewrite H2 in H.
        specialize (IH _ _ H w t eq_refl H3). cbn [rev] in IH. now rewrite <- app_assoc in IH.
  Qed.
  Lemma lazy_ex p s acc k : (exists w t, s = w ++ t /\ all p w /\ k (rev acc ++ w) t <> None) -> lazy_cls p acc s k <> None.
  Proof. intros (w & t & E & A & K) H. apply K. eapply lazy_none; eassumption. Qed.

  Lemma greedy_some p s : forall acc k r, greedy_cls p acc s k = Some r ->
    exists w t, s = w ++ t /\ all p w /\ k (rev acc ++ w) t = Some r /\
      forall c u v, t = c :: u ++ v -> all p (c :: u) -> k (rev acc ++ w ++ c :: u) v = None.
  Proof.
    induction s as [|c s IH]; intros acc k r; cbn [greedy_cls].
    - intros H. exists [], []. cbn [app]. rewrite app_nil_r. repeat split; auto; [constructor|]. intros; discriminate.
    - destruct (p c) eqn:P.
      + destruct (greedy_cls p (c :: acc) s k) eqn:E.
        * intros [= ->]. destruct (IH _ _ _ E) as (w & t & -> & A & K & F). cbn [rev] in K, F. rewrite <- app_assoc in K.
          exists (c :: w), t. repeat split; auto; [now constructor|]. intros c1 u v Ht Hp. specialize (F c1 u v Ht Hp).
          rewrite <- app_assoc in F. exact F.
        * intros K. exists [], (c :: s). rewrite app_nil_r. repeat split; auto; [constructor|].
          intros c1 u v Ht Hp. injection Ht as -> ->. inversion Hp; subst. cbn [app].
          assert (G : forall s acc k, greedy_cls p acc s k = None -> forall w t, s = w ++ t -> all p w -> k (rev acc ++ w) t = None).
          { clear. induction s as [|c s IH]; intros acc k; cbn [greedy_cls].
            - intros H w t E _. symmetry in E. apply app_eq_nil in E. destruct E as (-> & ->). now rewrite app_nil_r.
            - intros H w t E A. destruct w as [|c0 w].
              + cbn in E. subst t. rewrite app_nil_r. destruct (p c); [|exact H]. destruct (greedy_cls _ _ _ _); [discriminate|exact H].
              + cbn in E. injection E as -> ->. inversion A; subst. rewrite H2 in H. destruct (greedy_cls p (c0 :: acc) (w ++ t) k) eqn:G; [discriminate|].
                specialize (IH _ _ G w t eq_refl H3). cbn [rev] in IH. now rewrite <- app_assoc in IH. }
          specialize (G _ _ _ E u v eq_refl H2). cbn [rev] in G. now rewrite <- app_assoc in G.
      + intros K. exists [], (c :: s). rewrite app_nil_r. repeat split; auto; [constructor|].
        intros c1 u v Ht Hp. injection Ht as -> ->. inversion Hp; subst. congruence.
  Qed.
  Lemma greedy_none p s : forall acc k, greedy_cls p acc s k = None -> forall w t, s = w ++ t -> all p w -> k (rev acc ++ w) t = None.
  Proof.
    induction s as [|c s IH]; intros acc k; cbn [greedy_cls].
    - intros H w t E _. symmetry in E. apply app_eq_nil in E. destruct E as (-> & ->). now rewrite app_nil_r.
    - intros H w t E A. destruct w as [|c0 w].
      + cbn in E. subst t. rewrite app_nil_r. destruct (p c); [|exact H]. destruct (greedy_cls _ _ _ _); [discriminate|exact H].
      + cbn in E. injection E as -> ->. inversion A; subst. rewrite H2 in H. destruct (greedy_cls p (c0 :: acc) (w ++ t) k) eqn:G; [discriminate|].
        specialize (IH _ _ G w t eq_refl H3). cbn [rev] in IH. now rewrite <- app_assoc in IH.
  Qed.
  (** the continuation accepts the longest possible match *)
  Lemma greedy_longest p w : forall acc t k r, all p w -> match t with c :: _ => p c = false | [] => True end ->
    k (rev acc ++ w) t = Some r -> greedy_cls p acc (w ++ t) k = Some r.
  Proof.
    induction w as [|c w IH]; intros acc t k r A T K.
    - rewrite app_nil_r in K. cbn [app]. destruct t as [|c t]; cbn [greedy_cls]; [exact K|]. rewrite T. exact K.
    - inversion A; subst. cbn [app greedy_cls]. rewrite H1. rewrite (IH (c :: acc) t k r); auto. cbn [rev]. now rewrite <- app_assoc.
  Qed.

  Lemma greedy_max_some n p s : forall acc k r, greedy_max n p acc s k = Some r ->
    exists w t, s = w ++ t /\ all p w /\ length w <= n /\ acc ++ w <> [] /\ k (rev acc ++ w) t = Some r.
  Proof.
    revert n. induction s as [|c s IH]; intros n acc k r; cbn [greedy_max].
    - assert (Q : match acc with [] => None | _ => k (rev acc) [] end = Some r ->
         exists w t, [] = w ++ t /\ all p w /\ length w <= n /\ acc ++ w <> [] /\ k (rev acc ++ w) t = Some r).
      { intros H. exists [], []. cbn [app]. rewrite !app_nil_r. destruct acc; [discriminate|]. repeat split; auto; [constructor|cbn; lia|discriminate]. }
      destruct n; exact Q.
    - assert (Q : match acc with [] => None | _ => k (rev acc) (c :: s) end = Some r ->
         exists w t, c :: s = w ++ t /\ all p w /\ length w <= n /\ acc ++ w <> [] /\ k (rev acc ++ w) t = Some r).
      { intros H. exists [], (c :: s). rewrite !app_nil_r. destruct acc; [discriminate|]. repeat split; auto; [constructor|cbn; lia|discriminate]. }
      destruct n as [|m]; cbn [greedy_max]; [exact Q|]. destruct (p c) eqn:P; [|exact Q].
      destruct (greedy_max m p (c :: acc) s k) eqn:E; [|exact Q].
      intros [= ->]. destruct (IH m _ _ _ E) as (w & t & -> & A & Lw & _ & K). exists (c :: w), t.
      cbn [rev] in K. rewrite <- app_assoc in K. repeat split; auto; [now constructor|cbn; lia|]. destruct acc; discriminate.
  Qed.
  Lemma greedy_max_all p w : forall n acc k r, all p w -> length w <= n -> acc ++ w <> [] -> k (rev acc ++ w) [] = Some r ->
    (forall w1 c w2, w = w1 ++ c :: w2 -> k (rev acc ++ w1) (c :: w2) = None) ->
    greedy_max n p acc w k = Some r.
  Proof.
    induction w as [|c w IH]; intros n acc k r A Ln NE K N; cbn [greedy_max].
    - rewrite app_nil_r in *. destruct acc; [congruence|]. destruct n; exact K.
    - destruct n as [|m]; [cbn in Ln; lia|]. inversion A; subst. cbn [greedy_max]. rewrite H1.
      rewrite (IH m (c :: acc) k r); auto; [cbn in Ln; lia|discriminate|cbn [rev]; now rewrite <- app_assoc|].
      intros w1 c1 w2 ->. cbn [rev]. rewrite <- app_assoc. apply (N (c :: w1)). reflexivity.
  Qed.
End Match.

(** ** filename *)
Lemma at_end_nonl s : no_newline s -> at_end s = true -> s = [].
Proof.
  destruct s as [|c [|d s]]; cbn; intros H E; auto; try discriminate.
  unfold is_nl in E. destruct (aeqb_spec c nl); [|discriminate]. subst. exfalso. apply H. now left.
Qed.
Lemma no_newline_app a b : no_newline (a ++ b) <-> no_newline a /\ no_newline b.
Proof. unfold no_newline. rewrite in_app_iff. tauto. Qed.

Lemma ext_match_sound max s e : no_newline s -> ext_match max s = Some e -> e = s /\ extension max s.
Proof.
  intros N. unfold ext_match.
  assert (Q : (if at_end s then Some [] else None) = Some e -> e = s /\ extension max s).
  { destruct (at_end s) eqn:A; [|discriminate]. intros [= <-]. apply at_end_nonl in A; auto. subst. split; [reflexivity|now left]. }
  destruct s as [|c t]; [exact Q|]. destruct (aeqb_spec c (ch ".")) as [->|_]; [|exact Q].
  destruct (greedy_max _ _ _ _ _) eqn:G; [|exact Q]. intros [= ->].
  apply greedy_max_some in G. destruct G as (w & r & -> & A & Lw & NE & K). cbn [rev app] in K, NE.
  destruct (at_end r) eqn:AE; [|discriminate]. injection K as <-.
  apply at_end_nonl in AE. 2:{ unfold no_newline in *. cbn in N. rewrite in_app_iff in N. tauto. }
  subst r. rewrite app_nil_r. split; [reflexivity|]. right. exists w. split; [reflexivity|]. split; [|exact A].
  destruct w; [congruence|]. cbn in *. lia.
Qed.
Lemma ext_match_complete max s : extension max s -> no_newline s -> ext_match max s = Some s.
Proof.
  intros [->|(w & -> & Lw & A)] N; [reflexivity|]. change (L "." ++ w) with (ch "." :: w). unfold ext_match.
  rewrite aeqb_refl. rewrite (greedy_max_all is_word w max [] _ (ch "." :: w)); auto; [lia|destruct w; cbn in *; [lia|discriminate]|].
  intros w1 c w2 ->. cbn [rev app]. destruct (at_end (c :: w2)) eqn:E; [|reflexivity].
  apply at_end_nonl in E; [discriminate|]. change (no_newline (L "." ++ w1 ++ c :: w2)) in N. rewrite !no_newline_app in N. tauto.
Qed.
Lemma name_char_spec c : name_char c = true <-> is_word c = true \/ In c (L ".,= -").
Proof. unfold name_char. rewrite orb_true_iff, mem_In. tauto. Qed.
Lemma plain_name_all s : plain_name s <-> all name_char s.
Proof. unfold plain_name, all. rewrite !Forall_forall. setoid_rewrite name_char_spec. tauto. Qed.
Lemma extension_plain max e : extension max e -> plain_name e.
Proof.
  intros [->|(w & -> & _ & A)]; [constructor|]. apply Forall_app. split.
  - constructor; [right; now left|constructor].
  - eapply Forall_impl; [|exact A]. intros; now left.
Qed.
Lemma plain_no_newline s : plain_name s -> no_newline s.
Proof.
  intros P H. unfold plain_name in P. rewrite Forall_forall in P. destruct (P _ H) as [W|W]; [discriminate W|].
  cbn in W. unfold nl in W. repeat destruct W as [W|W]; try discriminate W. contradiction.
Qed.

Definition inner max (p r : str) : option (str * str * str) :=
  lazy_cls name_char [] r (fun n r' => match ext_match max r' with Some e => Some (p, n, e) | None => None end).
Lemma inner_some max p r x : no_newline r -> inner max p r = Some x ->
  exists n e, x = (p, n, e) /\ r = n ++ e /\ plain_name n /\ extension max e /\
    forall n1 c n2, n = n1 ++ c :: n2 -> ~ extension max (c :: n2 ++ e).
Proof.
  intros N H. apply lazy_some in H. destruct H as (n & t & -> & A & K & F). cbn [rev app] in K, F.
  apply no_newline_app in N. destruct N as (N1 & N2).
  destruct (ext_match max t) eqn:E; [|discriminate]. apply ext_match_sound in E; [|assumption]. destruct E as (-> & E). injection K as <-.
  exists n, t. repeat split; auto; [now apply plain_name_all|]. intros n1 c n2 -> X. specialize (F n1 c n2 eq_refl).
  rewrite (ext_match_complete max (c :: n2 ++ t)) in F; [discriminate|assumption|].
  change (no_newline ((c :: n2) ++ t)). rewrite no_newline_app in N1 |- *. tauto.
Qed.
Lemma inner_ex max p r : plain_name r -> inner max p r <> None.
Proof.
  intros P. apply lazy_ex. exists r, []. rewrite app_nil_r. split; [reflexivity|]. split; [now apply plain_name_all|]. discriminate.
Qed.
Lemma no_newline_dot s : no_newline s -> all dot s.
Proof.
  intros N. apply Forall_forall. intros c H. unfold dot, is_nl. destruct (aeqb_spec c nl); [subst; contradiction|reflexivity].
Qed.

Theorem file_parts_spec max f : no_newline f ->
  exists p n e, file_parts max f = Some (p, n, e) /\ f = p ++ n ++ e /\ plain_name n /\ extension max e /\
    (forall q c, p = q ++ [c] -> ~ (is_word c = true \/ In c (L ".,= -"))) /\
    (forall n1 c n2, n = n1 ++ c :: n2 -> ~ extension max (c :: n2 ++ e)).
Proof.
  intros N. unfold file_parts.
  assert (E : lazy_cls dot [] f (inner max) <> None).
  { apply lazy_ex. exists f, []. rewrite app_nil_r. split; [reflexivity|]. split; [now apply no_newline_dot|]. discriminate. }
  assert (M : re_search (fun s => lazy_cls dot [] s (inner max)) f = lazy_cls dot [] f (inner max)).
  { destruct f; cbn [re_search]; destruct (lazy_cls dot [] _ (inner max)); congruence. }
  change (exists p n e, re_search (fun s => lazy_cls dot [] s (inner max)) f = Some (p, n, e) /\ f = p ++ n ++ e /\ plain_name n /\ extension max e /\
    (forall q c, p = q ++ [c] -> ~ (is_word c = true \/ In c (L ".,= -"))) /\
    (forall n1 c n2, n = n1 ++ c :: n2 -> ~ extension max (c :: n2 ++ e))).
  rewrite M. destruct (lazy_cls dot [] f (inner max)) as [x|] eqn:G; [|congruence]. clear E M.
  apply lazy_some in G. destruct G as (w & t & -> & A & K & F). cbn [rev app] in K, F. apply no_newline_app in N. destruct N as (N1 & N2).
  destruct (inner_some _ _ _ _ N2 K) as (n & e & -> & -> & P & X & Y).
  exists w, n, e. repeat split; auto. intros q c -> H. specialize (F q c [] eq_refl). cbn [app] in F.
  apply (inner_ex max q (c :: n ++ e)); [|exact F]. constructor; [exact H|]. apply Forall_app. split; [exact P|]. now apply extension_plain with max.
Qed.

Lemma parts_unique (p n p' n' : str) : p ++ n = p' ++ n' -> plain_name n -> plain_name n' ->
  (forall q c, p = q ++ [c] -> ~ (is_word c = true \/ In c (L ".,= -"))) ->
  (forall q c, p' = q ++ [c] -> ~ (is_word c = true \/ In c (L ".,= -"))) -> p = p' /\ n = n'.
Proof.
  revert p'. induction p as [|x p IH]; intros [|y p'] E P P' H H'; cbn in E.
  - split; auto.
  - exfalso. destruct (@exists_last _ (y :: p') ltac:(discriminate)) as (q & c & Q). apply (H' q c Q).
    rewrite E in P. unfold plain_name in P. rewrite Forall_forall in P. apply P.
    change (In c ((y :: p') ++ n')). rewrite Q. rewrite !in_app_iff. left. right. now left.
  - exfalso. destruct (@exists_last _ (x :: p) ltac:(discriminate)) as (q & c & Q). apply (H q c Q).
    rewrite <- E in P'. unfold plain_name in P'. rewrite Forall_forall in P'. apply P'.
    change (In c ((x :: p) ++ n)). rewrite Q. rewrite !in_app_iff. left. right. now left.
  - injection E as -> E. destruct (IH p' E) as (-> & ->); auto.
    + intros q c ->. apply (H (y :: q)). reflexivity.
    + intros q c ->. apply (H' (y :: q)). reflexivity.
Qed.

Lemma file_build_pieces rc : forall p n e i1 i2 out,
  (forall c, In c rc -> c <> ch "u" /\ c <> ch "b") ->
  file_build rc p n e (Some i1) (Some i2) out = Ok (flat_map (piece p n e i1 i2) (rev rc) ++ out).
Proof.
  induction rc as [|c rc IH]; intros p n e i1 i2 out H; [reflexivity|].
  cbn [file_build rev]. rewrite flat_map_app. cbn [flat_map]. rewrite app_nil_r, <- app_assoc.
  assert (G : forall c', In c' rc -> c' <> ch "u" /\ c' <> ch "b") by (intros; apply H; now right).
  destruct (H c (or_introl eq_refl)) as (U & B). unfold piece at 2.
  repeat match goal with |- context [aeqb c ?x] => destruct (aeqb_spec c x); [subst c; cbn [orb]|] end; try contradiction;
  rewrite IH by exact G; cbn; try reflexivity.
  repeat match goal with |- context [ascii_dec c ?x] => destruct (ascii_dec c x); [contradiction|] end. reflexivity.
Qed.
(** inserts that are not used may be missing *)
Lemma file_build_no_insert rc : forall p n e i1 i2 out o1 o2,
  (In (ch "1") rc -> o1 = Some i1) -> (In (ch "2") rc -> o2 = Some i2) ->
  file_build rc p n e o1 o2 out = file_build rc p n e (Some i1) (Some i2) out.
Proof.
  induction rc as [|c rc IH]; intros p n e i1 i2 out o1 o2 H1 H2; [reflexivity|].
  cbn [file_build].
  assert (G1 : In (ch "1") rc -> o1 = Some i1) by (intros; apply H1; now right).
  assert (G2 : In (ch "2") rc -> o2 = Some i2) by (intros; apply H2; now right).
  destruct (aeqb c (ch "p")); [now apply IH|]. destruct (aeqb c (ch "n")); [now apply IH|]. destruct (aeqb c (ch "e")); [now apply IH|].
  destruct (aeqb_spec c (ch "1")) as [->|_]. { rewrite (H1 (or_introl eq_refl)). apply IH; auto. }
  destruct (aeqb_spec c (ch "2")) as [->|_]. { rewrite (H2 (or_introl eq_refl)). apply IH; auto. }
  destruct (_ || _); [|now apply IH]. destruct (re_search _ _) as [[pp d]|]; [|reflexivity]. now apply IH.
Qed.
