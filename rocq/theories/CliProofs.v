From Coq Require Import String Ascii List Arith ZArith Bool Lia Sorted Permutation.
From Verif Require Import Base NumModel NumLemmas StrModel StrSpec StrProofs StrProofs2 FmtSpec CliModel CliSpec.
Import ListNotations.

(** * Abbreviations *)
Lemma re_search_iff {X} (m : str -> option X) s : re_search m s <> None <-> exists a r, s = a ++ r /\ m r <> None.
Proof.
  induction s as [|c t IH]; cbn.
  - destruct (m []) eqn:E; split; intros H; try congruence.
    + exists [], []. now rewrite E.
    + destruct H as (a & r & H1 & H2). destruct a, r; try discriminate. congruence.
  - destruct (m (c :: t)) eqn:E.
    + split; intros _; [|congruence]. exists [], (c :: t). split; [reflexivity|congruence].
    + rewrite IH. split; intros (a & r & H1 & H2).
      * exists (c :: a), r. now subst.
      * destruct a as [|y a]; [cbn in H1; subst; congruence|]. injection H1 as -> ->. now exists a, r.
Qed.
Lemma abbr_app v a e : abbreviates v e -> abbreviates v (a ++ e).
Proof. intros H. induction a; cbn; [exact H|now constructor]. Qed.
Lemma abbr_cons_inv c v e : abbreviates (c :: v) e -> exists a x t, e = a ++ x :: t /\ lower c = lower x /\ abbreviates v t.
Proof.
  induction e as [|x e IH]; intros H; inversion H; subst.
  - now exists [], x, e.
  - destruct (IH H2) as (a & y & t & -> & E & A). exists (x :: a), y, t. auto.
Qed.
Lemma ci_eqb_spec a b : reflect (lower a = lower b) (ci_eqb a b).
Proof. unfold ci_eqb. apply aeqb_spec. Qed.
Lemma plain_elem c x : ~ In c (L ".^$*+?{}[]|()" ++ [bsl]) -> elem c x = ci_eqb x c.
Proof.
  intros N. unfold elem. destruct (aeqb_spec c (ch ".")) as [->|]; [|reflexivity]. exfalso. apply N. cbn. tauto.
Qed.
Lemma abbr_re_sound v : plain_text v -> forall s, abbr_re v s <> None -> abbreviates v s.
Proof.
  intros P. induction P as [|c v PC P IH]; intros s H; [constructor|].
  destruct s as [|x t]; [destruct v; cbn in H; congruence|].
  destruct v as [|c' v].
  - cbn in H. rewrite plain_elem in H by exact PC. destruct (ci_eqb_spec x c); [|congruence]. constructor; [auto|constructor].
  - change (abbr_re (c :: c' :: v) (x :: t)) with
      (if elem c x then greedy_cls dot [] t (fun _ r => abbr_re (c' :: v) r) else None) in H.
    rewrite plain_elem in H by exact PC.
    destruct (ci_eqb_spec x c); [|congruence].
    destruct (greedy_cls dot [] t (fun _ r => abbr_re (c' :: v) r)) eqn:E; [|congruence].
    apply greedy_some in E. destruct E as (w & r & -> & _ & K & _).
    constructor; [auto|]. apply abbr_app, IH. now rewrite K.
Qed.
Lemma abbr_re_complete v : plain_text v -> forall s, no_newline s -> abbreviates v s -> exists a r, s = a ++ r /\ abbr_re v r <> None.
Proof.
  intros P. induction P as [|c v PC P IH]; intros s N H; [now exists [], s|].
  destruct (abbr_cons_inv _ _ _ H) as (a & x & t & -> & E & A).
  assert (Nt : no_newline t) by (intros I; apply N; rewrite in_app_iff; cbn; auto).
  exists a, (x :: t). split; [reflexivity|].
  assert (C : elem c x = true) by (rewrite plain_elem by exact PC; destruct (ci_eqb_spec x c); congruence).
  destruct v as [|c' v].
  - cbn. rewrite C. congruence.
  - change (abbr_re (c :: c' :: v) (x :: t)) with
      (if elem c x then greedy_cls dot [] t (fun _ r => abbr_re (c' :: v) r) else None).
    rewrite C. destruct (IH t Nt A) as (w & r & -> & K).
    destruct (greedy_cls dot [] (w ++ r) (fun _ r => abbr_re (c' :: v) r)) eqn:G; [congruence|].
    pose proof (greedy_none _ _ _ _ G w r eq_refl) as Z. exfalso. apply K, Z.
    apply no_newline_app in Nt. now apply no_newline_dot.
Qed.
Lemma filter_all {A} (f : A -> bool) l : Forall (fun x => f x = true) l -> filter f l = l.
Proof. induction 1; cbn; [reflexivity|]. rewrite H. now f_equal. Qed.
Lemma plain_facts v : plain_text v ->
  existsb special v = false /\ balanced 0 v = true /\ filter (fun c => negb (paren c)) v = v.
Proof.
  intros H.
  assert (S1 : forall c, ~ In c (L ".^$*+?{}[]|()" ++ [bsl]) ->
    special c = false /\ paren c = false /\ aeqb c (ch "(") = false /\ aeqb c (ch ")") = false).
  { intros c N. repeat split.
    - unfold special. destruct (mem c (L "^$*+?{}[]|" ++ [bsl])) eqn:E; [|reflexivity].
      apply mem_In in E. exfalso. apply N. rewrite in_app_iff in *. destruct E as [E|E]; [left|now right].
      cbn in E |- *. tauto.
    - unfold paren. destruct (mem c (L "()")) eqn:E; [|reflexivity].
      apply mem_In in E. exfalso. apply N. rewrite in_app_iff. left. cbn in E |- *. tauto.
    - destruct (aeqb_spec c (ch "(")); [|reflexivity]. subst. exfalso. apply N. cbn. tauto.
    - destruct (aeqb_spec c (ch ")")); [|reflexivity]. subst. exfalso. apply N. cbn. tauto. }
  assert (B : forall v d, plain_text v -> balanced d v = Nat.eqb d 0).
  { clear v H. induction v as [|c v IH]; intros d H; [reflexivity|].
    inversion H; subst. destruct (S1 c H2) as (_ & _ & E1 & E2). cbn [balanced]. rewrite E1, E2. now apply IH. }
  split; [|split].
  - apply Bool.not_true_is_false. intros E. apply existsb_exists in E. destruct E as (c & I & E).
    apply (proj1 (Forall_forall _ _) H) in I. destruct (S1 c I). congruence.
  - now rewrite B.
  - apply filter_all. eapply Forall_impl; [|exact H]. intros c N. now destruct (S1 c N) as (_ & -> & _).
Qed.
Lemma abbr_match_spec v e : plain_text v -> no_newline e -> (abbr_match v e = true <-> abbreviates v e).
Proof.
  intros P N. unfold abbr_match. destruct (plain_facts v P) as (_ & _ & ->).
  pose proof (re_search_iff (abbr_re v) e) as R. split.
  - destruct (re_search (abbr_re v) e) eqn:E; [|discriminate]. intros _.
    destruct (proj1 R) as (a & r & -> & K); [congruence|]. now apply abbr_app, abbr_re_sound.
  - intros A. destruct (re_search (abbr_re v) e) eqn:E; [reflexivity|].
    exfalso. apply (proj2 R); [|reflexivity]. now apply abbr_re_complete.
Qed.
Lemma enumerate_In {A} (l : list A) i x : In (i, x) (enumerate l) <-> nth_error l i = Some x.
Proof.
  unfold enumerate. enough (forall k, In (i, x) (combine (seq k (length l)) l) <-> k <= i /\ nth_error l (i - k) = Some x) as H.
  { rewrite H, Nat.sub_0_r. split; [tauto|]. split; [lia|assumption]. }
  induction l as [|y l IH]; intros k; cbn [length seq combine].
  - cbn. rewrite nth_error_nil_local || idtac. split; [tauto|]. intros [_ H]. destruct (i - k); discriminate.
  - cbn [In]. rewrite IH. split.
    + intros [E|[H1 H2]].
      * injection E as -> ->. split; [lia|]. now rewrite Nat.sub_diag.
      * split; [lia|]. replace (i - k) with (S (i - S k)) by lia. exact H2.
    + intros [H1 H2]. destruct (Nat.eq_dec k i) as [->|N].
      * left. rewrite Nat.sub_diag in H2. cbn in H2. congruence.
      * right. split; [lia|]. replace (i - k) with (S (i - S k)) in H2 by lia. exact H2.
Qed.
(** the head of a stable sort is the first of the least elements *)
Lemma sort_head {A} (leb : A -> A -> bool) (trans : forall x y z, leb x y = true -> leb y z = true -> leb x z = true)
    (total : forall x y, leb x y = false -> leb y x = true) l p q :
  sort leb l = p :: q -> exists l1 l2, l = l1 ++ p :: l2 /\ Forall (fun x => leb x p = false) l1 /\ Forall (fun x => leb p x = true) l2.
Proof.
  revert p q. induction l as [|x l IH]; intros p q H; [discriminate|].
  cbn in H. destruct (sort leb l) as [|y r] eqn:E.
  - cbn in H. injection H as <- <-. destruct l as [|z l].
    + exists [], []. auto.
    + exfalso. cbn in E. destruct (sort leb l); cbn in E; [discriminate|]. destruct (leb z a); discriminate.
  - cbn in H. destruct (IH _ _ eq_refl) as (l1 & l2 & -> & F1 & F2).
    destruct (leb x y) eqn:L; injection H as <- <-.
    + exists [], (l1 ++ y :: l2). split; [reflexivity|]. split; [constructor|].
      apply Forall_app. split.
      * eapply Forall_impl; [|exact F1]. intros z Z. apply (trans x y z L), total, Z.
      * constructor; [exact L|]. eapply Forall_impl; [|exact F2]. intros z Z. eapply trans; eassumption.
    + exists (x :: l1), l2. auto.
Qed.

Lemma enumerate_order {A} (s : list A) (f : nat * A -> bool) i x l1 l2 :
  filter f (enumerate s) = l1 ++ (i, x) :: l2 ->
  (forall j y, In (j, y) l1 -> j < i) /\ (forall j y, In (j, y) l2 -> i < j).
Proof.
  assert (S : forall n k (t : list A), n = length t -> StronglySorted (fun a b => fst a < fst b) (filter f (combine (seq k n) t))
              /\ Forall (fun a => k <= fst a) (filter f (combine (seq k n) t))).
  { induction n as [|n IH]; intros k t E; destruct t as [|y t]; try discriminate; cbn [seq combine filter].
    - split; constructor.
    - injection E as E. destruct (IH (S k) t E) as (S1 & F1).
      assert (F2 : Forall (fun a => k <= fst a) (filter f (combine (seq (S k) n) t)))
        by (eapply Forall_impl; [|exact F1]; cbn; intros; lia).
      destruct (f (k, y)); [|now split].
      split; constructor; auto. }
  intros E. destruct (S _ 0 s eq_refl) as (S1 & _). fold (enumerate s) in S1. rewrite E in S1. clear -S1.
  induction l1 as [|[a b] l1 IH]; cbn in S1.
  - split; [easy|]. intros j y I. apply StronglySorted_inv in S1. destruct S1 as (_ & F).
    apply (proj1 (Forall_forall _ _) F) in I. exact I.
  - apply StronglySorted_inv in S1. destruct S1 as (S1 & F). destruct (IH S1) as (I1 & I2). split; [|exact I2].
    intros j y [I|I]; [|eauto]. injection I as -> ->.
    assert (In (i, x) (l1 ++ (i, x) :: l2)) as J by (rewrite in_app_iff; cbn; auto).
    apply (proj1 (Forall_forall _ _) F) in J. exact J.
Qed.
Lemma sort_nil {A} leb (l : list A) : sort leb l = [] -> l = [].
Proof.
  intros E. assert (H : length (sort leb l) = length l) by apply NumLemmas.sort_length.
  rewrite E in H. now destruct l.
Qed.
Section Decode.
  Variables (s : list str) (v : str).
  Hypothesis plain : plain_text v.
  Hypothesis lines : Forall no_newline s.
  Let found := filter (fun p => abbr_match v (snd p)) (enumerate s).
  Lemma found_In i e : In (i, e) found <-> nth_error s i = Some e /\ abbreviates v e.
  Proof.
    unfold found. rewrite filter_In, enumerate_In. cbn [snd]. split; intros [H1 H2]; split; auto.
    - apply abbr_match_spec in H2; auto. apply (proj1 (Forall_forall _ _) lines). eapply nth_error_In, H1.
    - apply abbr_match_spec; auto. apply (proj1 (Forall_forall _ _) lines). eapply nth_error_In, H1.
  Qed.
  Theorem decode_spec amb inv :
    match decode_abbreviation s v amb inv with
    | Ok (Some i) => exists e, nth_error s i = Some e /\ abbreviates v e /\
        (forall j e', nth_error s j = Some e' -> abbreviates v e' ->
           (length e < length e' \/ length e = length e' /\ i <= j) /\ (amb = false -> j = i))
    | Ok None => inv = true /\ forall j e', nth_error s j = Some e' -> ~ abbreviates v e'
    | Err x => x = SysExit /\
        (inv = false /\ (forall j e', nth_error s j = Some e' -> ~ abbreviates v e') \/
         amb = false /\ exists i j e e', i <> j /\ nth_error s i = Some e /\ abbreviates v e /\
                                        nth_error s j = Some e' /\ abbreviates v e')
    end.
  Proof.
    unfold decode_abbreviation. destruct (plain_facts v plain) as (-> & -> & _). cbn [orb negb].
    fold found. unfold by_length.
    destruct (sort (fun a b : nat * list ascii => length (snd a) <=? length (snd b)) found) as [|p q] eqn:E.
    - assert (F : found = []) by (eapply sort_nil; exact E).
      assert (N : forall j e', nth_error s j = Some e' -> ~ abbreviates v e').
      { intros j e' H A. assert (I : In (j, e') found) by now apply found_In. rewrite F in I. destruct I. }
      destruct inv; auto.
    - pose proof E as E0. apply sort_head in E0.
      + destruct p as [i e]. destruct E0 as (l1 & l2 & F & F1 & F2). cbn [fst].
        assert (I : In (i, e) found) by (rewrite F, in_app_iff; cbn; auto).
        apply found_In in I. destruct I as (I1 & I2).
        match goal with |- context [if ?b then Err _ else _] => destruct b eqn:B end.
        * apply andb_prop in B. destruct B as (B1 & B2). destruct q as [|[j e'] q]; [discriminate|].
          destruct amb; [discriminate|]. split; [reflexivity|]. right. split; [reflexivity|].
          assert (P : Permutation found ((i, e) :: (j, e') :: q)) by (rewrite <- E; apply NumLemmas.sort_perm).
          assert (J : In (j, e') found) by (eapply Permutation_in; [symmetry; exact P|cbn; auto]).
          apply found_In in J. destruct J as (J1 & J2).
          exists i, j, e, e'. repeat split; auto.
          intros ->. rewrite I1 in J1. injection J1 as <-.
          assert (U : NoDup found).
          { unfold found. apply NoDup_filter. unfold enumerate. clear.
            enough (H : NoDup (map fst (combine (seq 0 (length s)) s))) by (eapply NoDup_map_inv; exact H).
            assert (G : forall n k (t : list str), n = length t -> map fst (combine (seq k n) t) = seq k n).
            { induction n; intros k t H; destruct t; try discriminate; cbn; [reflexivity|]. f_equal. apply IHn. now injection H. }
            rewrite G by reflexivity. apply seq_NoDup. }
          apply (Permutation_NoDup P) in U. inversion U; subst. apply H1. now left.
        * exists e. split; [exact I1|]. split; [exact I2|]. intros j e' J1 J2. split.
          -- assert (J : In (j, e') found) by now apply found_In.
             rewrite F, in_app_iff in J. destruct (enumerate_order _ _ _ _ _ _ F) as (O1 & O2).
             destruct J as [J|[J|J]].
             ++ left. apply (proj1 (Forall_forall _ _) F1) in J. cbn in J. apply Nat.leb_gt in J. exact J.
             ++ injection J as <- <-. right. lia.
             ++ pose proof (O2 _ _ J). apply (proj1 (Forall_forall _ _) F2) in J. cbn in J. apply Nat.leb_le in J. lia.
          -- intros A; subst amb. destruct q; [|discriminate].
             assert (J : In (j, e') found) by now apply found_In.
             assert (P : Permutation found [(i, e)]) by (rewrite <- E; apply NumLemmas.sort_perm).
             apply (Permutation_in _ P) in J. destruct J as [J|[]]. now injection J.
      + intros x y z H1 H2. apply Nat.leb_le in H1, H2. apply Nat.leb_le. lia.
      + intros x y H. apply Nat.leb_gt in H. apply Nat.leb_le. lia.
  Qed.
End Decode.
Lemma abbr_refl e : abbreviates e e.
Proof. induction e; constructor; auto. Qed.
Lemma abbr_length v e : abbreviates v e -> length v <= length e.
Proof. induction 1; cbn; lia. Qed.
Lemma abbr_same v e : abbreviates v e -> length e <= length v -> map lower v = map lower e.
Proof.
  induction 1; cbn; intros L.
  - destruct e; [reflexivity|cbn in L; lia].
  - f_equal; [assumption|]. apply IHabbreviates. lia.
  - apply abbr_length in H. lia.
Qed.
