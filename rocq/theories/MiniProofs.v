(** Proofs about the small plots of an age distribution. *)
From Coq Require Import String Ascii List ZArith Reals Bool Lia Lra Psatz Sorted.
From Verif Require Import Base NumModel NumLemmas InterpProofs StrModel FmtModel FmtSpec FmtProofs FmtProps IoModel IoProofs IoProofs3 IoProofs4 SccProofs3 SetProps2 CliModel PlotModel PlotSpec PlotProofs PlotProps PdfModel PdfSpec PdfProofs MiniModel MiniSpec.
Import ListNotations.
Local Open Scope R_scope.

(** * Positions *)
Section Dist.
Context (p : pdf) (n : nat) (D : distribution p n) (N : (2 <= n)%nat).
Lemma len_ts : length (pdf_ts p) = n. Proof. apply (d_lengths p n D). Qed.
Lemma len_pdf : length (pdf_pdf p) = n. Proof. apply (d_lengths p n D). Qed.
Lemma ts_mono i j : (i <= j < n)%nat -> nth i (pdf_ts p) 0 <= nth j (pdf_ts p) 0.
Proof. intros H. apply (d_grid p n D i j H). Qed.
(** samples at the time of the first have no weight, except the first *)
Lemma tie_cdf j : (j < n)%nat -> nth j (pdf_ts p) 0 = nth 0 (pdf_ts p) 0 -> nth j (pdf_cdf p) 0 = nth 0 (pdf_cdf p) 0.
Proof.
  induction j as [|j IH]; intros H E; [reflexivity|].
  assert (E' : nth j (pdf_ts p) 0 = nth 0 (pdf_ts p) 0).
  { pose proof (ts_mono 0 j ltac:(lia)). pose proof (ts_mono j (S j) ltac:(lia)). lra. }
  rewrite <- (IH ltac:(lia) E'). rewrite (d_cdf p n D (S j) H), (d_cdf p n D j ltac:(lia)). change (sum_to (weight p) (S (S j))) with (sum_to (weight p) (S j) + weight p (S j)).
  unfold weight at 2. rewrite (d_width p n D (S j) ltac:(lia)). replace (S j - 1)%nat with j by lia. rewrite E, E'. lra.
Qed.
Lemma after_first f : nth 0 (pdf_cdf p) 0 < f -> f <= 1 -> nth 0 (pdf_ts p) 0 < pdf_t p f.
Proof.
  intros L U. destruct (pdf_t_range p n D N f) as [A _]. destruct (Rle_lt_or_eq_dec _ _ A) as [Q|Q]; [exact Q|exfalso].
  pose proof (percentile_inverse p n D N f ltac:(lra)) as I. rewrite <- Q in I.
  pose proof (cf_ok p n D N (nth 0 (pdf_ts p) 0)) as K. rewrite I in K.
  destruct (interp_segment _ (nth 0 (pdf_ts p) 0) (tbl2_sx p n D N) (tbl2_ne p n D N)) as (j & J1 & J2 & J3 & J4).
  { rewrite (tbl2_nth p n D N). cbn [fst]. lra. }
  rewrite (tbl2_length p n D N) in *. rewrite K in J3, J4. rewrite !(tbl2_nth p n D N) in *. cbn [fst snd] in *.
  assert (T : nth j (pdf_ts p) 0 = nth 0 (pdf_ts p) 0) by (pose proof (ts_mono 0 j ltac:(lia)); lra).
  pose proof (tie_cdf j J1 T) as C. destruct (Nat.eq_dec (S j) n) as [E|E].
  - specialize (J4 E). injection J4 as J4. lra.
  - destruct (J3 ltac:(lia)) as [_ B]. injection B as B. rewrite T in B. rewrite (Rminus_diag_eq (nth 0 (pdf_ts p) 0) _ eq_refl), Rmult_0_r in B. lra.
Qed.
Lemma before_first f : f < nth 0 (pdf_cdf p) 0 -> pdf_t p f = nth 0 (pdf_ts p) 0.
Proof.
  intros L. pose proof (interp_below _ f (tbl_ne p n D N)) as B. rewrite (tbl_nth p n D N) in B. cbn [fst snd] in B. specialize (B L).
  rewrite (pdf_t_ok p n D N) in B. now injection B.
Qed.
Lemma mark_last t : nth 0 (pdf_ts p) 0 < t <= nth (n - 1) (pdf_ts p) 0 -> exists i, mark p t = Z.of_nat i /\ last_before p t i /\ (S i < n)%nat.
Proof.
  intros [A B]. unfold mark. set (k := searchsorted (pdf_ts p) t). pose proof (searchsorted_le (pdf_ts p) t) as KL. fold k in KL. rewrite len_ts in KL.
  assert (K1 : (1 <= k)%nat).
  { destruct (Nat.eq_dec k 0) as [E|E]; [exfalso|lia]. pose proof (searchsorted_above (pdf_ts p) t) as H. fold k in H. rewrite len_ts, E in H. specialize (H ltac:(lia)). lra. }
  assert (KN : (k < n)%nat).
  { destruct (Nat.eq_dec k n) as [E|E]; [exfalso|lia]. pose proof (searchsorted_below (pdf_ts p) t (n - 1)) as H. fold k in H. specialize (H ltac:(lia)). lra. }
  exists (k - 1)%nat. split; [lia|]. split; [|lia]. split; [rewrite len_ts; lia|]. split; [apply searchsorted_below; fold k; lia|].
  intros j J. rewrite len_ts in J. pose proof (searchsorted_above (pdf_ts p) t) as H. fold k in H. rewrite len_ts in H. specialize (H KN).
  pose proof (ts_mono k j ltac:(lia)). lra.
Qed.
Lemma mark_pos f : nth 0 (pdf_cdf p) 0 < f -> f <= 1 -> exists i, mark p (pdf_t p f) = Z.of_nat i /\ last_before p (pdf_t p f) i /\ (S i < n)%nat.
Proof. intros A B. apply mark_last. split; [now apply after_first|]. apply (pdf_t_range p n D N f). Qed.
Lemma mark_neg f : f < nth 0 (pdf_cdf p) 0 -> mark p (pdf_t p f) = (-1)%Z.
Proof.
  intros A. rewrite (before_first f A). unfold mark. rewrite (searchsorted_unique _ _ 0); [reflexivity|lia|intros; lia|intros; lra].
Qed.
Lemma mark_below t : t <= nth (n - 1) (pdf_ts p) 0 -> (mark p t <= Z.of_nat n - 2)%Z.
Proof.
  intros B. destruct (Rlt_dec (nth 0 (pdf_ts p) 0) t) as [A|A].
  - destruct (mark_last t (conj A B)) as (i & -> & _ & H). lia.
  - unfold mark. rewrite (searchsorted_unique _ _ 0); [lia|lia|intros; lia|intros; lra].
Qed.
Lemma last_before_mono t u i j : last_before p t i -> last_before p u j -> t <= u -> (i <= j)%nat.
Proof.
  intros (I1 & I2 & _) (J1 & J2 & J3) H. destruct (le_lt_dec i j) as [Q|Q]; [exact Q|]. pose proof (J3 i ltac:(lia)). lra.
Qed.
Lemma slice_map {A} (l : list A) d a b : (a <= b <= length l)%nat -> slice l a b = map (fun i => nth i l d) (seq a (b - a)).
Proof.
  intros H. unfold slice. apply (nth_ext _ _ d d).
  - rewrite firstn_length, skipn_length, map_length, seq_length. lia.
  - intros k K. rewrite firstn_length, skipn_length in K. rewrite nth_firstn_R by lia. rewrite nth_skipn_R.
    rewrite (nth_indep (map _ _) d (nth 0 l d)) by (rewrite map_length, seq_length; lia). rewrite (map_nth (fun i => nth i l d) (seq a (b - a)) 0%nat k), seq_nth by lia. reflexivity.
Qed.
Lemma combine_maps_R {A B C} (f : A -> B) (g : A -> C) l : combine (map f l) (map g l) = map (fun x => (f x, g x)) l.
Proof. induction l as [|x l IH]; [reflexivity|]. cbn. now rewrite IH. Qed.
Lemma samples_run a b : (a <= b <= n)%nat -> samples p (Z.of_nat a) (Z.of_nat b) = run p a b.
Proof.
  intros H. unfold samples, array_slice. rewrite len_ts, len_pdf. assert (P : forall k, (k <= n)%nat -> position n (Z.of_nat k) = k).
  { intros k K. unfold position. rewrite (proj2 (Z.ltb_ge _ _)) by lia. rewrite Z.min_l by lia. lia. }
  rewrite !P by lia. rewrite (slice_map (pdf_ts p) 0) by (rewrite len_ts; lia). rewrite (slice_map (pdf_pdf p) 0) by (rewrite len_pdf; lia). apply combine_maps_R.
Qed.
Lemma samples_none b : (-1 <= b <= Z.of_nat n - 1)%Z -> samples p (-1) b = [].
Proof.
  intros H. unfold samples, array_slice. rewrite len_ts. unfold position. change (-1 <? 0)%Z with true. cbn [Z.ltb]. unfold slice.
  assert (E : (Z.to_nat (if (b <? 0)%Z then Z.max 0 (Z.of_nat n + b) else Z.min b (Z.of_nat n)) - Z.to_nat (Z.max 0 (Z.of_nat n + -1)) = 0)%nat).
  { destruct (Z.ltb_spec b 0); lia. }
  rewrite E. reflexivity.
Qed.
(** what is drawn between two fractions *)
Lemma samples_between f g : f <= g <= 1 -> nth 0 (pdf_cdf p) 0 < f ->
  exists a b, last_before p (pdf_t p f) a /\ last_before p (pdf_t p g) b /\ (a <= b)%nat /\ (S b < n)%nat /\ samples p (mark p (pdf_t p f)) (mark p (pdf_t p g)) = run p a b.
Proof.
  intros H F. destruct (mark_pos f F ltac:(lra)) as (a & -> & LA & _). destruct (mark_pos g ltac:(lra) ltac:(lra)) as (b & -> & LB & BN).
  pose proof (last_before_mono _ _ a b LA LB (pdf_t_mono p n D N f g ltac:(lra))) as AB. exists a, b. repeat (split; [assumption|]). apply samples_run. lia.
Qed.
Lemma samples_between_none f g : f < nth 0 (pdf_cdf p) 0 -> samples p (mark p (pdf_t p f)) (mark p (pdf_t p g)) = [].
Proof.
  intros F. rewrite (mark_neg f F). apply samples_none. pose proof (mark_below (pdf_t p g) (proj2 (pdf_t_range p n D N g))). unfold mark in *. lia.
Qed.
Lemma samples_at f : nth 0 (pdf_cdf p) 0 < f -> f <= 1 ->
  exists a, last_before p (pdf_t p f) a /\ samples p (mark p (pdf_t p f)) (mark p (pdf_t p f) + 1) = run p a (S a).
Proof.
  intros F G. destruct (mark_pos f F G) as (a & -> & LA & AN). exists a. split; [exact LA|]. replace (Z.of_nat a + 1)%Z with (Z.of_nat (S a)) by lia. apply samples_run. lia.
Qed.
Lemma samples_at_none f : f < nth 0 (pdf_cdf p) 0 -> samples p (mark p (pdf_t p f)) (mark p (pdf_t p f) + 1) = [].
Proof. intros F. rewrite (mark_neg f F). apply samples_none. lia. Qed.

(** * The peak *)
Lemma peak_of : exists m, array_max (pdf_pdf p) = Ok m /\ peak p m /\ 0 < m.
Proof.
  destruct (pdf_pdf p) as [|x r] eqn:E; [pose proof len_pdf as L; rewrite E in L; cbn in L; lia|]. exists (list_max x r). split; [reflexivity|].
  assert (P : peak p (list_max x r)).
  { unfold peak. rewrite E. split; [apply list_max_in|]. apply Forall_forall. intros y H. now apply list_max_ge. }
  split; [exact P|]. destruct (Rlt_dec 0 (list_max x r)) as [Q|Q]; [exact Q|exfalso].
  assert (Z : forall i, (i < n)%nat -> nth i (pdf_pdf p) 0 = 0).
  { intros i I. pose proof (d_nonneg p n D i I). destruct P as [_ P]. rewrite Forall_forall in P. assert (IL : (i < length (pdf_pdf p))%nat) by (rewrite len_pdf; exact I). specialize (P _ (nth_In _ 0 IL)). lra. }
  pose proof (d_total p n D) as T. assert (S0 : sum_to (weight p) n = 0).
  { clear T. assert (W : forall k, (k <= n)%nat -> sum_to (weight p) k = 0). { induction k as [|k IH]; intros K; [reflexivity|]. cbn. rewrite IH by lia. unfold weight. rewrite Z by lia. lra. } now apply W. }
  lra.
Qed.
Lemma half_of : exists q a b, above_half p = Ok q /\ pyindex q 0 = Ok a /\ pyindex q (-1) = Ok b /\ half_width p a b.
Proof.
  destruct peak_of as (m & E & P & M). unfold above_half. rewrite E. cbn [bind]. set (q := filter _ _). 
  assert (Q : forall i, In i q <-> (i < length (pdf_pdf p))%nat /\ m / 2 < nth i (pdf_pdf p) 0).
  { intros i. unfold q. rewrite filter_In, in_seq. destruct (Rltb_spec (m / 2) (nth i (pdf_pdf p) 0)) as [B|B]; split; intros [H1 H2]; [split; [lia|exact B]|split; [lia|reflexivity]|discriminate H2|contradiction]. }
  assert (SQ : StronglySorted lt q).
  { unfold q. generalize (length (pdf_pdf p)) as k. intros k. generalize 0%nat. induction k as [|k IH]; intros s; cbn [seq filter]; [constructor|].
    assert (F : Forall (lt s) (filter (fun i => Rltb (m / 2) (nth i (pdf_pdf p) 0)) (seq (S s) k))).
    { apply Forall_forall. intros y H. apply filter_In in H as [H _]. apply in_seq in H. lia. }
    destruct (Rltb (m / 2) (nth s (pdf_pdf p) 0)); [constructor; [apply IH|exact F]|apply IH]. }
  assert (NE : q <> []).
  { destruct P as [P1 _]. apply (In_nth _ _ 0) in P1 as (i & I & EI). assert (H : In i q) by (apply Q; split; [exact I|lra]). intros C. rewrite C in H. destruct H. }
  destruct q as [|a r] eqn:EQ; [congruence|]. exists (a :: r), a, (last (a :: r) 0%nat). split; [reflexivity|]. split; [reflexivity|].
  assert (LI : In (last (a :: r) 0%nat) (a :: r)) by (clear; revert a; induction r as [|b r IH]; intros a; [now left|right; apply IH]).
  split.
  - unfold pyindex. change (-1 <? 0)%Z with true. cbv beta iota zeta. assert (LN : (Z.of_nat (length (a :: r)) >= 1)%Z) by (cbn [length]; lia). rewrite (proj2 (Z.ltb_ge _ _)) by lia.
    replace (Z.to_nat (-1 + Z.of_nat (length (a :: r)))) with (length (a :: r) - 1)%nat by lia. rewrite (nth_error_nth' (a :: r) 0%nat) by (cbn [length]; lia).
    f_equal. clear. revert a. induction r as [|b r IH]; intros a; [reflexivity|]. replace (length (a :: b :: r) - 1)%nat with (S (length (b :: r) - 1)) by (cbn [length]; lia). exact (IH b).
  - exists m. split; [exact P|]. cbv zeta. split; [apply Q; now left|]. split; [apply Q; exact LI|]. intros i H. apply Q in H.
    inversion SQ as [|x l S1 F]; subst. split.
    + destruct H as [<-|H]; [lia|]. rewrite Forall_forall in F. specialize (F i H). lia.
    + clear - H SQ. revert a SQ i H. induction r as [|b r IH]; intros a SQ i H; [destruct H as [<-|[]]; cbn; lia|].
      inversion SQ as [|x l S1 F]; subst. change (last (a :: b :: r) 0%nat) with (last (b :: r) 0%nat). destruct H as [<-|H]; [|now apply IH].
      specialize (IH b S1 b (or_introl eq_refl)). rewrite Forall_forall in F. specialize (F b (or_introl eq_refl)). lia.
Qed.
End Dist.
