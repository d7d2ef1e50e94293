(** Lemmas for the summary table. *)
From Coq Require Import String List Ascii ZArith Reals Lra Lia Bool Permutation Sorted.
Import ListNotations.
From Verif Require Import Base NumModel NumLemmas StrModel StrSpec StrProofs StrProofs2 CliModel CliProofs2 FmtModel FmtSpec FmtProofs IoModel IoProofs3 IoProofs4 SccProofs3 LegModel LegSpec LegProofs.
Local Open Scope R_scope.

(** ** numbers in cells *)
Lemma shows_g k x : (1 <= k)%nat -> shows k x (fmt_g k x).
Proof. intros K. destruct (fmt_g_number k x) as (y & S & N). exists y. rewrite Nat.max_l in S by lia. auto. Qed.
Lemma unum_point d m : (1 <= d)%nat -> (0 <= m < 10 ^ Z.of_nat d)%Z -> unum (point (digits d m) 1) (IZR m * ten (0 - Z.of_nat d + 1)).
Proof.
  intros D B. destruct (digits_spec d m) as (DL & DA & DV). rewrite Z.mod_small in DV by lia.
  change 1%nat with (Z.to_nat (0 + 1)). rewrite point_placed by lia. rewrite <- DL at 2. rewrite <- DV at 2. apply unum_placed; [destruct (digits d m); [cbn in DL; lia|discriminate]|exact DA].
Qed.
Lemma shows_2e x : shows 3 x (fmt_2e x).
Proof.
  pose proof (sci_value 3 x ltac:(lia)) as S. unfold fmt_2e, fmt_e. destruct (sci 3 (Rabs x)) as [m e]. destruct S as (B & _ & S).
  exists ((if Rltb x 0 then -1 else 1) * (IZR m * ten (e - Z.of_nat 3 + 1))). split; [exact S|]. right.
  pose proof (unum_point 3 m ltac:(lia) B) as U.
  rewrite sign_neg. pose proof (numeral_sign (Rltb x 0) _ _ U) as NS.
  eexists _, _, (tl (exp_str e)), e. split; [exact NS|]. split; [reflexivity|]. split.
  - change (powerRZ 10 e) with (ten e). rewrite !Rmult_assoc, <- ten_add. do 3 f_equal. lia.
  - destruct (dec_str_spec (Z.abs e) ltac:(lia)) as (A & B' & C).
    exists ((if Z.ltb (Z.abs e) 10 then L "0" else []) ++ dec_str (Z.abs e)).
    split; [apply all_digits_app; split; [destruct (Z.ltb _ _); repeat constructor|exact A]|]. split; [intros K; apply app_eq_nil in K; tauto|].
    assert (V : digits_value ((if Z.ltb (Z.abs e) 10 then L "0" else []) ++ dec_str (Z.abs e)) = Z.abs e)
      by (rewrite digits_value_app, C; destruct (Z.ltb _ _); [change (digits_value (L "0")) with 0%Z|change (digits_value []) with 0%Z]; lia).
    rewrite V. unfold exp_str. destruct (Z.ltb_spec e 0); cbn [L list_ascii_of_string tl app]; [right; split; [reflexivity|lia]|left; split; [reflexivity|lia]].
Qed.
Lemma sigfigs_ok x d : (1 <= d)%nat -> exists s y, sigfigs x d = Ok s /\ numeral s y.
Proof. intros D. destruct (sigfigs_spec x d D) as (s & y & E & N & _). eauto. Qed.
Lemma choose_unit_ok age : exists f u, choose_unit age None = Ok (f, u) /\ In (f, u) units.
Proof.
  unfold choose_unit, units. cbn [find fst snd]. destruct (Rleb 1 age || _); [eexists _, _; split; [reflexivity|now left]|]. destruct (Rleb (1 / 10 ^ 3) age || _); [eexists _, _; split; [reflexivity|right; now left]|].
  destruct (Rleb (1 / 10 ^ 6) age || _); [eexists _, _; split; [reflexivity|right; right; now left]|]. rewrite (seqb_refl (L "a")), orb_true_r. eexists _, _. split; [reflexivity|do 3 right; now left].
Qed.

(** ** cells have no comma *)
Definition plain (s : str) : Prop := Forall (fun c => c <> ch "," /\ c <> nl) s.
Lemma plain_app a b : plain a -> plain b -> plain (a ++ b).
Proof. intros A B. apply Forall_app. auto. Qed.
Lemma plain_b s : forallb (fun c => negb (aeqb c (ch ",")) && negb (aeqb c nl)) s = true -> plain s.
Proof.
  intros H. apply Forall_forall. intros c I. rewrite forallb_forall in H. specialize (H c I). apply andb_true_iff in H. destruct H as [H1 H2].
  split; intros ->; [rewrite aeqb_refl in H1|rewrite aeqb_refl in H2]; discriminate.
Qed.
Lemma plain_no_comma s : plain s <-> no_comma s.
Proof.
  unfold plain, no_comma. rewrite Forall_forall. split.
  - intros H. split; intros I; apply H in I; tauto.
  - intros [A B] c I. split; intros ->; tauto.
Qed.
Lemma plain_number s x : number_text s x -> plain s.
Proof.
  intros N. destruct (number_chars _ _ N) as [A _]. eapply Forall_impl; [|exact A]. intros c. destruct c as [[] [] [] [] [] [] [] []]; intros H; try (vm_compute in H; discriminate H); split; discriminate.
Qed.
Lemma plain_shows k x s : shows k x s -> plain s.
Proof. intros (y & _ & N). now apply (plain_number s y). Qed.
Lemma plain_g k x : plain (fmt_g k x).
Proof. destruct (fmt_g_number k x) as (y & _ & N). now apply (plain_number _ y). Qed.
Lemma plain_int z : plain (int_str z).
Proof. apply (plain_number _ (IZR z)). left. apply int_str_spec. Qed.
Lemma plain_sigfigs x d s : sigfigs x d = Ok s -> plain s.
Proof. intros E. destruct d as [|d]; [discriminate|]. destruct (sigfigs_ok x (S d) ltac:(lia)) as (s' & y & E' & N). rewrite E in E'. injection E' as <-. apply (plain_number _ y). now left. Qed.
Lemma plain_errors m a b c : plain a -> plain b -> plain c -> plain (with_errors m a b c).
Proof. intros A B C. unfold with_errors. destruct m; repeat apply plain_app; try assumption; apply plain_b; reflexivity. Qed.
Lemma style_ok t e1 e2 mu m : exists s, str_age t e1 e2 {| sf := 3; unit := None; simple := false; no_error := false; mu := mu; mathml := m |} = Ok s /\ plain s.
Proof.
  unfold str_age. cbn [FmtModel.sf FmtModel.unit FmtModel.simple FmtModel.no_error FmtModel.mu FmtModel.mathml]. destruct (choose_unit_ok t) as (f & u & -> & IU). cbn [bind fst snd].
  destruct (sigfigs_ok (t / f) 3 ltac:(lia)) as (s1 & y1 & E1 & N1). rewrite E1. cbn [bind].
  assert (PU : plain u) by (apply plain_b; cbn in IU; destruct IU as [H|[H|[H|[H|[]]]]]; injection H as _ <-; reflexivity).
  assert (P1 : plain s1) by (apply (plain_number _ y1); now left).
  change (3 - 1)%nat with 2%nat. destruct (sigfigs_ok (e1 / f) 2 ltac:(lia)) as (s2 & y2 & E2 & N2). destruct (sigfigs_ok (e2 / f) 2 ltac:(lia)) as (s3 & y3 & E3 & N3). rewrite E2, E3.
  assert (P2 : plain s2) by (apply (plain_number _ y2); now left). assert (P3 : plain s3) by (apply (plain_number _ y3); now left).
  assert (K : forall st, plain st -> exists s, Ok (if m then math_open ++ (if mu then L "<mi>&#956;</mi>" else []) ++ st ++ L "<mtext>&#8239;" ++ u ++ L "</mtext></math>"
      else L "$" ++ (if mu then mu_sign else []) ++ st ++ L "$ " ++ u) = Ok s /\ plain s).
  { intros st P. eexists. split; [reflexivity|]. destruct m, mu; repeat apply plain_app; try assumption; apply plain_b; reflexivity. }
  destruct (Rltb 0 e1 && negb false); cbn [bind]; apply K; [now apply plain_errors|exact P1].
Qed.
Lemma density_ok a0 m : exists s, density_text a0 m = Ok s /\ plain s.
Proof.
  unfold density_text, scientific_notation. set (v := pow10 (t0 a0)).
  assert (K : exists st e, (if Reqb v 0 || Rltb (-2) (log10 (Rabs v)) && Rltb (log10 (Rabs v)) 4 && negb false then do! s <- sigfigs v 3; Ok (s, 0%Z) else Ok (fmt_e 3 v)) = Ok (st, e) /\ plain st).
  { destruct (Reqb v 0 || _).
    - destruct (sigfigs_ok v 3 ltac:(lia)) as (s1 & y1 & E1 & N1). rewrite E1. cbn [bind]. eexists _, _. split; [reflexivity|]. apply (plain_number _ y1). now left.
    - pose proof (plain_shows _ _ _ (shows_2e v)) as P. unfold fmt_2e in P. destruct (fmt_e 3 v) as [st e]. eexists _, _. split; [reflexivity|]. now apply Forall_app in P. }
  destruct K as (st & e & -> & P). cbn [bind]. change (3 - 1)%nat with 2%nat.
  destruct (sigfigs_ok ((pow10 (t2 a0) - v) / ten e) 2 ltac:(lia)) as (s2 & y2 & E2 & N2). destruct (sigfigs_ok ((v - pow10 (t1 a0)) / ten e) 2 ltac:(lia)) as (s3 & y3 & E3 & N3). rewrite E2, E3. cbn [bind].
  eexists. split; [reflexivity|]. assert (P2 : plain s2) by (apply (plain_number _ y2); now left). assert (P3 : plain s3) by (apply (plain_number _ y3); now left).
  pose proof (plain_errors m st s2 s3 P P2 P3) as PE. pose proof (plain_int e) as PI.
  destruct m, (Z.eqb e 0); repeat apply plain_app; try assumption; apply plain_b; reflexivity.
Qed.
Lemma diameter_ok lo hi : exists s, diameter_range lo hi 2 = Ok s /\ plain s.
Proof.
  unfold diameter_range. destruct hi as [hi|]; [|eexists; split; [reflexivity|apply plain_b; reflexivity]].
  set (k := if Rleb 1 hi then 1 else 1000). destruct (sigfigs_ok (lo * k) 2 ltac:(lia)) as (s2 & y2 & E2 & N2). destruct (sigfigs_ok (hi * k) 2 ltac:(lia)) as (s3 & y3 & E3 & N3). rewrite E2, E3. cbn [bind].
  eexists. split; [reflexivity|]. assert (P2 : plain s2) by (apply (plain_number _ y2); now left). assert (P3 : plain s3) by (apply (plain_number _ y3); now left).
  repeat apply plain_app; try assumption; try (apply plain_b; reflexivity). destruct (Rleb 1 hi); apply plain_b; reflexivity.
Qed.

(** ** sort order *)
Definition before (a b : nat * R) : Prop := snd b < snd a \/ (snd b = snd a /\ (fst a < fst b)%nat).
Notation leb := (fun a b : nat * R => Rleb (snd b) (snd a)).
Lemma before_trans a b c : before a b -> before b c -> before a c.
Proof. unfold before. intros [A|[A A']] [B|[B B']]; [left; lra|left; lra|left; lra|right; split; [lra|lia]]. Qed.
Lemma insert_before x l : (forall y, In y l -> (fst x < fst y)%nat) -> StronglySorted before l -> StronglySorted before (insert leb x l).
Proof.
  intros H S. induction S as [|y l S IH F]; cbn [insert]; [constructor; constructor|]. destruct (Rleb_spec (snd y) (snd x)) as [E|E].
  - constructor; [now constructor|]. assert (B : before x y). { unfold before. pose proof (H y (or_introl eq_refl)). destruct (Rle_lt_or_eq_dec _ _ E); auto. }
    constructor; [exact B|]. eapply Forall_impl; [|exact F]. intros z. now apply before_trans.
  - constructor; [apply IH; intros z I; apply H; now right|].
    apply Forall_forall. intros z I. assert (P : Permutation (x :: l) (insert leb x l)). { clear. induction l as [|y l IH]; cbn [insert]; [reflexivity|]. destruct (Rleb _ _); [reflexivity|]. rewrite perm_swap. now constructor. }
    apply (Permutation_in _ (Permutation_sym P)) in I. destruct I as [<-|I]; [left; lra|]. rewrite Forall_forall in F. now apply F.
Qed.
Lemma sort_before l : StronglySorted (fun a b : nat * R => (fst a < fst b)%nat) l -> StronglySorted before (sort leb l) /\ Permutation l (sort leb l).
Proof.
  induction 1 as [|x l S [IH P] F]; cbn [sort]; [split; constructor|]. split.
  - apply insert_before; [|exact IH]. intros y I. apply (Permutation_in _ (Permutation_sym P)) in I. rewrite Forall_forall in F. now apply F.
  - rewrite P at 1. generalize (sort leb l). clear. induction l as [|y l IH]; cbn [insert]; [reflexivity|]. destruct (Rleb _ _); [reflexivity|]. rewrite perm_swap. now constructor.
Qed.
Lemma index_lt l x y : StronglySorted before l -> In x l -> In y l -> (forall u v, In u l -> In v l -> fst u = fst v -> u = v) -> before x y ->
  (index_of (fst x) (map fst l) < index_of (fst y) (map fst l))%nat.
Proof.
  intros S. induction S as [|z l S IH F]; intros IX IY U B; [destruct IX|]. cbn [map index_of]. rewrite Forall_forall in F.
  assert (NX : fst x <> fst y). { intros H. assert (x = y) by (apply U; assumption). subst y. destruct B as [B|[_ B]]; [lra|lia]. }
  destruct (Nat.eqb_spec (fst x) (fst z)) as [E|E].
  - destruct (Nat.eqb_spec (fst y) (fst z)); [congruence|lia].
  - destruct IX as [->|IX]; [easy|]. destruct (Nat.eqb_spec (fst y) (fst z)) as [E'|E'].
    + exfalso. assert (y = z) by (apply U; [exact IY|now left|exact E']). subst z. pose proof (before_trans _ _ _ B (F x IX)) as [H|[_ H]]; [lra|lia].
    + destruct IY as [->|IY]; [easy|]. apply -> Nat.succ_lt_mono. apply IH; auto. intros u v I J. apply U; now right.
Qed.
Lemma index_bound i l : In i l -> (index_of i l < length l)%nat.
Proof. induction l as [|j l IH]; [easy|]. cbn [index_of length]. intros H. destruct (Nat.eqb_spec i j); [lia|]. destruct H as [->|H]; [easy|]. specialize (IH H). lia. Qed.
Lemma combine_seq_nth {A} (l : list A) : forall s i a, nth_error l i = Some a -> In ((s + i)%nat, a) (combine (seq s (length l)) l).
Proof.
  induction l as [|x l IH]; intros s [|k] p H; try discriminate; cbn [length seq combine].
  - injection H as ->. left. f_equal. lia.
  - right. replace (s + S k)%nat with (S s + k)%nat by lia. now apply IH.
Qed.
Lemma combine_seq_in {A} (l : list A) : forall s u, In u (combine (seq s (length l)) l) -> exists i, fst u = (s + i)%nat /\ nth_error l i = Some (snd u).
Proof.
  induction l as [|x l IH]; intros s u H; [destruct H|]. cbn [length seq combine] in H. destruct H as [<-|H]; [exists O; split; [cbn; lia|reflexivity]|].
  destruct (IH _ _ H) as (i & E & N). exists (S i). split; [rewrite E; lia|exact N].
Qed.
Lemma combine_seq_sorted {A} (l : list A) : forall s, StronglySorted (fun a b : nat * A => (fst a < fst b)%nat) (combine (seq s (length l)) l).
Proof.
  induction l as [|x l IH]; intros s; cbn [length seq combine]; [constructor|]. constructor; [apply IH|]. apply Forall_forall. intros u I. apply combine_seq_in in I. destruct I as (i & E & _). cbn [fst]. lia.
Qed.
Lemma sort_orders_positions ages : age_positions ages (sort_orders ages).
Proof.
  unfold sort_orders. set (l := combine (seq 0 (length ages)) ages). destruct (sort_before l (combine_seq_sorted ages 0)) as [S P]. set (o := sort leb l) in *.
  assert (LL : length l = length ages) by (unfold l; rewrite combine_length, seq_length; lia).
  assert (LO : length (map fst o) = length ages) by (rewrite map_length, <- (Permutation_length P); exact LL).
  split; [now rewrite map_length, seq_length|]. split.
  - intros k I. apply in_map_iff in I. destruct I as (i & <- & I). apply in_seq in I. rewrite <- LO. apply index_bound. destruct (nth_error ages i) as [a|] eqn:E; [|apply nth_error_None in E; lia].
    apply in_map_iff. exists (i, a). split; [reflexivity|]. apply (Permutation_in _ P). apply (combine_seq_nth ages 0 i a E).
  - intros i j a b k m IJ A B K M.
    assert (NE : forall q w, nth_error (map (fun i => index_of i (map fst o)) (seq 0 (length ages))) q = Some w -> w = index_of q (map fst o)).
    { intros q w H. assert (LT : (q < length ages)%nat). { assert (Q : nth_error (map (fun i => index_of i (map fst o)) (seq 0 (length ages))) q <> None) by congruence. apply nth_error_Some in Q. now rewrite map_length, seq_length in Q. }
      rewrite nth_error_map in H. rewrite (nth_error_nth' _ O) in H by (now rewrite seq_length). rewrite seq_nth in H by exact LT. cbn [option_map] in H. injection H as <-. reflexivity. }
    apply NE in K. apply NE in M. subst k m.
    assert (U : forall u v, In u o -> In v o -> fst u = fst v -> u = v).
    { intros u v IU IV E. apply (Permutation_in _ (Permutation_sym P)) in IU. apply (Permutation_in _ (Permutation_sym P)) in IV. apply combine_seq_in in IU. apply combine_seq_in in IV.
      destruct IU as (x & X1 & X2). destruct IV as (y & Y1 & Y2). destruct u, v. cbn [fst snd] in *. assert (x = y) by lia. subst y. congruence. }
    assert (IA : In (i, a) o) by (apply (Permutation_in _ P), (combine_seq_nth ages 0 i a A)). assert (IB : In (j, b) o) by (apply (Permutation_in _ P), (combine_seq_nth ages 0 j b B)).
    assert (X : b <= a -> (index_of i (map fst o) < index_of j (map fst o))%nat).
    { intros H. apply (index_lt o (i, a) (j, b) S IA IB U). unfold before. cbn [fst snd]. destruct (Rle_lt_or_eq_dec _ _ H); auto. }
    assert (Y : a < b -> (index_of j (map fst o) < index_of i (map fst o))%nat).
    { intros H. apply (index_lt o (j, b) (i, a) S IB IA U). left. exact H. }
    split; split; try assumption; intros H.
    + destruct (Rle_dec b a); [assumption|]. specialize (Y ltac:(lra)). lia.
    + destruct (Rlt_dec a b); [assumption|]. specialize (X ltac:(lra)). lia.
Qed.

(** ** one row *)
Definition range_used (use_bins : bool) (p : cplot) : option (R * option R) :=
  if use_bins then match p_binrange p with Some (a, b) => Some (a, Some b) | None => None end else Some (p_range p).
Lemma summary_row_ok show show_n use_bins mu k p r name : range_used use_bins p = Some r ->
  match p_name p with [] => filename (p_source p) (L "n") None None 4 = Ok name | nm => name = nm end ->
  exists row, summary_row show show_n use_bins mu k p = Ok row /\ row_of show show_n mu r k p (row ++ [[dq] ++ L " " ++ [dq]]).
Proof.
  intros RU NM. unfold summary_row. assert (E : match p_name p with [] => filename (p_source p) (L "n") None None 4 | nm => Ok nm end = Ok name) by (destruct (p_name p); [exact NM|now subst]).
  rewrite E. cbn [bind]. assert (E2 : (if use_bins then match p_binrange p with Some (a, b) => Ok (a, Some b) | None => Err TypeError end else Ok (p_range p)) = Ok r).
  { unfold range_used in RU. destruct use_bins; [|congruence]. destruct (p_binrange p) as [[a b]|]; [|discriminate]. congruence. }
  rewrite E2. cbn [bind]. destruct (diameter_ok (fst r) (snd r)) as (txt & ET & _). rewrite ET. cbn [bind]. destruct (p_t p) as [[t tm] tp] eqn:PT. destruct (p_a0 p) as [[a am] ap] eqn:PA. unfold t0, t1, t2. cbn [fst snd].
  destruct (style_ok t (tp - t) (t - tm) mu true) as (m0 & EM0 & _). rewrite EM0. cbn [bind]. destruct (density_ok (a, am, ap) true) as (m1 & EM1 & _). rewrite EM1. cbn [bind].
  destruct (style_ok t (tp - t) (t - tm) mu false) as (l0 & EL0 & _). rewrite EL0. cbn [bind]. destruct (density_ok (a, am, ap) false) as (l1 & EL1 & _). rewrite EL1. cbn [bind].
  eexists. split; [reflexivity|]. unfold row_of. rewrite PT, PA. do 20 eexists. split; [reflexivity|]. split; [exact NM|].
  split; [apply shows_g; lia|]. split; [apply shows_g; lia|]. split; [destruct (snd r); [apply shows_g; lia|reflexivity]|]. split; [apply int_str_spec|]. split; [apply int_str_spec|].
  split; [repeat split; try (apply shows_g; lia); assumption|]. split; [repeat split; try (apply shows_g; lia); try apply shows_2e; assumption|exact ET].
Qed.
Lemma row_plain show show_n mu r k p row : row_of show show_n mu r k p row -> no_comma (p_binning p) -> no_comma (p_source p) -> no_comma (show_n (p_n p)) -> no_comma (show (p_nevent p)) ->
  match p_name p with [] => forall nm, filename (p_source p) (L "n") None None 4 = Ok nm -> no_comma nm | nm => no_comma nm end -> Forall plain row.
Proof.
  intros (name & area & dmin & dmax & age & agem & agep & a0 & a0m & a0p & n & nm & np & sort & resurf & txt & m0 & m1 & l0 & l1 & -> & NM & AR & DM & DX & RS & SO & T & A & TX) B S N1 N2 NN.
  rewrite <- plain_no_comma in B, S, N1, N2.
  assert (PN : plain name) by (apply plain_no_comma; destruct (p_name p); [now apply NN|now subst]).
  destruct (p_t p) as [[t tm] tp]. destruct (p_a0 p) as [[a am] ap]. destruct T as (T1 & T2 & T3 & T4 & T5). destruct A as (A1 & A2 & A3 & A4 & A5 & A6 & A7 & A8).
  assert (PM0 : plain m0) by (destruct (style_ok t (tp - t) (t - tm) mu true) as (q & E & P); rewrite T4 in E; injection E as ->; exact P).
  assert (PL0 : plain l0) by (destruct (style_ok t (tp - t) (t - tm) mu false) as (q & E & P); rewrite T5 in E; injection E as ->; exact P).
  assert (PM1 : plain m1) by (destruct (density_ok (a, am, ap) true) as (q & E & P); unfold density_text, t0, t1, t2 in E; cbn [fst snd] in E; rewrite A7 in E; injection E as ->; exact P).
  assert (PL1 : plain l1) by (destruct (density_ok (a, am, ap) false) as (q & E & P); unfold density_text, t0, t1, t2 in E; cbn [fst snd] in E; rewrite A8 in E; injection E as ->; exact P).
  assert (PT : plain txt) by (destruct (diameter_ok (fst r) (snd r)) as (q & E & P); rewrite TX in E; injection E as ->; exact P).
  assert (PX : plain dmax) by (destruct (snd r); [eapply plain_shows; exact DX|subst; apply plain_b; reflexivity]).
  assert (PI : forall s z, integer_numeral s z -> plain s) by (intros s z [H _]; apply (plain_number _ (IZR z)); now left).
  repeat apply Forall_cons; try assumption; try (eapply plain_shows; eassumption); try (eapply PI; eassumption); try (apply plain_b; reflexivity); try (apply Forall_nil).
  { destruct (p_type p); apply plain_b; reflexivity. }
  all: split; discriminate.
Qed.
