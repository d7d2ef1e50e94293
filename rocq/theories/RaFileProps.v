(** The results file of the randomness analysis: C48, C52. *)
From Coq Require Import String Ascii List ZArith Reals Bool Lia Lra Permutation.
From Verif Require Import Base NumModel NumLemmas StrModel StrSpec StrProofs StrProofs2 CliModel FmtModel FmtSpec FmtProofs
  TsModel TsSpec TsProofs5 IoModel IoSpec IoProofs IoProofs3 SccModel SccProofs SccProofs2 SccProofs3 RaModel RaProofs3 RaFileModel RaFileSpec RaFileProofs.
Import ListNotations.
Local Open Scope R_scope.

Lemma version_word v : version_ok v -> row_word v.
Proof.
  intros [N F]. split; [exact N|]. eapply Forall_impl; [|exact F]. intros c [H| ->]; [|reflexivity].
  destruct c as [[] [] [] [] [] [] [] []]; vm_compute in H; try discriminate H; reflexivity.
Qed.
Lemma back_stored s m : (forall k r, stored s k = Some r -> k = L "m2cnd" \/ k = L "sdaa") ->
  stored (back_store s) m = match stored s m with Some r => Some (read_back r) | None => None end.
Proof.
  intros K. unfold back_store. destruct (list_eq_dec ascii_dec m (L "m2cnd")) as [->|N1].
  - destruct (stored s (L "m2cnd")); [reflexivity|]. destruct (stored s (L "sdaa")); reflexivity.
  - destruct (list_eq_dec ascii_dec m (L "sdaa")) as [->|N2].
    + destruct (stored s (L "m2cnd")); destruct (stored s (L "sdaa")); reflexivity.
    + assert (E : stored s m = None) by (destruct (stored s m) eqn:E; [destruct (K _ _ E); contradiction|reflexivity]). rewrite E.
      assert (F1 : seqb (L "m2cnd") m = false) by (destruct (seqb_spec (L "m2cnd") m); congruence).
      assert (F2 : seqb (L "sdaa") m = false) by (destruct (seqb_spec (L "sdaa") m); congruence).
      destruct (stored s (L "m2cnd")); destruct (stored s (L "sdaa")); cbn [app stored]; rewrite ?F1, ?F2; reflexivity.
Qed.
Lemma store_names s : store_ok s -> forall k r, stored s k = Some r -> (k = L "m2cnd" \/ k = L "sdaa") /\ record_ok r.
Proof. intros [_ F] k r E. apply stored_In in E. exact (proj1 (Forall_forall _ _) F _ E). Qed.
Lemma back_record (near : R -> R -> Prop) r : Forall (fun p => Forall (fun x => near x (read_g 7 x)) (snd p)) (trials r) -> same_record near r (read_back r).
Proof.
  intros H. split; [reflexivity|]. cbn [read_back trials]. induction H as [|p l Hp H IH]; [constructor|]. cbn [map]. constructor; [|exact IH]. split; [reflexivity|]. cbn [snd].
  induction Hp as [|x q Hx Hq IHq]; [constructor|]. cbn [map]. constructor; [exact Hx|exact IHq].
Qed.
Lemma back_same s : store_ok s -> same_results (significant 7) s (back_store s).
Proof.
  intros OK m. rewrite back_stored by (intros k r E; now apply (store_names s OK k r)). destruct (stored s m) as [r|]; [|exact I].
  apply back_record. apply Forall_forall. intros p _. apply Forall_forall. intros x _. apply (read_g_spec 7 x).
Qed.
Lemma seven_read x : seven_figures x -> read_g 7 x = x.
Proof. intros (m & k & E & B). destruct (read_g_spec 7 x) as [_ S]. exact (significant_exact 7 x _ m k ltac:(lia) S E B). Qed.
Lemma read_seven x : seven_figures (read_g 7 x).
Proof.
  destruct (read_g_spec 7 x) as [_ [[_ E]|(e & [B1 B2] & (n & E & H & _))]].
  - rewrite E. exists 0%Z, 0%Z. split; [lra|reflexivity].
  - change (Z.of_nat (Nat.max 7 1)) with 7%Z in *. set (u := powerRZ 10 (e - 7 + 1)) in *. assert (U : 0 < u) by (apply powerRZ_lt; lra).
    assert (E7 : powerRZ 10 (e + 1) = 10 ^ 7 * u).
    { replace (e + 1)%Z with (7 + (e - 7 + 1))%Z by lia. rewrite powerRZ_add by lra. reflexivity. }
    assert (N : (Z.abs n <= 10 ^ 7)%Z).
    { rewrite E7 in B2. assert (A : Rabs (IZR n * u) <= Rabs x + u / 2) by (rewrite <- E; pose proof (Rabs_triang_inv (read_g 7 x) x) as T; rewrite Rabs_minus_sym in H; lra).
      rewrite Rabs_mult, (Rabs_pos_eq u) in A by lra. assert (IZR (Z.abs n) < 10 ^ 7 + 1).
      { rewrite abs_IZR. apply (Rmult_lt_reg_r u); [exact U|]. lra. }
      replace (10 ^ 7 + 1) with (IZR (10 ^ 7 + 1)) in H0 by (cbn; lra). apply lt_IZR in H0. lia. }
    destruct (Z.eq_dec (Z.abs n) (10 ^ 7)) as [Q|Q].
    + exists (n / 10)%Z, (e - 7 + 1 + 1)%Z. assert (D : n = (n / 10 * 10)%Z) by (destruct (Z.abs_spec n) as [[_ A]|[_ A]]; rewrite A in Q; [rewrite Q; reflexivity|replace n with (- 10 ^ 7)%Z by lia; reflexivity]).
      split; [|destruct (Z.abs_spec n) as [[_ A]|[_ A]]; rewrite A in Q; [rewrite Q; reflexivity|replace n with (- 10 ^ 7)%Z by lia; reflexivity]].
      rewrite powerRZ_add by lra. fold u. rewrite E. assert (P1 : powerRZ 10 1 = 10) by apply powerRZ_1. rewrite P1. assert (D' : IZR n = IZR (n / 10) * 10) by (rewrite D at 1; apply mult_IZR). rewrite D'. ring.
    + exists n, (e - 7 + 1)%Z. split; [exact E|lia].
Qed.
Lemma back_ok s : store_ok s -> store_ok (back_store s).
Proof.
  intros OK. assert (RB : forall r, record_ok r -> record_ok (read_back r)).
  { intros r (P & NE & ND & F). unfold record_ok, read_back. cbn [n_trials trials]. split; [exact P|]. split; [now destruct (trials r)|]. split; [rewrite map_map; exact ND|].
    rewrite Forall_map. eapply Forall_impl; [|exact F]. intros q [A B]. cbn [fst snd]. split; [exact A|]. now rewrite map_length. }
  unfold back_store. destruct (stored s (L "m2cnd")) as [r|] eqn:E1; destruct (stored s (L "sdaa")) as [r'|] eqn:E2; cbn [app];
    repeat match goal with E : stored s _ = Some _ |- _ => apply (store_names s OK) in E; destruct E as [_ E] end; unfold store_ok; cbn [map fst];
    (split; [repeat constructor; cbn; intuition discriminate|]); repeat constructor; cbn [fst snd]; auto; apply RB; assumption.
Qed.

(** * C52 *)
(** writing always succeeds, and reading gives the same measures, trial numbers and bins, with the values to seven figures *)
Theorem C52_roundtrip fs name version source stat s others : store_ok s -> version_ok version -> source_ok source ->
  exists fs' s', write_ra fs name version source stat s = Ok fs' /\ read_ra fs' (name :: others) = Ok s' /\
    same_results (significant 7) s s' /\ store_ok s'.
Proof.
  intros OK V W. destruct (write_ok version source stat s OK) as (bins & B & E). unfold write_ra. rewrite E. cbn [bind].
  exists (write_textfile fs name (ra_written version source stat s bins) false), (back_store s). split; [reflexivity|]. split; [|split; [now apply back_same|now apply back_ok]].
  apply (read_written version source stat s bins (version_word _ V) W OK B fs name [] others). constructor.
Qed.
(** values with at most seven figures are read back unchanged *)
Theorem C52_exact fs name version source stat s others fs' s' : store_ok s -> version_ok version -> source_ok source ->
  (forall m r b v, stored s m = Some r -> In (b, v) (trials r) -> Forall seven_figures v) ->
  write_ra fs name version source stat s = Ok fs' -> read_ra fs' (name :: others) = Ok s' -> forall m, stored s' m = stored s m.
Proof.
  intros OK V W S7 E G m. destruct (write_ok version source stat s OK) as (bins & B & E1). unfold write_ra in E. rewrite E1 in E. cbn [bind] in E. injection E as <-.
  assert (G1 := read_written version source stat s bins (version_word _ V) W OK B fs name [] others ltac:(constructor)). cbn [app] in G1. rewrite G in G1. injection G1 as ->.
  rewrite back_stored by (intros k r Q; now apply (store_names s OK k r)). destruct (stored s m) as [r|] eqn:Q; [|reflexivity]. f_equal. destruct r as [n t]. unfold read_back. cbn [n_trials trials]. f_equal.
  assert (H : forall b v, In (b, v) t -> Forall seven_figures v) by (intros b v; apply (S7 m _ b v Q)). clear - H. induction t as [|[b v] t IH]; [reflexivity|]. cbn [map fst snd]. f_equal.
  - f_equal. assert (Hv : Forall seven_figures v) by (apply (H b); now left). clear - Hv. induction Hv as [|x v Hx Hv IH]; [reflexivity|]. cbn [map]. f_equal; [now apply seven_read|exact IH].
  - apply IH. intros b' v' I. apply (H b'). now right.
Qed.
(** so a second round trip changes nothing *)
Theorem C52_stable fs fs2 name version source stat stat2 s others fs' s' fs'' s'' : store_ok s -> version_ok version -> source_ok source ->
  write_ra fs name version source stat s = Ok fs' -> read_ra fs' (name :: others) = Ok s' ->
  write_ra fs2 name version source stat2 s' = Ok fs'' -> read_ra fs'' (name :: others) = Ok s'' ->
  forall m, stored s'' m = stored s' m.
Proof.
  intros OK V W E G E' G' m. destruct (C52_roundtrip fs name version source stat s others OK V W) as (f1 & s1 & A1 & A2 & _ & A4). rewrite E in A1. injection A1 as <-. rewrite G in A2. injection A2 as <-.
  eapply (C52_exact fs2 name version source stat2 s' others fs'' s'' A4 V W); [|exact E'|exact G'].
  intros k r b v Q I. destruct (write_ok version source stat s OK) as (bins & B & E1). unfold write_ra in E. rewrite E1 in E. cbn [bind] in E. injection E as <-.
  assert (G1 := read_written version source stat s bins (version_word _ V) W OK B fs name [] others ltac:(constructor)). cbn [app] in G1. rewrite G in G1. injection G1 as ->.
  rewrite back_stored in Q by (intros k' r' Q'; now apply (store_names s OK k' r')). destruct (stored s k) as [r0|]; [|discriminate]. injection Q as <-. cbn [read_back trials] in I.
  apply in_map_iff in I as (q & Eq & _). injection Eq as _ <-. rewrite Forall_map. apply Forall_forall. intros x _. apply read_seven.
Qed.
(** the other side: a measure whose bins all have too few craters is stored without bins, and the file cannot be read again *)
Definition no_bins : store := [(L "sdaa", mkRecord 2 [])].
Theorem C52_no_bins_refuted stat : exists fs', write_ra [] (L "a_ra.txt") (L "3.6.10") (L "a.scc") stat no_bins = Ok fs' /\
  read_ra fs' [L "a_ra.txt"] = Err ValueError.
Proof. eexists. split; [reflexivity|]. vm_compute. reflexivity. Qed.
Print Assumptions C52_roundtrip.
Print Assumptions C52_exact.
Print Assumptions C52_stable.
Print Assumptions C52_no_bins_refuted.
Definition small_store : store := [(L "sdaa", mkRecord 2 [(fmt_g 3 1, [1; 2]); (fmt_g 3 2, [3; / 4])])].
Lemma small_names : NoDup [fmt_g 3 1; fmt_g 3 2].
Proof.
  constructor; [|repeat constructor; intros []]. intros [E|[]]. assert (Q : read_g 3 1 = read_g 3 2) by (unfold read_g; now rewrite E).
  destruct (read_g_spec 3 1) as [_ A]. destruct (read_g_spec 3 2) as [_ B].
  pose proof (significant_exact 3 1 (read_g 3 1) 1 0 ltac:(lia) A ltac:(cbn; lra) ltac:(reflexivity)) as A1.
  pose proof (significant_exact 3 2 (read_g 3 2) 2 0 ltac:(lia) B ltac:(cbn; lra) ltac:(reflexivity)) as B1. lra.
Qed.
Lemma small_ok : store_ok small_store.
Proof.
  split; [repeat constructor; intros []|]. constructor; [|constructor]. split; [now right|]. split; [cbn; lia|]. split; [discriminate|]. split; [exact small_names|].
  repeat constructor; cbn [fst]; eexists; reflexivity.
Qed.
Example C52_hypotheses_met : store_ok small_store /\ version_ok (L "3.6.10") /\ source_ok (L "a.scc") /\
  forall m r b v, stored small_store m = Some r -> In (b, v) (trials r) -> Forall seven_figures v.
Proof.
  split; [exact small_ok|]. split; [split; [discriminate|repeat (constructor; [(left; reflexivity) || (right; reflexivity)|]); constructor]|]. split; [split; [repeat constructor|cbn; intuition discriminate]|].
  intros m r b v E I. unfold small_store in E. cbn [stored] in E. destruct (seqb (L "sdaa") m); [|discriminate]. injection E as <-. cbn [trials In] in I.
  destruct I as [I|[I|[]]]; injection I as _ <-.
  - constructor; [exists 1%Z, 0%Z; split; [cbn; lra|reflexivity]|]. constructor; [exists 2%Z, 0%Z; split; [cbn; lra|reflexivity]|constructor].
  - constructor; [exists 3%Z, 0%Z; split; [cbn; lra|reflexivity]|]. constructor; [exists 25%Z, (-2)%Z; split; [unfold powerRZ; change (Pos.to_nat 2) with 2%nat; field|reflexivity]|constructor].
Qed.

(** * C48 *)
Lemma set_In (s : store) k r p : In p (dict_set s k r) -> p = (k, r) \/ In p s.
Proof.
  induction s as [|[k' r'] s IH]; cbn [dict_set]; [intros [<-|[]]; now left|]. destruct (seqb_spec k' k) as [->|N].
  - intros [<-|I]; [now left|right; now right].
  - intros [<-|I]; [right; now left|]. apply IH in I as [->|I]; [now left|right; now right].
Qed.
Lemma set_names (s : store) k r : NoDup (map fst s) -> NoDup (map fst (dict_set s k r)).
Proof.
  induction s as [|[k' r'] s IH]; intros ND; cbn [dict_set]; [repeat constructor; intros []|]. cbn [map fst] in ND. inversion ND; subst. destruct (seqb_spec k' k) as [->|N].
  - cbn [map fst]. now constructor.
  - cbn [map fst]. constructor; [|now apply IH]. intros I. apply in_map_iff in I as (p & E & I). apply set_In in I as [->|I]; [cbn in E; congruence|]. apply H1. rewrite <- E. now apply in_map.
Qed.
Lemma run_ok compute s n m : store_ok s -> m = L "m2cnd" \/ m = L "sdaa" -> record_ok (mkRecord n (compute m n)) -> store_ok (run_montecarlo compute s n m).
Proof.
  intros OK M RO. assert (Q : store_ok (dict_set s m (mkRecord n (compute m n)))).
  { destruct OK as [ND F]. split; [now apply set_names|]. apply Forall_forall. intros p I. apply set_In in I as [->|I]; [auto|]. now apply (proj1 (Forall_forall _ _) F). }
  unfold run_montecarlo. destruct (stored s m) as [r|]; [destruct (Z.leb n (n_trials r)); assumption|exact Q].
Qed.
Definition near7 (x y : R) : Prop := y = x \/ significant 7 x y.
Lemma same_refl s : same_results near7 s s.
Proof.
  intros m. destruct (stored s m) as [r|]; [|exact I]. split; [reflexivity|]. induction (trials r) as [|p l IH]; constructor; [|exact IH]. split; [reflexivity|]. induction (snd p) as [|x v IHv]; constructor; [now left|exact IHv].
Qed.
Lemma near_record r r' : same_record (significant 7) r r' -> same_record near7 r r'.
Proof.
  intros [A B]. split; [exact A|]. clear A. induction B as [|p q l l' [E F] B IH]; constructor; [|exact IH]. split; [exact E|]. induction F; constructor; [now right|assumption].
Qed.
Section Crash.
Variables (compute : str -> Z -> list (str * list R)) (stats : store -> res (str -> str -> sigma)) (version source name : str) (others : list str) (n : Z) (s0 : store).
Hypothesis V : version_ok version.
Hypothesis W : source_ok source.
Definition kept_from (s : store) : Prop :=
  forall m r, stored s0 m = Some r -> exists r', stored s m = Some r' /\ (n_trials r <= n_trials r')%Z /\ ((n <= n_trials r)%Z -> r' = r).
Definition done_in (done : list str) (s : store) : Prop := forall m, In m done -> exists r, stored s m = Some r /\ (n <= n_trials r)%Z.
Definition on_disk (fs : files) (s : store) : Prop := exists s', read_ra fs (name :: others) = Ok s' /\ same_results near7 s s'.
Lemma kept_run s m : kept_from s -> kept_from (run_montecarlo compute s n m).
Proof.
  intros K k r E. destruct (K k r E) as (r1 & E1 & L1 & Q1). destruct (run_never_fewer compute s n m k r1 E1) as (r2 & E2 & L2 & Q2). exists r2. split; [exact E2|]. split; [lia|].
  intros H. specialize (Q1 H). subst r1. destruct Q2 as [->|(_ & _ & L)]; [reflexivity|lia].
Qed.
Lemma done_run done s m : done_in done s -> done_in (done ++ [m]) (run_montecarlo compute s n m).
Proof.
  intros D k I. apply in_app_or in I as [I|[<-|[]]]; [|apply run_enough]. destruct (D k I) as (r & E & Lr). destruct (run_never_fewer compute s n m k r E) as (r2 & E2 & L2 & _). exists r2. split; [exact E2|lia].
Qed.
Lemma rest_states measures : forall done fs s st,
  store_ok s -> Forall (fun m => (m = L "m2cnd" \/ m = L "sdaa") /\ record_ok (mkRecord n (compute m n))) measures ->
  on_disk fs s -> kept_from s -> done_in done s ->
  In st (analysis compute stats version source name n done fs s measures) -> writing st = false ->
  exists s', on_disk (disk st) s' /\ kept_from s' /\ done_in (finished st) s'.
Proof.
  induction measures as [|m rest IH]; intros done fs s st OK F D K DN I Wr; cbn [analysis] in I.
  - destruct I as [<-|[]]. exists s. auto.
  - destruct I as [<-|I]; [exists s; auto|]. inversion F as [|? ? [M RO] F']; subst. pose proof (run_ok compute s n m OK M RO) as OK'. set (s1 := run_montecarlo compute s n m) in *.
    destruct (stats s1) as [stat|] eqn:ES; cbn [bind] in I; [|destruct I]. destruct (write_ok version source stat s1 OK') as (bins & B & E). rewrite E in I. apply in_app_or in I as [I|I].
    + unfold write_states in I. apply in_map_iff in I as (k & <- & _). discriminate Wr.
    + refine (IH _ _ _ _ OK' F' _ (kept_run s m K) (done_run done s m DN) I Wr). exists (back_store s1). split.
      * apply (read_written version source stat s1 bins (version_word _ V) W OK' B fs name [] others). constructor.
      * intros k. pose proof (back_same s1 OK' k) as Q. destruct (stored s1 k), (stored (back_store s1) k); auto. now apply near_record.
Qed.
End Crash.
(** a crash between two writes: the file has every measure finished so far with at least the trials asked for, and every measure
    found at the start with no fewer trials than then, unchanged (to seven figures) if it had enough *)
Theorem C48_between_writes compute stats version source name others n fs s0 measures st :
  version_ok version -> source_ok source -> store_ok s0 -> read_ra fs (name :: others) = Ok s0 ->
  Forall (fun m => (m = L "m2cnd" \/ m = L "sdaa") /\ record_ok (mkRecord n (compute m n))) measures ->
  In st (analysis compute stats version source name n [] fs s0 measures) -> writing st = false ->
  exists s', read_ra (disk st) (name :: others) = Ok s' /\
    (forall m, In m (finished st) -> exists r, stored s' m = Some r /\ (n <= n_trials r)%Z) /\
    (forall m r, stored s0 m = Some r -> exists r', stored s' m = Some r' /\ (n_trials r <= n_trials r')%Z /\
      ((n <= n_trials r)%Z -> same_record (fun x y => y = x \/ significant 7 x y) r r')).
Proof.
  intros V W OK RD F I Wr.
  destruct (rest_states compute stats version source name others n s0 V W measures [] fs s0 st OK F) as (s1 & (s' & R' & S') & K & D); try assumption.
  - exists s0. split; [exact RD|apply same_refl].
  - intros m r E. exists r. split; [exact E|]. split; [lia|auto].
  - intros m [].
  - exists s'. split; [exact R'|]. split.
    + intros m Im. destruct (D m Im) as (r & E & Lr). specialize (S' m). rewrite E in S'. destruct (stored s' m) as [r'|]; [|destruct S']. exists r'. split; [reflexivity|]. destruct S' as [S' _]. lia.
    + intros m r E. destruct (K m r E) as (r1 & E1 & L1 & Q1). specialize (S' m). rewrite E1 in S'. destruct (stored s' m) as [r'|]; [|destruct S']. exists r'. split; [reflexivity|]. split; [destruct S' as [S' _]; lia|].
      intros H. rewrite <- (Q1 H). exact S'.
Qed.
(** the run gets to the end if the statistics can be computed *)
Theorem C48_all_finished compute stats version source name n measures : forall done fs s,
  (forall s, exists stat, stats s = Ok stat) -> store_ok s ->
  Forall (fun m => (m = L "m2cnd" \/ m = L "sdaa") /\ record_ok (mkRecord n (compute m n))) measures ->
  exists st, In st (analysis compute stats version source name n done fs s measures) /\ finished st = done ++ measures /\ writing st = false.
Proof.
  induction measures as [|m rest IH]; intros done fs s SO OK F; cbn [analysis].
  - eexists. split; [now left|]. split; [now rewrite app_nil_r|reflexivity].
  - inversion F as [|? ? [M RO] F']; subst. pose proof (run_ok compute s n m OK M RO) as OK'. set (s1 := run_montecarlo compute s n m) in *. destruct (SO s1) as [stat ES]. rewrite ES. cbn [bind].
    destruct (write_ok version source stat s1 OK') as (bins & B & E). rewrite E. destruct (IH (done ++ [m]) (write_textfile fs name (ra_written version source stat s1 bins) false) s1 SO OK' F') as (st & I & Fi & Wr).
    exists st. split; [right; apply in_or_app; right; exact I|]. split; [now rewrite Fi, <- app_assoc|exact Wr].
Qed.
(** the other side: each write first empties the file, and a crash just then leaves a file that cannot be read: whatever it held is
    lost and the next analysis of that count fails *)
Theorem C48_inside_write_refuted compute stats version source name others n fs s0 m rest :
  (forall s, exists stat, stats s = Ok stat) -> store_ok s0 -> m = L "m2cnd" \/ m = L "sdaa" -> record_ok (mkRecord n (compute m n)) ->
  exists st, In st (analysis compute stats version source name n [] fs s0 (m :: rest)) /\ writing st = true /\
    file_get (disk st) name = Some [] /\ read_ra (disk st) (name :: others) = Err TypeError.
Proof.
  intros SO OK M RO. pose proof (run_ok compute s0 n m OK M RO) as OK'. cbn [analysis]. set (s1 := run_montecarlo compute s0 n m) in *. destruct (SO s1) as [stat ES]. rewrite ES. cbn [bind].
  destruct (write_ok version source stat s1 OK') as (bins & B & E). rewrite E. exists (mkCrash [] true (file_set fs name [])). split.
  - right. apply in_or_app. left. unfold write_states. apply in_map_iff. exists 0%nat. split; [reflexivity|]. apply in_seq. split; [lia|]. unfold ra_written. cbn. lia.
  - cbn [writing disk]. split; [reflexivity|]. split; [apply file_get_set|]. unfold read_ra. cbn [find]. rewrite file_get_set. unfold read_textstructure, read_textfile. rewrite file_get_set. reflexivity.
Qed.
Print Assumptions C48_between_writes.
Print Assumptions C48_all_finished.
Print Assumptions C48_inside_write_refuted.
Definition small_trials (m : str) (n : Z) : list (str * list R) := [(fmt_g 3 1, repeat 1 (Z.to_nat n)); (fmt_g 3 2, repeat 2 (Z.to_nat n))].
Example C48_hypotheses_met : version_ok (L "3.6.10") /\ source_ok (L "a.scc") /\ store_ok [] /\ read_ra [] [L "a_ra.txt"; L "in/a_ra.txt"] = Ok [] /\
  Forall (fun m => (m = L "m2cnd" \/ m = L "sdaa") /\ record_ok (mkRecord 300 (small_trials m 300))) [L "sdaa"; L "m2cnd"] /\
  forall s : store, exists stat, (fun _ : store => Ok (fun _ _ : str => SNum 0)) s = Ok stat.
Proof.
  destruct C52_hypotheses_met as (_ & A & B & _). split; [exact A|]. split; [exact B|]. split; [repeat constructor|]. split; [reflexivity|]. split; [|intros s; eexists; reflexivity].
  assert (Q : forall m, record_ok (mkRecord 300 (small_trials m 300))).
  { intros m. split; [cbn; lia|]. split; [discriminate|]. split; [exact small_names|]. constructor; [|constructor; [|constructor]]; (split; [eexists; reflexivity|]); cbn [snd n_trials]; now rewrite repeat_length. }
  constructor; [auto|]. constructor; [auto|constructor].
Qed.
