(** Ticks, rescaling, crater fractions, the progress iterator and the time axis. *)
From Coq Require Import String Ascii List ZArith Reals Bool Lia Lra Psatz Sorted.
From Verif Require Import Base NumModel NumLemmas InterpProofs StrModel FmtModel FmtProofs ProdModel ProdSpec ProdProofs PlotModel PlotSpec PlotProofs PlotProofs2.
Import ListNotations.
Local Open Scope R_scope.

(** * C43 *)
Lemma effective_wanted mt : Z.max (match mt with None => 5%Z | Some n => if Z.eqb n 0 then 5%Z else n end) 2 = wanted mt.
Proof. destruct mt as [[|n|n]|]; reflexivity. Qed.
Lemma wanted_2 mt : (2 <= wanted mt)%Z.
Proof. rewrite <- effective_wanted. lia. Qed.
Lemma range_of x : (exists a b, In a x /\ In b x /\ a < b) -> exists x0 r, x = x0 :: r /\ list_min x0 r < list_max x0 r.
Proof.
  intros (a & b & IA & IB & H). destruct x as [|x0 r]; [destruct IA|]. exists x0, r. split; [reflexivity|].
  pose proof (list_min_le x0 r a IA). pose proof (list_max_ge x0 r b IB). lra.
Qed.
Lemma nice_is_nice nice e : one_of_nice nice -> nice_number (nice * ten e).
Proof.
  intros N. assert (T : forall k, ten k = powerRZ 10 k) by reflexivity. destruct N as [N|[N|[N|N]]]; rewrite N.
  - exists 1, e. rewrite T. auto.
  - exists 2, e. rewrite T. auto.
  - exists 5, e. rewrite T. auto.
  - exists 1, (e + 1)%Z. split; [auto|]. change (powerRZ 10 (e + 1)) with (ten (e + 1)). rewrite ten_add. assert (T1 : ten 1 = 10) by (rewrite T; simpl; ring). rewrite T1. ring.
Qed.
Lemma cover_multiples lo hi s : cover lo hi s = multiples (Rfloor (lo / s)) s (length (cover lo hi s)).
Proof.
  unfold multiples. apply (nth_ext _ _ 0 0); [now rewrite map_length, seq_length|]. intros i H.
  rewrite (nth_map_seq _ (length (cover lo hi s)) i 0 H). unfold cover in *. rewrite map_length, zrange_length in H.
  rewrite (nth_map_lt (fun i => IZR i * s) _ _ 0%Z) by (rewrite zrange_length; exact H). rewrite zrange_nth by exact H. reflexivity.
Qed.
Lemma cover_ends lo hi s : lo < hi -> 0 < s ->
  hd 0 (cover lo hi s) <= lo < hd 0 (cover lo hi s) + s /\ last (cover lo hi s) 0 - s < hi <= last (cover lo hi s) 0.
Proof.
  intros H SP. destruct (cover_length lo hi s H SP) as [_ K]. unfold cover.
  destruct (Rfloor_spec (lo / s)) as [A B]. destruct (Rceil_spec (hi / s)) as [C E].
  set (i := Rfloor (lo / s)) in *. set (j := Rceil (hi / s)) in *.
  assert (E1 : lo = lo / s * s) by (field; lra). assert (E2 : hi = hi / s * s) by (field; lra).
  split.
  - rewrite zrange_cons by lia. cbn [map hd]. split; [rewrite E1; apply Rmult_le_compat_r; lra|]. rewrite E1 at 1. 
    replace (IZR i * s + s) with ((IZR i + 1) * s) by ring. apply Rmult_lt_compat_r; lra.
  - rewrite zrange_snoc by lia. rewrite map_app. cbn [map]. rewrite last_last. split; [|rewrite E2; apply Rmult_le_compat_r; lra]. rewrite E2 at 1.
    replace (IZR j * s - s) with ((IZR j - 1) * s) by ring. apply Rmult_lt_compat_r; lra.
Qed.
(** For data of positive extent, and at least three ticks allowed or data on one side of zero, the search ends, with no more than the
    allowed number of ticks, which are consecutive multiples of 1, 2 or 5 times a power of ten; the first is the last multiple not above
    the smallest datum, the last the first multiple not below the largest; and the ticks are not too few. *)
Theorem C43_ticks :
  forall x max_ticks,
    (exists a b, In a x /\ In b x /\ a < b) ->
    (3 <= wanted max_ticks)%Z \/ Forall (fun v => 0 <= v) x \/ Forall (fun v => v <= 0) x ->
    exists fuel first step n,
      (forall k, (fuel <= k)%nat -> ticks k x max_ticks None = Some (Ok (multiples first step n, None))) /\
      nice_number step /\ 0 < step /\
      (2 <= Z.of_nat n <= wanted max_ticks)%Z /\ 36 / 100 * (IZR (wanted max_ticks) - 2) < INR n - 1 /\
      (forall v, In v x -> IZR first * step <= v <= IZR (first + Z.of_nat n - 1) * step) /\
      (exists v, In v x /\ v < IZR (first + 1) * step) /\
      (exists v, In v x /\ IZR (first + Z.of_nat n - 2) * step < v).
Proof.
  intros x mt EX ON. destruct (range_of x EX) as (x0 & r & -> & LH). set (lo := list_min x0 r) in *. set (hi := list_max x0 r) in *.
  pose proof (wanted_2 mt) as W2.
  assert (T : (3 <= wanted mt)%Z \/ 0 <= lo \/ hi <= 0).
  { destruct ON as [O|[O|O]]; [now left|right; left|right; right].
    - apply (proj1 (Forall_forall _ _) O). apply list_min_in.
    - apply (proj1 (Forall_forall _ _) O). apply list_max_in. }
  destruct (loop_terminates lo hi (wanted mt) LH W2 T) as (fuel & [t nice] & TE).
  assert (M1 : 9 / 10 * (IZR (wanted mt) - 2) < IZR (wanted mt) * 1) by (apply IZR_le in W2; lra).
  destruct (loop_result lo hi (wanted mt) LH W2 fuel 1 t nice ltac:(lra) M1 (TE fuel (le_n fuel))) as (e & N & E & L6 & LM).
  assert (SP : 0 < nice * ten e) by (apply Rmult_lt_0_compat; [destruct N as [N|[N|[N|N]]]; lra|apply ten_pos]).
  pose proof (nice_is_nice nice e N) as NN. set (s := nice * ten e) in *. clearbody s.
  destruct (cover_length lo hi s LH SP) as [CL CK]. 
  exists fuel, (Rfloor (lo / s)), s, (length t). rewrite INR_IZR_INZ. split; [|split; [exact NN|split; [exact SP|split; [split; [|exact L6]|split; [exact LM|]]]]].
  - intros k LK. unfold ticks. rewrite effective_wanted. fold lo hi. destruct (Reqb_spec lo hi) as [Q|_]; [lra|]. rewrite (TE k LK).
    rewrite E at 1. rewrite cover_multiples, <- E. reflexivity.
  - rewrite E. lia.
  - destruct (Rfloor_spec (lo / s)) as [A B]. destruct (Rceil_spec (hi / s)) as [C D]. rewrite E, CL. 
    set (i := Rfloor (lo / s)) in *. set (j := Rceil (hi / s)) in *. replace (i + (j - i + 1) - 1)%Z with j by ring. replace (i + (j - i + 1) - 2)%Z with (j - 1)%Z by ring.
    rewrite plus_IZR, minus_IZR.
    assert (E1 : lo = lo / s * s) by (field; lra). assert (E2 : hi = hi / s * s) by (field; lra).
    split; [|split].
    + intros v I. pose proof (list_min_le x0 r v I) as P1. pose proof (list_max_ge x0 r v I) as P2. fold lo in P1. fold hi in P2.
      split; [apply Rle_trans with lo; [|exact P1]; rewrite E1|apply Rle_trans with hi; [exact P2|]; rewrite E2]; apply Rmult_le_compat_r; lra.
    + exists lo. split; [apply list_min_in|]. rewrite E1 at 1. apply Rmult_lt_compat_r; lra.
    + exists hi. split; [apply list_max_in|]. rewrite E2. apply Rmult_lt_compat_r; lra.
Qed.
Print Assumptions C43_ticks.
(** With two ticks allowed and data on both sides of zero, the search never ends. *)
Theorem C43_two_ticks_refuted :
  forall fuel x max_ticks max_minor, wanted max_ticks = 2%Z -> (exists a b, In a x /\ In b x /\ a < 0 < b) -> ticks fuel x max_ticks max_minor = None.
Proof.
  intros fuel x mt mm W (a & b & IA & IB & H). destruct (range_of x) as (x0 & r & -> & LH); [exists a, b; repeat split; auto; lra|].
  unfold ticks. rewrite effective_wanted, W. pose proof (list_min_le x0 r a IA). pose proof (list_max_ge x0 r b IB).
  destruct (Reqb_spec (list_min x0 r) (list_max x0 r)) as [Q|_]; [lra|].
  rewrite (loop_diverges (list_min x0 r) (list_max x0 r) 2); auto; lra || lia.
Qed.
Print Assumptions C43_two_ticks_refuted.
(** Data without extent give an error. *)
Theorem C43_no_extent : forall fuel x max_ticks max_minor, (forall a b, In a x -> In b x -> a = b) -> ticks fuel x max_ticks max_minor = Some (Err ValueError).
Proof.
  intros fuel x mt mm H. unfold ticks. destruct x as [|x0 r]; [reflexivity|]. rewrite (H (list_min x0 r) (list_max x0 r)); [|apply list_min_in|apply list_max_in].
  now destruct (Reqb_spec (list_max x0 r) (list_max x0 r)).
Qed.
Print Assumptions C43_no_extent.
Example C43_hypotheses_met :
  (exists a b, In a [3; -1; 7 / 2] /\ In b [3; -1; 7 / 2] /\ a < b) /\ (3 <= wanted (Some 6))%Z /\ wanted (Some 0%Z) = 5%Z /\ wanted (Some (-4)%Z) = 2%Z /\
  exists a b, In a [3; -1; 7 / 2] /\ In b [3; -1; 7 / 2] /\ a < 0 < b.
Proof.
  split; [exists (-1), 3; cbn; repeat split; auto; lra|]. split; [cbn; lia|]. split; [reflexivity|]. split; [reflexivity|].
  exists (-1), 3. cbn. repeat split; auto; lra.
Qed.

(** * C68 *)
Lemma ticks_minor fuel x mt m t k : ticks fuel x mt (Some m) = Some (Ok (t, Some k)) -> (2 <= length t)%nat /\
  exists nice, one_of_nice nice /\ (exists e, nice_number (nice * ten e) /\ t = multiples (Rfloor (list_min (hd 0 x) (tl x) / (nice * ten e))) (nice * ten e) (length t)) /\ minor_ticks nice (length t) m = Ok k.
Proof.
  intros T. unfold ticks in T. destruct x as [|x0 r]; [discriminate T|]. rewrite effective_wanted in T. set (lo := list_min x0 r) in *. set (hi := list_max x0 r) in *.
  destruct (Reqb_spec lo hi) as [Q|Q]; [discriminate T|].
  assert (LH : lo < hi). { pose proof (list_min_le x0 r x0 (or_introl eq_refl)) as P1. pose proof (list_max_ge x0 r x0 (or_introl eq_refl)) as P2. fold lo in P1. fold hi in P2. lra. }
  pose proof (wanted_2 mt) as W2. assert (M1 : 9 / 10 * (IZR (wanted mt) - 2) < IZR (wanted mt) * 1) by (apply IZR_le in W2; lra).
  destruct (ticks_loop fuel lo hi (wanted mt) 1) as [[[t' nice]|e]|] eqn:TE; [|discriminate T|discriminate T].
  destruct (loop_result lo hi (wanted mt) LH W2 fuel 1 t' nice ltac:(lra) M1 TE) as (e & N & E & L6 & LM).
  assert (SP : 0 < nice * ten e) by (apply Rmult_lt_0_compat; [destruct N as [N|[N|[N|N]]]; lra|apply ten_pos]).
  destruct (Z.eqb m 0); [discriminate T|]. destruct (minor_ticks nice (length t') m) as [k'|] eqn:MT; [|discriminate T]. cbn [bind] in T.
  injection T as <- <-. destruct (cover_length lo hi (nice * ten e) LH SP) as [CL CK]. rewrite <- E in CL. split; [lia|].
  exists nice. split; [exact N|]. split; [|exact MT]. exists e. split; [now apply nice_is_nice|]. rewrite E at 1. rewrite cover_multiples. cbn [hd tl]. fold lo. now rewrite <- E.
Qed.
Lemma minor_value nice n m k : (2 <= n)%nat -> minor_ticks nice n m = Ok k ->
  let choice := if Reqb nice 2 then [1; 2; 4; 10]%Z else [1; 2; 5; 10]%Z in
  In k choice /\ (m <= k * (Z.of_nat n - 1))%Z /\ forall c, In c choice -> (c < k)%Z -> (c * (Z.of_nat n - 1) < m)%Z.
Proof.
  intros N. unfold minor_ticks. rewrite (proj2 (Nat.eqb_neq n 1)) by lia. set (choice := if Reqb nice 2 then _ else _). intros P.
  set (b := IZR m / (INR n - 1)) in *.
  assert (BN : IZR m = b * (IZR (Z.of_nat n) - 1)). { unfold b. rewrite INR_IZR_INZ. field. assert (IZR 2 <= IZR (Z.of_nat n)) by (apply IZR_le; lia). lra. }
  assert (N1 : IZR 2 <= IZR (Z.of_nat n)) by (apply IZR_le; lia).
  set (j := searchsorted (map IZR choice) b) in *.
  assert (LC : length choice = 4%nat) by (unfold choice; destruct (Reqb nice 2); reflexivity).
  assert (J : (j < 4)%nat /\ k = nth j choice 0%Z).
  { pose proof (searchsorted_le (map IZR choice) b) as SL. fold j in SL. rewrite map_length, LC in SL. unfold choice in *. clearbody j.
    destruct j as [|[|[|[|[|j]]]]]; try lia; destruct (Reqb nice 2); cbn in P; try discriminate P; injection P as <-; split; cbn; lia. }
  destruct J as [J KE].
  pose proof (searchsorted_above (map IZR choice) b) as SA. fold j in SA. rewrite map_length, LC in SA. specialize (SA J).
  rewrite (nth_map_lt IZR choice _ 0%Z) in SA by lia. rewrite <- KE in SA.
  split; [rewrite KE; apply nth_In; lia|]. split.
  - apply le_IZR. rewrite BN, mult_IZR, minus_IZR. apply Rmult_le_compat_r; lra.
  - intros c IC LT. apply (In_nth _ _ 0%Z) in IC as (i & LI & <-). rewrite LC in LI.
    assert (IJ : (i < j)%nat).
    { rewrite KE in LT. unfold choice in LT. clear - LT LI J. destruct (Reqb nice 2); destruct i as [|[|[|[|i]]]], j as [|[|[|[|j]]]]; cbn in LT; lia. }
    pose proof (searchsorted_below (map IZR choice) b i IJ) as SB. rewrite (nth_map_lt IZR choice _ 0%Z) in SB by lia.
    apply lt_IZR. rewrite BN, mult_IZR, minus_IZR. apply Rmult_lt_compat_r; lra.
Qed.
(** The number of minor intervals offered for a step: divisors that give round parts. *)
Definition divisions (lead : R) (c : Z) : Prop := (c = 1 \/ c = 2 \/ c = 10)%Z \/ lead = 2 /\ c = 4%Z \/ lead <> 2 /\ c = 5%Z.
Lemma divisions_choice nice c : divisions nice c <-> In c (if Reqb nice 2 then [1; 2; 4; 10]%Z else [1; 2; 5; 10]%Z).
Proof. unfold divisions. destruct (Reqb_spec nice 2) as [E|E]; cbn; intuition. Qed.
(** The number of minor ticks per tick is the smallest of those offered that gives the requested number or more in total: the request is
    a lower bound and not, as documented, an upper one. *)
Theorem C68_minor_ticks_refuted :
  forall fuel x max_ticks m t k, ticks fuel x max_ticks (Some m) = Some (Ok (t, Some k)) ->
    exists first lead e n, (lead = 1 \/ lead = 2 \/ lead = 5 \/ lead = 10) /\ t = multiples first (lead * powerRZ 10 e) n /\ (2 <= n)%nat /\ divisions lead k /\
      (m <= k * (Z.of_nat n - 1))%Z /\
      forall c, divisions lead c -> (c < k)%Z -> (c * (Z.of_nat n - 1) < m)%Z.
Proof.
  intros fuel x mt m t k T. destruct (ticks_minor fuel x mt m t k T) as (L2 & nice & N & (e & _ & E) & MT).
  destruct (minor_value nice (length t) m k L2 MT) as (IC & GE & LT).
  eexists _, nice, e, (length t). split; [exact N|]. split; [exact E|]. split; [exact L2|]. split; [now apply divisions_choice|]. split; [exact GE|].
  intros c D. apply LT. now apply divisions_choice.
Qed.
Print Assumptions C68_minor_ticks_refuted.
(** A request for more than ten minor ticks per tick fails. *)
Theorem C68_many_refuted :
  forall fuel x max_ticks m t, ticks fuel x max_ticks None = Some (Ok (t, None)) -> (10 * (Z.of_nat (length t) - 1) < m)%Z ->
    ticks fuel x max_ticks (Some m) = Some (Err IndexError).
Proof.
  intros fuel x mt m t T H. assert (L2 : (2 <= length t)%nat).
  { unfold ticks in T. destruct x as [|x0 r]; [discriminate T|]. rewrite effective_wanted in T. set (lo := list_min x0 r) in *. set (hi := list_max x0 r) in *.
    destruct (Reqb_spec lo hi) as [Q|Q]; [discriminate T|].
    assert (LH : lo < hi). { pose proof (list_min_le x0 r x0 (or_introl eq_refl)) as P1. pose proof (list_max_ge x0 r x0 (or_introl eq_refl)) as P2. fold lo in P1. fold hi in P2. lra. }
    pose proof (wanted_2 mt) as W2. assert (M1 : 9 / 10 * (IZR (wanted mt) - 2) < IZR (wanted mt) * 1) by (apply IZR_le in W2; lra).
    destruct (ticks_loop fuel lo hi (wanted mt) 1) as [[[t' nice]|e]|] eqn:TE; [|discriminate T|discriminate T].
    destruct (loop_result lo hi (wanted mt) LH W2 fuel 1 t' nice ltac:(lra) M1 TE) as (e & N & E & L6 & LM).
    assert (SP : 0 < nice * ten e) by (apply Rmult_lt_0_compat; [destruct N as [N|[N|[N|N]]]; lra|apply ten_pos]).
    injection T as <-. destruct (cover_length lo hi (nice * ten e) LH SP) as [CL CK]. rewrite <- E in CL. lia. }
  unfold ticks in *. destruct x as [|x0 r]; [discriminate T|]. rewrite effective_wanted in *.
  destruct (Reqb_spec (list_min x0 r) (list_max x0 r)) as [Q|Q]; [discriminate T|].
  destruct (ticks_loop fuel (list_min x0 r) (list_max x0 r) (wanted mt) 1) as [[[t' nice]|e]|]; [|discriminate T|discriminate T].
  injection T as <-. rewrite (proj2 (Z.eqb_neq m 0)) by lia.
  assert (MT : minor_ticks nice (length t') m = Err IndexError).
  { unfold minor_ticks. rewrite (proj2 (Nat.eqb_neq (length t') 1)) by lia. set (b := IZR m / (INR (length t') - 1)).
    assert (B : 10 < b).
    { unfold b. rewrite INR_IZR_INZ. assert (N1 : IZR 2 <= IZR (Z.of_nat (length t'))) by (apply IZR_le; lia). apply IZR_lt in H. rewrite mult_IZR, minus_IZR in H.
      apply (Rmult_lt_reg_r (IZR (Z.of_nat (length t')) - 1)); [lra|]. replace (IZR m / (IZR (Z.of_nat (length t')) - 1) * (IZR (Z.of_nat (length t')) - 1)) with (IZR m) by (field; lra). exact H. }
    clearbody b. destruct (Reqb nice 2); cbn [map searchsorted]; rewrite (Rltb_true 1 b), (Rltb_true 2 b), (Rltb_true 10 b) by lra; [rewrite (Rltb_true 4 b) by lra|rewrite (Rltb_true 5 b) by lra]; reflexivity. }
  rewrite MT. reflexivity.
Qed.
Print Assumptions C68_many_refuted.
Example C68_hypotheses_met : exists fuel t k, ticks fuel [0; 4] (Some 6%Z) (Some 12%Z) = Some (Ok (t, Some k)).
Proof. destruct (six_ticks 0 4 ltac:(lra)) as (fuel & t & m & H & _). exists fuel, t, m. apply H. lia. Qed.

(** * C56 *)
Theorem C56_area_fraction :
  area_fraction 0 = 0 /\ area_fraction (1 / 2) = 1 / 2 /\ area_fraction 1 = 1 /\
  (forall x, area_fraction (1 - x) = 1 - area_fraction x) /\
  (forall x y, 0 <= x -> x < y -> y <= 1 -> area_fraction x < area_fraction y) /\
  (forall x, 0 <= x <= 1 -> 0 <= area_fraction x <= 1).
Proof.
  assert (A1 : area_fraction 1 = 1) by (pose proof (area_fraction_sym 0) as E; rewrite area_fraction_0, Rminus_0_r in E; lra).
  split; [apply area_fraction_0|]. split; [pose proof (area_fraction_sym (1 / 2)) as E; replace (1 - 1 / 2) with (1 / 2) in E by lra; lra|].
  split; [exact A1|]. split; [apply area_fraction_sym|]. split; [apply area_fraction_lt|].
  intros x [A B]. split.
  - destruct (Req_dec x 0) as [->|N]; [rewrite area_fraction_0; lra|]. rewrite <- area_fraction_0 at 1. apply Rlt_le, area_fraction_lt; lra.
  - destruct (Req_dec x 1) as [->|N]; [lra|]. rewrite <- A1. apply Rlt_le, area_fraction_lt; lra.
Qed.
Print Assumptions C56_area_fraction.
(** it is the part of the disc of unit area's circle cut off by a chord: the area of the segment of height 2x in a unit circle, over pi *)
Theorem C56_segment : forall x, 0 <= x <= 1 ->
  area_fraction x = (acos (1 - 2 * x) - (1 - 2 * x) * sqrt (1 - (1 - 2 * x)²)) / PI.
Proof.
  intros x H. unfold area_fraction. set (d := 1 - 2 * x). assert (D : -1 <= d <= 1) by (unfold d; lra).
  rewrite sin_2a, cos_acos by exact D. rewrite sin_acos by exact D. pose proof PI_RGT_0. field. lra.
Qed.
Print Assumptions C56_segment.
Theorem C56_inverse :
  (forall i, (i <= 99)%nat -> af2lf (area_fraction (INR i / 99)) = Ok (INR i / 99)) /\
  (forall a, exists y, af2lf a = Ok y /\ 0 <= y <= 1) /\
  (forall a b y z, a <= b -> af2lf a = Ok y -> af2lf b = Ok z -> y <= z) /\
  (forall x y, 0 <= x <= 1 -> af2lf (area_fraction x) = Ok y -> Rabs (y - x) <= 1 / 99).
Proof.
  pose proof (SS_lt_le _ af_sorted_x) as SX. pose proof (SS_lt_le _ af_sorted_y) as SY.
  assert (MO : forall a b y z, a <= b -> af2lf a = Ok y -> af2lf b = Ok z -> y <= z).
  { intros a b y z H A B. rewrite af2lf_table in A, B. exact (interp_mono af_table a b y z SX SY H A B). }
  split; [intros i H; apply af2lf_at; lia|]. split; [|split; [exact MO|]].
  - intros a. destruct (interp_total a af_table af_ne) as (y & E). exists y. rewrite af2lf_table. split; [exact E|].
    pose proof (interp_range af_table a y SX SY E) as B. rewrite af_length in B. change (100 - 1)%nat with 99%nat in B. rewrite !af_nth in B by lia. cbn [snd] in B.
    rewrite INR_99 in B. change (INR 0) with 0 in B. lra.
  - intros x y [X0 X1] E. 
    assert (MA : forall u v, 0 <= u -> u <= v -> v <= 1 -> area_fraction u <= area_fraction v).
    { intros u v U V W. destruct (Req_dec u v) as [->|N]; [lra|]. apply Rlt_le, area_fraction_lt; lra. }
    destruct (Rfloor_spec (x * 99)) as [F1 F2]. set (z := Rfloor (x * 99)) in *. clearbody z.
    assert (Z0 : (0 <= z <= 99)%Z). { split; [assert (K : IZR (-1) < IZR z) by (change (IZR (-1)) with (-1); lra); apply lt_IZR in K; lia|apply le_IZR; lra]. }
    set (i := Z.to_nat z). assert (ZI : IZR z = INR i) by (unfold i; rewrite INR_IZR_INZ, Z2Nat.id by lia; reflexivity). rewrite ZI in F1, F2.
    assert (I99 : (i <= 99)%nat) by (unfold i; lia).
    assert (LOW : INR i / 99 <= y). { refine (MO _ _ _ _ _ (af2lf_at i ltac:(lia)) E). pose proof (lf_range i ltac:(lia)). apply MA; lra. }
    assert (HIGH : y <= (INR i + 1) / 99).
    { destruct (Nat.eq_dec i 99) as [E9|N9].
      - pose proof (af2lf_at 99 ltac:(lia)) as T. rewrite INR_99 in T. replace (99 / 99) with 1 in T by field. pose proof (MO _ _ _ _ (MA x 1 X0 X1 ltac:(lra)) E T) as Y1. rewrite E9, INR_99. lra.
      - pose proof (lf_range (S i) ltac:(lia)) as B. rewrite <- S_INR. refine (MO _ _ _ _ _ E (af2lf_at (S i) ltac:(lia))). rewrite S_INR in *. apply MA; lra. }
    apply Rabs_le. lra.
Qed.
Print Assumptions C56_inverse.
Example C56_hypotheses_met : (37 <= 99)%nat /\ 0 <= 1 / 3 <= 1.
Proof. split; [lia|lra]. Qed.

(** * C58 *)
Lemma consume_step {A} total (l : list A) i k :
  consume total k (combine (map Z.of_nat (seq i (length l))) l) =
  flat_map (fun p => [Report (Z.of_nat (fst p) + 1) total; Item (Z.of_nat (fst p)) (snd p)]) (firstn k (combine (seq i (length l)) l)) ++ repeat Stop (k - length l).
Proof.
  revert l i. induction k as [|k IH]; intros l i; [reflexivity|]. destruct l as [|x l].
  - cbn [length seq map combine firstn flat_map consume next app]. specialize (IH [] i). cbn [length seq map combine firstn flat_map app] in IH.
    rewrite firstn_nil in IH. cbn [flat_map app] in IH. rewrite IH. rewrite !Nat.sub_0_r. reflexivity.
  - cbn [length seq map combine firstn flat_map consume next app fst snd]. rewrite IH. reflexivity.
Qed.
(** A consumer asking k times gets the first k items in order, each directly after the report of its number and the total; if it asks for
    more than there are it gets the end, without report. *)
Definition reported {A} (total : option Z) (k : nat) (l : list A) : list (event A) :=
  flat_map (fun p => [Report (Z.of_nat (fst p) + 1) total; Item (Z.of_nat (fst p)) (snd p)]) (combine (seq 0 k) (firstn k l)).
Lemma firstn_combine {A B} k (l : list A) (m : list B) : firstn k (combine l m) = combine (firstn k l) (firstn k m).
Proof. revert l m. induction k as [|k IH]; intros [|x l] [|y m]; try reflexivity. cbn [combine firstn]. now rewrite IH. Qed.
Lemma firstn_seq k i n : firstn k (seq i n) = seq i (Nat.min k n).
Proof. revert i n. induction k as [|k IH]; intros i [|n]; try reflexivity. cbn [seq firstn Nat.min]. now rewrite IH. Qed.
Lemma combine_min {A} k i (l : list A) : (length l <= k)%nat -> combine (seq i (length l)) l = combine (seq i k) l.
Proof. revert k i. induction l as [|x l IH]; intros [|k] i H; try reflexivity; cbn [length] in *; [lia|]. cbn [seq combine]. rewrite (IH k) by lia. reflexivity. Qed.
Theorem C58_transparent : forall (A : Type) total (l : list A) k,
  consume total k (enumerate l) = reported total k l ++ repeat Stop (k - length l).
Proof.
  intros A total l k. unfold enumerate. rewrite consume_step. f_equal. unfold reported. f_equal. rewrite firstn_combine, firstn_seq.
  destruct (Nat.le_ge_cases k (length l)) as [H|H].
  - now rewrite Nat.min_l.
  - rewrite Nat.min_r by exact H. rewrite !(firstn_all2 l) by exact H. now apply combine_min.
Qed.
Print Assumptions C58_transparent.
(** in particular *)
Theorem C58_items : forall (A : Type) total (l : list A) k,
  flat_map (fun e => match e with Item _ x => [x] | _ => [] end) (consume total k (enumerate l)) = firstn k l.
Proof.
  intros A total l k. rewrite C58_transparent, flat_map_app. replace (flat_map _ (repeat Stop (k - length l))) with (@nil A); [|induction (k - length l)%nat; auto].
  rewrite app_nil_r. unfold reported. generalize 0%nat as i. revert l. induction k as [|k IH]; intros [|x l] i; try reflexivity.
  cbn [firstn seq combine flat_map app]. now rewrite IH.
Qed.
Print Assumptions C58_items.
Example C58_hypotheses_met : consume (Some 2%Z) 3 (enumerate [7%Z; 8%Z]) = [Report 1 (Some 2%Z); Item 0 7%Z; Report 2 (Some 2%Z); Item 1 8%Z; Stop].
Proof. reflexivity. Qed.

(** * C59 *)
(** [a, b] the output range, [mn, mx] the input range *)
Definition rescaled (mn mx a b v : R) (o : R) : Prop :=
  (v <= mn -> o = a) /\ (mx <= v -> o = b) /\ (mn <= v <= mx -> (o - a) * (mx - mn) = (v - mn) * (b - a)).
Lemma clip_rescaled mn mx a b v : mn < mx -> rescaled mn mx a b v (a + clip 0 1 ((v - mn) / (mx - mn)) * (b - a)).
Proof.
  intros H. set (q := (v - mn) / (mx - mn)). assert (Q : v - mn = q * (mx - mn)) by (unfold q; field; lra). clearbody q. repeat split; intros K.
  - rewrite clip_low; [ring|lra|]. apply (Rmult_le_reg_r (mx - mn)); lra.
  - rewrite clip_high; [ring|lra|]. apply (Rmult_le_reg_r (mx - mn)); lra.
  - rewrite clip_in; [rewrite Q; ring|]. split; apply (Rmult_le_reg_r (mx - mn)); lra.
Qed.
Lemma clip_rescaled_mono mn mx a b v w : mn < mx -> a <= b -> v <= w -> a + clip 0 1 ((v - mn) / (mx - mn)) * (b - a) <= a + clip 0 1 ((w - mn) / (mx - mn)) * (b - a).
Proof.
  intros H AB VW. apply Rplus_le_compat_l, Rmult_le_compat_r; [lra|]. apply clip_mono. apply Rmult_le_compat_r; [apply Rlt_le, Rinv_0_lt_compat; lra|lra].
Qed.
(** with real output: a vector of the same length, each value rescaled; order is kept *)
Theorem C59_linear : forall x mn mx a b, x <> [] -> mn < mx ->
  exists y, scl x false (Some (mn, mx)) (Some (a, b, false)) None = Ok y /\
    Forall2 (rescaled mn mx a b) x y /\
    (a <= b -> Forall (fun o => a <= o <= b) y) /\
    (a <= b -> forall i j, (i < length x)%nat -> (j < length x)%nat -> nth i x 0 <= nth j x 0 -> nth i y 0 <= nth j y 0).
Proof.
  intros x mn mx a b N H. exists (map (fun v => a + clip 0 1 ((v - mn) / (mx - mn)) * (b - a)) x).
  assert (E : scl x false (Some (mn, mx)) (Some (a, b, false)) None = Ok (map (fun v => a + clip 0 1 ((v - mn) / (mx - mn)) * (b - a)) x)).
  { destruct x as [|x0 r]; [congruence|]. unfold scl. cbn [bind]. destruct (Reqb_spec mx mn); [lra|]. now rewrite map_map. }
  split; [exact E|]. split; [|split].
  - clear E N. induction x as [|v x IH]; constructor; auto. now apply clip_rescaled.
  - intros AB. apply Forall_forall. intros o I. apply in_map_iff in I as (v & <- & _). destruct (clip_bounds 0 1 ((v - mn) / (mx - mn))); [lra|]. nra.
  - intros AB i j LI LJ V. rewrite !(nth_map_lt _ x _ 0) by assumption. now apply clip_rescaled_mono.
Qed.
Print Assumptions C59_linear.
(** without an input range that of the data is used, so the smallest goes to a and the largest to b; without an output range the
    values go to 0 .. 100-1e-5, for a named integer type to its range, and are then truncated to integers if the type is one *)
Definition default_out (t : option type_name) : R * R :=
  match t with
  | Some Byte => (0, 256 - / 10 ^ 5) | Some Int16 => (-32768, 32768 - / 10 ^ 2) | Some UInt16 => (0, 65536 - / 10 ^ 2) | _ => (0, 100 - / 10 ^ 5)
  end.
Theorem C59_defaults : forall x mn mx t whole,
  In mn x -> In mx x -> (forall v, In v x -> mn <= v <= mx) -> mn < mx -> t <> Some OtherName ->
  exists y, scl x whole None None t = Ok y /\
    Forall2 (fun v o => exists o', rescaled mn mx (fst (default_out t)) (snd (default_out t)) v o' /\
       (if (match t with None => whole | Some _ => true end) then exists z, o = IZR z /\ toward_zero o' z else o = o')) x y /\
    (forall i j, (i < length x)%nat -> (j < length x)%nat -> nth i x 0 <= nth j x 0 -> nth i y 0 <= nth j y 0).
Proof.
  intros x mn mx t whole I1 I2 B H NT.
  set (o := fun v => fst (default_out t) + clip 0 1 ((v - mn) / (mx - mn)) * (snd (default_out t) - fst (default_out t))).
  set (w := match t with None => whole | Some _ => true end).
  set (f := fun v => if w then truncate (o v) else o v).
  assert (E : scl x whole None None t = Ok (map f x)).
  { destruct x as [|x0 r]; [destruct I1|]. unfold scl. rewrite (list_min_unique x0 r mn), (list_max_unique x0 r mx); auto; try (intros v I; apply B; exact I).
    destruct t as [[]|]; try congruence; cbn [out_bounds bind]; (destruct (Reqb_spec mx mn); [lra|]); rewrite map_map; reflexivity. }
  exists (map f x). split; [exact E|]. split.
  - clear E I1 I2 B. induction x as [|v x IH]; constructor; auto. exists (o v). split; [now apply clip_rescaled|]. unfold f. fold w. destruct w; [|reflexivity].
    destruct (truncate_spec (o v)) as (z & Z1 & Z2). exists z. auto.
  - intros i j LI LJ V. rewrite !(nth_map_lt f x _ 0) by assumption. assert (OM : o (nth i x 0) <= o (nth j x 0)).
    { unfold o. apply clip_rescaled_mono; [exact H| |exact V]. destruct t as [[]|]; cbn [default_out fst snd]; lra. }
    unfold f. destruct w; [now apply truncate_mono|exact OM].
Qed.
Print Assumptions C59_defaults.
(** A type name together with an output range, or a name that is none of the three, is an error, though both are accepted arguments. *)
Theorem C59_type_and_range_refuted : forall x whole r t out, x <> [] -> out <> None \/ t = OtherName -> scl x whole r out (Some t) = Err NameError.
Proof.
  intros [|x0 x] whole r t out N C; [congruence|]. unfold scl. destruct r as [[mn mx]|]; destruct out as [[[a b] i]|]; destruct t; cbn [out_bounds bind]; try reflexivity; destruct C; congruence.
Qed.
Print Assumptions C59_type_and_range_refuted.
(** constant data have no range *)
Theorem C59_constant : forall x whole, x <> [] -> (forall a b, In a x -> In b x -> a = b) -> scl x whole None None None = Err NotANumber.
Proof.
  intros [|x0 r] whole N C; [congruence|]. unfold scl. rewrite (C (list_min x0 r) (list_max x0 r)); [|apply list_min_in|apply list_max_in].
  cbn [out_bounds bind]. now destruct (Reqb_spec (list_max x0 r) (list_max x0 r)).
Qed.
Print Assumptions C59_constant.
Theorem C59_poly : forall c x, poly c x = fold_right Rplus 0 (map (fun i => nth i c 0 * x ^ i) (seq 0 (length c))).
Proof.
  intros c x. rewrite poly_peval. 
  assert (G : forall i, x ^ i * peval c x = fold_right Rplus 0 (map (fun j => nth (j - i) c 0 * x ^ j) (seq i (length c)))).
  { induction c as [|a c IH]; intros i; cbn [peval length seq map fold_right]; [ring|]. rewrite Nat.sub_diag. cbn [nth].
    rewrite (map_ext_in _ (fun j => nth (j - S i) c 0 * x ^ j)).
    - rewrite <- IH. cbn [pow]. ring.
    - intros j I. apply in_seq in I. replace (j - i)%nat with (S (j - S i)) by lia. reflexivity. }
  specialize (G 0%nat). cbn [pow] in G. rewrite Rmult_1_l in G. rewrite G. f_equal. apply map_ext. intros j. now rewrite Nat.sub_0_r.
Qed.
Print Assumptions C59_poly.
Example C59_hypotheses_met :
  [3; -1; 7 / 2] <> [] /\ 0 < 2 /\ In (-1) [3; -1; 7 / 2] /\ In (7 / 2) [3; -1; 7 / 2] /\ (forall v, In v [3; -1; 7 / 2] -> -1 <= v <= 7 / 2) /\ Some Byte <> Some OtherName.
Proof.
  split; [discriminate|]. split; [lra|]. split; [cbn; auto|]. split; [cbn; auto|]. split; [|discriminate].
  intros v [<-|[<-|[<-|[]]]]; lra.
Qed.

(** * C60 *)
Theorem C60_time_axis : forall x0 x1, exists fuel ax,
  (forall k, (fuel <= k)%nat -> time_axis_params k x0 x1 = Some (Ok ax)) /\
  0 <= ta_min ax /\ ta_min ax < ta_max ax /\ 3 <= ta_max ax <= 9 / 2 /\
  0 <= ta_linear ax <= 1 /\
  ta_ticks ax <> [] /\ Forall (fun v => ta_min ax <= v <= ta_max ax) (ta_ticks ax) /\ length (ta_labels ax) = length (ta_ticks ax) /\
  (* what is asked for is shown, as far as it lies within 0 .. 4.5 Ga *)
  (forall v, 0 <= v <= 9 / 2 -> Rmin x0 x1 <= v <= Rmax x0 x1 -> ta_min ax <= v <= ta_max ax) /\
  (* a logarithmic part is used exactly if the range begins between 0 and 1 Ga; it then begins at a power of ten *)
  (ta_crossover ax = true <-> 0 < Rmin x0 x1 < 1) /\
  (ta_crossover ax = true -> (exists e, ta_min ax = powerRZ 10 e) /\ ta_log_min ax = Some (log10 (ta_min ax)) /\ ta_min ax <= Rmin x0 x1 < 10 * ta_min ax) /\
  (ta_crossover ax = false -> ta_linear ax = 1 /\ ta_log_min ax = None).
Proof.
  intros x0 x1. set (lo := Rmin x0 x1). set (hi := Rmax x0 x1). assert (LE : lo <= hi) by (unfold lo, hi, Rmin, Rmax; repeat destruct (Rle_dec _ _); lra).
  unfold time_axis_params. fold lo hi. clearbody lo hi. clear x0 x1.
  set (tm := clip 3 (9 / 2) hi). assert (TM : 3 <= tm <= 9 / 2) by (apply clip_bounds; lra).
  set (tn := clip 0 (tm - 1 / 10) lo). assert (TN : 0 <= tn <= tm - 1 / 10) by (apply clip_bounds; lra).
  assert (COV : forall v, 0 <= v <= 9 / 2 -> lo <= v <= hi -> tn <= v <= tm).
  { intros v A B. unfold tn, tm, clip, Rmin, Rmax. repeat destruct (Rle_dec _ _); lra. }
  assert (TNL : tn < 1 /\ tn <> 0 <-> 0 < lo < 1).
  { unfold tn. unfold clip, Rmin, Rmax. repeat destruct (Rle_dec _ _); lra. }
  assert (TNE : 0 < lo < 1 -> tn = lo) by (intros A; unfold tn; apply clip_in; lra).
  destruct (Rltb_spec tn 1) as [L1|L1]; [destruct (Reqb_spec tn 0) as [Z0|Z0]|]; cbn [andb negb].
  2:{ (* logarithmic *)
    assert (LB : 0 < lo < 1) by tauto. rewrite (TNE LB) in *. destruct (ten_log lo ltac:(lra)) as [A B]. set (e := Rfloor (log10 lo)) in *. pose proof (ten_pos e) as TP.
    rewrite ten_add in B. assert (T1 : ten 1 = 10) by (unfold ten; simpl; ring). rewrite T1 in B.
    set (tk := filter (fun v => Rleb v tm) [3; 7 / 2; 4]).
    assert (TK : In 3 tk) by (apply filter_In; split; [now left|apply Rleb_true; lra]).
    destruct (time_labels_ok tk) as (ls & LS & LL); [intros Q; rewrite Q in TK; destruct TK|].
    assert (LG : log10 (ten e) < log10 3) by (apply log10_lt; lra).
    assert (DU : exists f, divide_units (Rmax (tm - 3) 0 / (7 / 10)) (log10 3 - log10 (ten e)) = Ok f /\ 0 <= f <= 1).
    { unfold divide_units. rewrite Rmax_left by lra. set (u := (tm - 3) / (7 / 10)). set (g := log10 3 - log10 (ten e)). assert (U : 0 <= u) by (unfold u; lra). assert (G : 0 < g) by (unfold g; lra).
      clearbody u g. destruct (Reqb_spec (u + g) 0) as [Q|Q]; [lra|]. exists (u / (u + g)). split; [reflexivity|]. split; [apply Rmult_le_pos; [lra|apply Rlt_le, Rinv_0_lt_compat; lra]|].
      apply (Rmult_le_reg_r (u + g)); [lra|]. replace (u / (u + g) * (u + g)) with u by (field; lra). lra. }
    destruct DU as (f & DU & FB). exists 0%nat. eexists. split; [intros k _; rewrite LS; cbn [bind]; rewrite DU; reflexivity|].
    cbn [ta_min ta_max ta_crossover ta_log_min ta_linear ta_ticks ta_labels].
    split; [lra|]. split; [lra|]. split; [exact TM|]. split; [exact FB|]. split; [intros Q; rewrite Q in TK; destruct TK|].
    split. { apply Forall_forall. intros v I. apply filter_In in I as [I IL]. destruct (Rleb_spec v tm) as [IL'|]; [|discriminate IL]. destruct I as [<-|[<-|[<-|[]]]]; lra. }
    split; [exact LL|]. split; [intros v V W; specialize (COV v V W); lra|]. split; [tauto|]. split; [|discriminate].
    intros _. split; [exists e; reflexivity|]. split; [reflexivity|]. lra. }
  all: destruct (six_ticks tn tm ltac:(lra)) as (fuel & t & m & T & (v0 & IV & BV));
    set (tk := filter (fun v => Rleb tn v && Rleb v tm) t);
    assert (TK : In v0 tk) by (apply filter_In; split; [exact IV|]; rewrite !Rleb_true by lra; reflexivity);
    (destruct (time_labels_ok tk) as (ls & LS & LL); [intros Q; rewrite Q in TK; destruct TK|]);
    (assert (DU : divide_units 1 0 = Ok 1) by (unfold divide_units; destruct (Reqb_spec (1 + 0) 0); [lra|f_equal; field]));
    exists fuel; eexists; (split; [intros k LK; rewrite (T k LK); cbn [bind]; fold tk; rewrite LS; cbn [bind]; rewrite DU; reflexivity|]);
    cbn [ta_min ta_max ta_crossover ta_log_min ta_linear ta_ticks ta_labels];
    (split; [lra|]); (split; [lra|]); (split; [exact TM|]); (split; [lra|]); (split; [intros Q; rewrite Q in TK; destruct TK|]);
    (split; [apply Forall_forall; intros v I; apply filter_In in I as [I IL]; apply andb_prop in IL as [IL1 IL2]; destruct (Rleb_spec tn v); [|discriminate IL1]; destruct (Rleb_spec v tm); [lra|discriminate IL2]|]);
    (split; [exact LL|]); (split; [exact COV|]); (split; [split; [discriminate|intros A; exfalso; apply TNL in A; lra]|]); (split; [discriminate|auto]).
Qed.
Print Assumptions C60_time_axis.
