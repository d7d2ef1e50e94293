(** C76 - C78: the tick labels of the root-2 style, the scale of the randomness strip and the rows of the sequence plot. *)
From Coq Require Import String List Ascii ZArith Reals Lra Lia Bool Sorted.
Import ListNotations.
From Verif Require Import Base StrModel NumModel NumLemmas FmtModel FmtSpec SetModel SetSpec SetProofs SetProps2.
Local Open Scope R_scope.

(** ** lists of integers cut by a convex condition *)
Lemma zrange_one a : zrange a (a + 1) = [a].
Proof. rewrite zrange_cons, zrange_nil by lia. reflexivity. Qed.
Lemma filter_convex (P : Z -> bool) : (forall a b c, (a <= b <= c)%Z -> P a = true -> P c = true -> P b = true) ->
  forall n a, exists c d, (a <= c <= d)%Z /\ (d <= a + Z.of_nat n)%Z /\ filter P (zrange a (a + Z.of_nat n)) = zrange c d.
Proof.
  intros C. induction n as [|n IH]; intros a.
  - exists a, a. split; [lia|]. split; [lia|]. rewrite !zrange_nil by lia. reflexivity.
  - rewrite zrange_cons by lia. destruct (IH (a + 1)%Z) as (c & d & A & B & E). replace (a + Z.of_nat (S n))%Z with (a + 1 + Z.of_nat n)%Z by lia.
    cbn [filter]. rewrite E. destruct (P a) eqn:PA; [|exists c, d; split; [lia|]; split; [lia|reflexivity]].
    destruct (Z.eq_dec c d) as [->|NE].
    + exists a, (a + 1)%Z. split; [lia|]. split; [lia|]. rewrite zrange_one, zrange_nil by lia. reflexivity.
    + assert (c = a + 1)%Z as ->.
      { destruct (Z.eq_dec c (a + 1)) as [|N]; [assumption|]. assert (I : In c (zrange c d)) by (apply zrange_in; lia). rewrite <- E in I. apply filter_In in I as [I1 I2].
        assert (J : In (a + 1)%Z (zrange c d)). { rewrite <- E. apply filter_In. apply zrange_in in I1. split; [apply zrange_in; lia|]. apply (C a (a + 1) c)%Z; [lia|exact PA|exact I2]. }
        apply zrange_in in J. lia. }
      exists a, d. split; [lia|]. split; [lia|]. rewrite (zrange_cons a d) by lia. reflexivity.
Qed.
Lemma filter_map_pair {A B} (f : A -> B) (P : B -> bool) l : filter P (map f l) = map f (filter (fun x => P (f x)) l).
Proof. induction l as [|x l IH]; [reflexivity|]. cbn. destruct (P (f x)); cbn; now rewrite IH. Qed.

(** * C76 *)
Definition tick (e : Z) : R := log10 (powerRZ 2 e).
Lemma two_pos e : 0 < powerRZ 2 e.
Proof. apply powerRZ_lt. lra. Qed.
Lemma tick_step e : tick (e + 1) = tick e + log10 2.
Proof. unfold tick. rewrite powerRZ_add by lra. rewrite powerRZ_1, log10_mult by (try apply two_pos; lra). reflexivity. Qed.
Lemma log2_pos : 0 < log10 2.
Proof. rewrite <- log10_1. apply log10_lt; lra. Qed.
Lemma tick_eq e : tick e = IZR e * log10 2.
Proof.
  assert (N : forall n, tick (Z.of_nat n) = INR n * log10 2 /\ tick (- Z.of_nat n) = - INR n * log10 2).
  { induction n as [|n [I1 I2]].
    - cbn. unfold tick. cbn. rewrite log10_1. lra.
    - rewrite Nat2Z.inj_succ, S_INR. split; [unfold Z.succ; rewrite tick_step, I1; ring|].
      pose proof (tick_step (- Z.succ (Z.of_nat n))) as T. replace (- Z.succ (Z.of_nat n) + 1)%Z with (- Z.of_nat n)%Z in T by lia. rewrite I2 in T. lra. }
  destruct (Z_le_gt_dec 0 e) as [H|H].
  - destruct (N (Z.to_nat e)) as [I _]. rewrite INR_IZR_INZ, Z2Nat.id in I by lia. exact I.
  - destruct (N (Z.to_nat (- e))) as [_ I]. rewrite INR_IZR_INZ, Z2Nat.id in I by lia. rewrite Z.opp_involutive in I. rewrite I, opp_IZR. lra.
Qed.
Lemma tick_lt a b : (a < b)%Z -> tick a < tick b.
Proof. intros H. rewrite !tick_eq. apply IZR_lt in H. apply Rmult_lt_compat_r; [apply log2_pos|exact H]. Qed.
Lemma tick_le a b : (a <= b)%Z -> tick a <= tick b.
Proof. intros H. destruct (Z.eq_dec a b) as [->|N]; [lra|]. apply Rlt_le, tick_lt. lia. Qed.

Definition label (e : Z) : str := nth (Z.to_nat (e + 10)) Hartmann_labels [].
Lemma table : combine (map (fun e => log10 (powerRZ 2 e)) (zrange (-10) 11)) Hartmann_labels = map (fun e => (tick e, label e)) (zrange (-10) 11).
Proof. reflexivity. Qed.
Definition within (lo hi : R) (e : Z) : bool := Rleb lo (tick e) && Rleb (tick e) hi.
Lemma within_spec lo hi e : within lo hi e = true <-> lo <= tick e <= hi.
Proof. unfold within. rewrite andb_true_iff. destruct (Rleb_spec lo (tick e)), (Rleb_spec (tick e) hi); split; intros [? ?]; try discriminate; try lra; auto. Qed.
Lemma shown_ticks lo hi : exists c d, (-10 <= c <= d /\ d <= 11)%Z /\ filter (within lo hi) (zrange (-10) 11) = zrange c d.
Proof.
  destruct (filter_convex (within lo hi)) with (n := 21%nat) (a := (-10)%Z) as (c & d & A & B & E).
  - intros a b c H Pa Pc. apply within_spec in Pa, Pc. apply within_spec. pose proof (tick_le a b ltac:(lia)). pose proof (tick_le b c ltac:(lia)). lra.
  - exists c, d. split; [split; [exact A|exact B]|exact E].
Qed.

(** the label of the tick at 2^e km: a whole number nearest to the diameter, in metres below 1 km (a half is rounded up),
    and in km, exactly, from there on *)
Definition label_number (e n : Z) : Prop :=
  if (e <? 0)%Z then IZR n - 1 / 2 <= powerRZ 2 e * 1000 < IZR n + 1 / 2 else IZR n = powerRZ 2 e.
(** the unit shown: km at 1 km, m at the first tick if that lies below 1 km, none elsewhere *)
Definition label_text (first : bool) (e n : Z) (s : str) : Prop :=
  s = if (e =? 0)%Z then L "  " ++ int_str n ++ L "km" else if first && (e <? 0)%Z then int_str n ++ L "m" else int_str n.
Lemma label_ok e : (-10 <= e <= 10)%Z -> exists n, label_number e n /\ label_text false e n (label e).
Proof.
  intros H. assert (K : (e = -10 \/ e = -9 \/ e = -8 \/ e = -7 \/ e = -6 \/ e = -5 \/ e = -4 \/ e = -3 \/ e = -2 \/ e = -1 \/ e = 0 \/ e = 1 \/ e = 2 \/ e = 3 \/ e = 4 \/ e = 5 \/ e = 6 \/ e = 7 \/ e = 8 \/ e = 9 \/ e = 10)%Z) by lia.
  repeat (destruct K as [->|K]; [|]); try subst e;
    match goal with |- exists n, label_number ?e n /\ _ =>
      let v := eval vm_compute in (nth (Z.to_nat (e + 10)) [1; 2; 4; 8; 16; 31; 63; 125; 250; 500; 1; 2; 4; 8; 16; 32; 64; 128; 256; 512; 1024]%Z 0%Z) in exists v end;
    (split; [|vm_compute; reflexivity]); unfold label_number; cbn [Z.ltb Z.compare];
    try match goal with
      | |- context [powerRZ 2 (Z.neg ?p)] =>
          let v := eval vm_compute in (2 ^ Zpos p)%Z in let k := eval vm_compute in (Pos.to_nat p) in
          change (powerRZ 2 (Z.neg p)) with (/ 2 ^ k); replace (2 ^ k) with (IZR v) by (cbn; lra)
      | |- context [powerRZ 2 (Z.pos ?p)] =>
          let k := eval vm_compute in (Pos.to_nat p) in change (powerRZ 2 (Z.pos p)) with (2 ^ k)
    end; cbn [powerRZ]; lra.
Qed.

Theorem C76_Hartmann_ticks : forall lo hi ticks labels xminor minor,
  Hartmann_bins (lo, hi) = Ok (ticks, labels, xminor, minor) ->
  exists e0 e1, (-10 <= e0 /\ e0 < e1 /\ e1 <= 10)%Z /\
    (* ticks at the powers of two from 2^-10 to 2^10 km that lie in the range *)
    ticks = map (fun e => log10 (powerRZ 2 e)) (zrange e0 (e1 + 1)) /\
    (forall e, (-10 <= e <= 10)%Z -> lo <= log10 (powerRZ 2 e) <= hi <-> (e0 <= e <= e1)%Z) /\
    Forall2 (fun e s => exists n, label_number e n /\ label_text (e =? e0)%Z e n s) (zrange e0 (e1 + 1)) labels /\
    (* minor ticks half-way between *)
    xminor = log10 2 / 2 /\
    (forall m, In m minor <-> lo <= m <= hi /\ exists e, (e0 - 1 <= e <= e1)%Z /\ m = log10 (powerRZ 2 e) + log10 2 / 2).
Proof.
  intros lo hi ticks labels xminor minor. unfold Hartmann_bins. cbn [fst snd]. rewrite table, filter_map_pair. cbn [fst].
  change (filter (fun x => Rleb lo (tick x) && Rleb (tick x) hi)) with (filter (within lo hi)). destruct (shown_ticks lo hi) as (c & d & [A B] & E). rewrite E.
  destruct (Z.eq_dec c d) as [->|N]; [rewrite zrange_nil by lia; discriminate|]. rewrite (zrange_cons c d) by lia. cbn [map].
  destruct (Z.eq_dec (c + 1) d) as [Q|N2]; [rewrite (zrange_nil (c + 1)) by lia; discriminate|]. rewrite (zrange_cons (c + 1) d) by lia. cbn [map fst snd].
  intros H. injection H as <- <- <- <-. exists c, (d - 1)%Z. replace (d - 1 + 1)%Z with d by lia.
  assert (X : (tick (c + 1) - tick c) / 2 = log10 2 / 2) by (rewrite tick_step; lra).
  split; [lia|]. split. { rewrite map_map. cbn [fst]. rewrite (zrange_cons c d), (zrange_cons (c + 1) d) by lia. reflexivity. }
  split. { intros e He. rewrite <- (within_spec lo hi e). assert (I : In e (filter (within lo hi) (zrange (-10) 11)) <-> In e (zrange c d)) by (rewrite E; tauto).
    rewrite filter_In, !zrange_in in I. split; [intros W; assert (c <= e < d)%Z by (apply I; split; [lia|exact W]); lia|intros W; apply I; lia]. }
  split.
  { rewrite map_map. cbn [snd]. rewrite (zrange_cons c d), (zrange_cons (c + 1) d) by lia. constructor; [|constructor].
    - destruct (label_ok c ltac:(lia)) as (n & L1 & L2). exists n. split; [exact L1|]. unfold label_text in *. rewrite Z.eqb_refl. cbn [andb] in *.
      assert (LT : Rltb (tick c) 0 = (c <? 0)%Z).
      { destruct (Z.ltb_spec c 0) as [S|S].
        - apply Rltb_true. pose proof (tick_lt c 0 S) as T. rewrite (tick_eq 0) in T. lra.
        - apply Rltb_false. pose proof (tick_le 0 c S) as T. rewrite (tick_eq 0) in T. lra. }
      rewrite LT. destruct (Z.eqb_spec c 0) as [->|C]; [exact L2|]. destruct (c <? 0)%Z; rewrite L2; reflexivity.
    - destruct (label_ok (c + 1) ltac:(lia)) as (n & L1 & L2). exists n. split; [exact L1|]. unfold label_text in *. rewrite (proj2 (Z.eqb_neq (c + 1) c)) by lia. exact L2.
    - assert (G : forall k a, (c < a)%Z -> (a + Z.of_nat k <= 11)%Z -> Forall2 (fun e s => exists n, label_number e n /\ label_text (e =? c)%Z e n s) (zrange a (a + Z.of_nat k)) (map label (zrange a (a + Z.of_nat k)))).
      { induction k as [|k IH]; intros a Ha Hk; [rewrite zrange_nil by lia; constructor|]. rewrite zrange_cons by lia. cbn [map]. constructor.
        - destruct (label_ok a ltac:(lia)) as (n & L1 & L2). exists n. split; [exact L1|]. rewrite (proj2 (Z.eqb_neq a c)) by lia. exact L2.
        - replace (a + Z.of_nat (S k))%Z with (a + 1 + Z.of_nat k)%Z by lia. apply IH; lia. }
      specialize (G (Z.to_nat (d - (c + 1 + 1))) (c + 1 + 1)%Z ltac:(lia) ltac:(lia)). replace (c + 1 + 1 + Z.of_nat (Z.to_nat (d - (c + 1 + 1))))%Z with d in G by lia. exact G. }
  split; [exact X|]. rewrite X. intros m.
  assert (LST : map (fun e => e + log10 2 / 2) (tick c - 2 * (log10 2 / 2) :: tick c :: tick (c + 1) :: map fst (map (fun e => (tick e, label e)) (zrange (c + 1 + 1) d))) = map (fun e => tick e + log10 2 / 2) (zrange (c - 1) d)).
  { rewrite (zrange_cons (c - 1) d) by lia. replace (c - 1 + 1)%Z with c by lia. rewrite (zrange_cons c d), (zrange_cons (c + 1) d) by lia. cbn [map]. rewrite !map_map. cbn [fst].
    f_equal. pose proof (tick_step (c - 1)) as T. replace (c - 1 + 1)%Z with c in T by lia. lra. }
  change (In m (filter (fun m0 => Rleb lo m0 && Rleb m0 hi) (map (fun e => e + log10 2 / 2) (tick c - 2 * (log10 2 / 2) :: tick c :: tick (c + 1) :: map fst (map (fun e => (tick e, label e)) (zrange (c + 1 + 1) d))))) <-> lo <= m <= hi /\ (exists e, (c - 1 <= e <= d - 1)%Z /\ m = tick e + log10 2 / 2)).
  rewrite LST, filter_In, in_map_iff, andb_true_iff. split.
  - intros ((e & <- & I) & W1 & W2). apply zrange_in in I. destruct (Rleb_spec lo (tick e + log10 2 / 2)), (Rleb_spec (tick e + log10 2 / 2) hi); try discriminate. split; [lra|]. exists e. split; [lia|reflexivity].
  - intros (W & e & I & ->). split; [exists e; split; [reflexivity|apply zrange_in; lia]|]. split; apply Rleb_true; lra.
Qed.
Print Assumptions C76_Hartmann_ticks.

(** it succeeds exactly if two powers of two from 2^-10 to 2^10 km lie in the range; with none it raises ValueError and
    with only one IndexError *)
Theorem C76_needs_two_ticks : forall lo hi,
  ((exists e e', (-10 <= e < e')%Z /\ (e' <= 10)%Z /\ lo <= log10 (powerRZ 2 e) /\ log10 (powerRZ 2 e') <= hi) -> exists r, Hartmann_bins (lo, hi) = Ok r) /\
  ((forall e, (-10 <= e <= 10)%Z -> ~ lo <= log10 (powerRZ 2 e) <= hi) -> Hartmann_bins (lo, hi) = Err ValueError) /\
  ((exists e, (-10 <= e <= 10)%Z /\ forall e', (-10 <= e' <= 10)%Z -> lo <= log10 (powerRZ 2 e') <= hi <-> e' = e) -> Hartmann_bins (lo, hi) = Err IndexError).
Proof.
  intros lo hi. unfold Hartmann_bins. cbn [fst snd]. rewrite table, filter_map_pair. cbn [fst].
  change (filter (fun x => Rleb lo (tick x) && Rleb (tick x) hi)) with (filter (within lo hi)). destruct (shown_ticks lo hi) as (c & d & [A B] & E). rewrite E.
  assert (I : forall e, (-10 <= e <= 10)%Z -> lo <= tick e <= hi <-> (c <= e < d)%Z).
  { intros e He. rewrite <- (within_spec lo hi e). assert (I : In e (filter (within lo hi) (zrange (-10) 11)) <-> In e (zrange c d)) by (rewrite E; tauto).
    rewrite filter_In, !zrange_in in I. split; [intros W; apply I; split; [lia|exact W]|intros W; apply I; lia]. }
  split; [|split].
  - intros (e & e' & H1 & H2 & H3 & H4). fold (tick e) in H3. fold (tick e') in H4. pose proof (tick_lt e e' ltac:(lia)).
    assert (J : (c <= e < d)%Z) by (apply I; [lia|lra]). assert (J' : (c <= e' < d)%Z) by (apply I; [lia|lra]).
    rewrite (zrange_cons c d), (zrange_cons (c + 1) d) by lia. cbn [map]. eexists. reflexivity.
  - intros H. assert (c = d) as ->; [|rewrite zrange_nil by lia; reflexivity].
    destruct (Z.eq_dec c d) as [|N]; [assumption|]. exfalso. apply (H c); [lia|]. apply I; lia.
  - intros (e & He & H). assert (J : (c <= e < d)%Z) by (apply I; [exact He|]; apply (H e He); reflexivity).
    assert (c = e) by (apply H; [lia|]; apply I; lia). subst c. assert (d = e + 1)%Z as ->.
    { destruct (Z.eq_dec d (e + 1)) as [|N]; [assumption|]. assert (e + 1 = e)%Z by (apply H; [lia|]; apply I; lia). lia. }
    rewrite zrange_one. reflexivity.
Qed.
Print Assumptions C76_needs_two_ticks.

(** a range that begins above 1 km has labels without any unit *)
Theorem C76_no_unit_refuted : exists lo hi ticks labels xm minor, Hartmann_bins (lo, hi) = Ok (ticks, labels, xm, minor) /\
  labels = [L "2"; L "4"; L "8"] /\ Forall (fun v => 0 < v) ticks.
Proof.
  exists (log10 2), (log10 8).
  assert (T1 : tick 1 = log10 2) by (rewrite tick_eq; ring).
  assert (T3 : tick 3 = log10 8) by (unfold tick; f_equal; change (powerRZ 2 3) with (2 ^ 3); lra).
 
  destruct (C76_needs_two_ticks (log10 2) (log10 8)) as ((r & E) & _). { exists 1%Z, 3%Z. split; [lia|]. split; [lia|]. fold (tick 1) (tick 3). lra. }
  destruct r as [[[ticks labels] xm] minor]. destruct (C76_Hartmann_ticks _ _ _ _ _ _ E) as (e0 & e1 & B & HT & I & F & _).
  assert (J : forall e, (-10 <= e <= 10)%Z -> (e0 <= e <= e1)%Z <-> (1 <= e <= 3)%Z).
  { intros e He. rewrite <- (I e He). fold (tick e). rewrite <- T1, <- T3. split.
    - intros [H1 H2]. split; apply Znot_gt_le; intros G; [pose proof (tick_lt e 1 ltac:(lia))|pose proof (tick_lt 3 e ltac:(lia))]; lra.
    - intros [H1 H2]. split; apply tick_le; lia. }
  assert (e0 = 1 /\ e1 = 3)%Z as [-> ->]. { pose proof (J e0 ltac:(lia)). pose proof (J e1 ltac:(lia)). pose proof (J 1%Z ltac:(lia)). pose proof (J 3%Z ltac:(lia)). lia. }
  exists ticks, labels, xm, minor. split; [exact E|]. change (zrange 1 (3 + 1)) with [1; 2; 3]%Z in *.
  inversion F as [|? s1 ? l1 (n1 & N1 & S1) F1]; subst. inversion F1 as [|? s2 ? l2 (n2 & N2 & S2) F2]; subst. inversion F2 as [|? s3 ? l3 (n3 & N3 & S3) F3]; subst. inversion F3; subst.
  unfold label_number, label_text in *. cbn [Z.ltb Z.eqb Z.compare andb] in *.
  assert (n1 = 2 /\ n2 = 4 /\ n3 = 8)%Z as (-> & -> & ->). { repeat split; apply eq_IZR; [rewrite N1; change (powerRZ 2 1) with (2 ^ 1)|rewrite N2; change (powerRZ 2 2) with (2 ^ 2)|rewrite N3; change (powerRZ 2 3) with (2 ^ 3)]; lra. }
  subst. split; [reflexivity|]. change (Forall (fun v => 0 < v) [tick 1; tick 2; tick 3]).
  assert (P : forall e, (0 < e)%Z -> 0 < tick e) by (intros e H; rewrite tick_eq; apply IZR_lt in H; apply Rmult_lt_0_compat; [exact H|apply log2_pos]).
  constructor; [apply P; lia|]. constructor; [apply P; lia|]. constructor; [apply P; lia|constructor].
Qed.
Print Assumptions C76_no_unit_refuted.
Example C76_hypotheses_met : exists r, Hartmann_bins (-3, 2) = Ok r.
Proof.
  apply C76_needs_two_ticks. exists 0%Z, 1%Z. split; [lia|]. split; [lia|]. fold (tick 0) (tick 1). rewrite !tick_eq.
  assert (log10 2 <= 1) by (rewrite <- log10_10; apply log10_le; lra). lra.
Qed.

(** * C77: the scale of the randomness strip: odd, strictly increasing, and enlarging the centre *)
Lemma nss_pos v : 0 < v -> n_sigma_scaling v = Rpower v (6 / 10).
Proof. intros H. unfold n_sigma_scaling, sgn. destruct (Reqb_spec v 0); [lra|]. rewrite (Rltb_true 0 v), (Rabs_pos_eq v) by lra. lra. Qed.
Lemma nss_zero : n_sigma_scaling 0 = 0.
Proof. unfold n_sigma_scaling. destruct (Reqb_spec 0 0); lra. Qed.
Lemma nss_neg v : v < 0 -> n_sigma_scaling v = - Rpower (- v) (6 / 10).
Proof. intros H. unfold n_sigma_scaling, sgn. destruct (Reqb_spec v 0); [lra|]. rewrite (Rltb_false 0 v), (Rltb_true v 0), Rabs_left by lra. lra. Qed.
Theorem C77_scale : 
  (forall v, n_sigma_scaling (- v) = - n_sigma_scaling v) /\
  (forall v w, v < w -> n_sigma_scaling v < n_sigma_scaling w) /\
  n_sigma_scaling 1 = 1 /\
  (forall v, 0 < v < 1 -> v < n_sigma_scaling v) /\ (forall v, 1 < v -> n_sigma_scaling v < v) /\
  (forall v, 0 <= v -> n_sigma_scaling v ^ 5 = v ^ 3).
Proof.
  assert (O : forall v, n_sigma_scaling (- v) = - n_sigma_scaling v).
  { intros v. destruct (Rtotal_order v 0) as [H|[->|H]].
    - rewrite (nss_neg v), (nss_pos (- v)) by lra. lra.
    - rewrite Ropp_0, nss_zero. lra.
    - rewrite (nss_pos v), (nss_neg (- v)) by lra. now rewrite Ropp_involutive. }
  assert (P : forall v, 0 < v -> 0 < n_sigma_scaling v) by (intros v H; rewrite nss_pos by exact H; apply exp_pos).
  assert (M : forall v w, 0 < v -> v < w -> n_sigma_scaling v < n_sigma_scaling w).
  { intros v w H1 H2. rewrite !nss_pos by lra. apply exp_increasing. apply Rmult_lt_compat_l; [lra|]. apply ln_increasing; lra. }
  split; [exact O|]. split.
  { intros v w H. destruct (Rtotal_order v 0) as [V|[->|V]].
    - destruct (Rtotal_order w 0) as [W|[->|W]].
      + pose proof (M (- w) (- v) ltac:(lra) ltac:(lra)) as Q. rewrite !O in Q. lra.
      + pose proof (P (- v) ltac:(lra)) as Q. rewrite O in Q. rewrite nss_zero. lra.
      + pose proof (P (- v) ltac:(lra)) as Q. rewrite O in Q. pose proof (P w W). lra.
    - rewrite nss_zero. apply P. lra.
    - apply M; lra. }
  split. { rewrite nss_pos by lra. unfold Rpower. rewrite ln_1, Rmult_0_r. apply exp_0. }
  assert (S : forall v, 0 < v -> v = exp (ln v)) by (intros; symmetry; now apply exp_ln).
  split. { intros v [H1 H2]. rewrite nss_pos by lra. rewrite (S v H1) at 1. apply exp_increasing. assert (ln v < 0) by (rewrite <- ln_1; apply ln_increasing; lra). lra. }
  split. { intros v H. rewrite nss_pos by lra. rewrite (S v) at 2 by lra. apply exp_increasing. assert (0 < ln v) by (rewrite <- ln_1; apply ln_increasing; lra). lra. }
  intros v [H| <-]; [|rewrite nss_zero; ring]. rewrite nss_pos by lra. rewrite <- !Rpower_pow by (try apply exp_pos; lra). rewrite Rpower_mult. f_equal. cbn. lra.
Qed.
Print Assumptions C77_scale.
Example C77_hypotheses_met : n_sigma_scaling 32 = 8 /\ n_sigma_scaling (-32) = -8.
Proof.
  assert (E : n_sigma_scaling 32 = 8). { rewrite nss_pos by lra. replace 32 with (Rpower 2 5) by (replace 5 with (INR 5) by (cbn; lra); rewrite Rpower_pow; lra). rewrite Rpower_mult.
    replace (5 * (6 / 10)) with (INR 3) by (cbn; lra). rewrite Rpower_pow; lra. }
  split; [exact E|]. destruct C77_scale as [O _]. replace (-32) with (- (32)) by lra. rewrite O, E. lra.
Qed.

(** * C78: the rows of the sequence plot *)
Theorem C78_rows : forall n i, (i < n)%nat -> forall y w0 w, sequence_row n i = (y, w0, w) ->
  (* inside the axes, which run from 0 to 1, the bar within the violin *)
  0 < y - w0 /\ y + w0 < 1 /\ 0 < w < w0 /\
  (* the rows come in order from the top, equally spaced and touching no other *)
  forall j y' w0' w', (j < n)%nat -> sequence_row n j = (y', w0', w') ->
    w0' = w0 /\ w' = w /\ y - y' = (INR j - INR i) / (INR n + 1) /\ ((i < j)%nat -> y' + w0' <= y - w0).
Proof.
  intros n i Hi y w0 w E. injection E as <- <- <-.
  assert (N : 0 < INR n + 1) by (pose proof (pos_INR n); lra). set (q := / (INR n + 1)). assert (Q : 0 < q) by (apply Rinv_0_lt_compat; exact N).
  assert (QN : q * (INR n + 1) = 1) by (unfold q; field; lra). unfold Rdiv. fold q.
  assert (I1 : INR i + 1 <= INR n) by (rewrite <- S_INR; apply le_INR; lia). pose proof (pos_INR i).
  split; [nra|]. split; [nra|]. split; [nra|]. intros j y' w0' w' Hj E. injection E as <- <- <-. unfold Rdiv. fold q.
  split; [reflexivity|]. split; [reflexivity|]. split; [ring|]. intros L. assert (INR i + 1 <= INR j) by (rewrite <- S_INR; apply le_INR; lia). nra.
Qed.
Print Assumptions C78_rows.
Example C78_hypotheses_met : sequence_row 3 0 = (3 / 4, 1 / 8, 3 / 80).
Proof. unfold sequence_row. cbn [INR]. f_equal; [f_equal|]; field. Qed.
