(** Proofs about generate_bins. *)
From Coq Require Import String List ZArith Reals Lra Lia Bool Permutation.
From Verif Require Import Base NumModel NumLemmas BinModel BinSpec.
Import ListNotations.
Local Open Scope R_scope.

Lemma Rpower10 x : Rpower 10 x = pow10 x.
Proof. reflexivity. Qed.

(** ** Any strictly increasing grid *)
Section Grid.
  Variable g : Z -> R.
  Hypothesis g_step : forall z, g z < g (z + 1)%Z.

  Lemma g_lt a b : (a < b)%Z -> g a < g b.
  Proof.
    intros H. remember (Z.to_nat (b - a - 1)) as n. revert a Heqn H.
    induction n; intros.
    - replace b with (a + 1)%Z by lia. apply g_step.
    - eapply Rlt_trans; [apply g_step|]. apply IHn; lia.
  Qed.
  Lemma g_le a b : (a <= b)%Z -> g a <= g b.
  Proof. intros. destruct (Z.eq_dec a b); [subst; lra|]. left. apply g_lt. lia. Qed.
  Lemma g_lt_inv a b : g a < g b -> (a < b)%Z.
  Proof. intros. destruct (Z_lt_le_dec a b); [assumption|]. apply g_le in l. lra. Qed.
  Lemma g_le_inv a b : g a <= g b -> (a <= b)%Z.
  Proof. intros. destruct (Z_le_gt_dec a b); [assumption|]. assert (g b < g a) by (apply g_lt; lia). lra. Qed.

  Lemma nth_g_zrange a b i : (i < Z.to_nat (b - a))%nat ->
    nth i (map g (zrange a b)) 0 = g (a + Z.of_nat i).
  Proof.
    intros. rewrite (nth_map_lt g _ i 0%Z) by (rewrite zrange_length; assumption).
    rewrite zrange_nth by assumption. reflexivity.
  Qed.

  (** position of the first grid point >= v *)
  Lemma searchsorted_grid a b v : (a <= b)%Z -> v <= g b ->
    exists z, (a <= z <= b)%Z /\ searchsorted (map g (zrange a (b + 1))) v = Z.to_nat (z - a) /\
      v <= g z /\ (z = a \/ g (z - 1) < v).
  Proof.
    intros Hab Hv. set (l := map g (zrange a (b + 1))). set (k := searchsorted l v).
    assert (Hlen : length l = Z.to_nat (b + 1 - a)) by (unfold l; rewrite map_length, zrange_length; reflexivity).
    assert (Hk : (k < length l)%nat).
    { destruct (Nat.lt_ge_cases k (length l)); [assumption|].
      pose proof (searchsorted_below l v (length l - 1)%nat ltac:(fold k; lia)) as Hb.
      unfold l in Hb at 2. rewrite nth_g_zrange in Hb by lia.
      replace (a + Z.of_nat (length l - 1))%Z with b in Hb by lia. lra. }
    exists (a + Z.of_nat k)%Z. repeat split; try lia.
    - pose proof (searchsorted_above l v Hk) as Ha. fold k in Ha.
      unfold l in Ha. rewrite nth_g_zrange in Ha by lia. exact Ha.
    - destruct k as [|k'] eqn:E; [left; lia|right].
      pose proof (searchsorted_below l v k' ltac:(fold k; lia)) as Hb.
      unfold l in Hb. rewrite nth_g_zrange in Hb by lia.
      replace (a + Z.of_nat (S k') - 1)%Z with (a + Z.of_nat k')%Z by lia. exact Hb.
  Qed.

  Lemma slice_zrange a b i j : (i <= j)%nat -> (j <= Z.to_nat (b - a))%nat ->
    slice (map g (zrange a b)) i j = map g (zrange (a + Z.of_nat i) (a + Z.of_nat j)).
  Proof.
    intros. apply nth_ext with (d := 0) (d' := 0).
    - rewrite slice_length, !map_length, !zrange_length. lia.
    - rewrite slice_length, map_length, zrange_length. intros k Hk.
      rewrite slice_nth by lia. rewrite !nth_g_zrange by lia. f_equal. lia.
  Qed.

  Lemma needed_grid a b r0 r1 : (a <= b)%Z -> g a <= pow10 r0 -> r0 <= r1 -> pow10 r1 <= g b ->
    exists z0 z1, (a <= z0 <= z1 /\ z1 <= b)%Z /\
      needed_bins (map g (zrange a (b + 1))) r0 r1 = map g (zrange z0 (z1 + 1)) /\
      g z0 <= pow10 r0 /\ pow10 r0 <= g (z0 + 1) /\ (pow10 r1 <= g z1) /\
      (g (z1 - 1) < pow10 r1) /\ (g z0 < pow10 r0 \/ z0 = a).
  Proof.
    intros Hab Ha Hr Hb. pose proof (pow10_le _ _ Hr) as Hp.
    destruct (searchsorted_grid a b (pow10 r0) Hab ltac:(lra)) as (y0 & Hy0 & E0 & Hle0 & Hlt0).
    destruct (searchsorted_grid a b (pow10 r1) Hab ltac:(lra)) as (y1 & Hy1 & E1 & Hle1 & Hlt1).
    assert (Hy : (y0 <= y1)%Z).
    { destruct Hlt0 as [->|Hlt0]; [lia|]. assert (g (y0 - 1) < g y1) by lra. apply g_lt_inv in H. lia. }
    unfold needed_bins. rewrite E0, E1.
    set (z0 := Z.max a (y0 - 1)).
    exists z0, y1. split; [lia|]. split.
    { rewrite slice_zrange by lia. f_equal. f_equal; lia. }
    assert (Hz0 : g z0 <= pow10 r0).
    { destruct Hlt0 as [->|Hlt0].
      - unfold z0. rewrite Z.max_l by lia. assumption.
      - destruct (Z.max_spec a (y0 - 1)) as [[? E]|[? E]]; unfold z0; rewrite E; lra. }
    split; [exact Hz0|]. split.
    { destruct (Z.max_spec a (y0 - 1)) as [[? E]|[? E]]; unfold z0; rewrite E.
      - replace (y0 - 1 + 1)%Z with y0 by lia. assumption.
      - assert (g y0 <= g (a + 1)) by (apply g_le; lia). lra. }
    split; [assumption|]. split.
    { destruct Hlt1 as [->|Hlt1]; [|assumption]. assert (y0 = a) by lia. subst.
      assert (g (a - 1) < g a) by (apply g_lt; lia). lra. }
    destruct (Z.max_spec a (y0 - 1)) as [[? E]|[? E]]; unfold z0; rewrite E; [left|right; reflexivity].
    destruct Hlt0 as [->|Hlt0]; [lia|]. assumption.
  Qed.
End Grid.

(** ** The grids of the code *)
Lemma log10_2_pos : 0 < log10 2.
Proof. rewrite <- log10_1. apply log10_lt; lra. Qed.

Lemma log_grid_step bpd off z : 0 < bpd ->
  pow10 ((IZR z - off) / bpd) < pow10 ((IZR (z + 1) - off) / bpd).
Proof.
  intros. apply pow10_lt. apply Rmult_lt_compat_r; [apply Rinv_0_lt_compat; assumption|].
  rewrite plus_IZR. lra.
Qed.

(** evaluate the closed index of a [nth] *)
Ltac cbn_nth :=
  repeat match goal with
  | |- context [Z.to_nat ?z] => let t := eval vm_compute in (Z.to_nat z) in
      progress change (Z.to_nat z) with t end;
  cbn [nth pseudo_log_mantissas pseudo_log_digits].

Definition pl_grid (z : Z) : R :=
  nth (Z.to_nat (z mod 18)) pseudo_log_mantissas 0 * pow10 (IZR (z / 18)).

Lemma pl_div_mod q r : (0 <= r < 18)%Z -> ((18 * q + r) / 18 = q /\ (18 * q + r) mod 18 = r)%Z.
Proof.
  intros. split.
  - symmetry. apply Z.div_unique with r; lia.
  - symmetry. apply Z.mod_unique with q; lia.
Qed.
Lemma pl_grid_qr q r : (0 <= r < 18)%Z ->
  pl_grid (18 * q + r) = nth (Z.to_nat r) pseudo_log_mantissas 0 * pow10 (IZR q).
Proof. intros. unfold pl_grid. destruct (pl_div_mod q r H) as [-> ->]. reflexivity. Qed.

Lemma pl_grid_step z : pl_grid z < pl_grid (z + 1).
Proof.
  rewrite (Z.div_mod z 18) by lia. set (q := (z / 18)%Z). set (r := (z mod 18)%Z).
  assert (Hr : (0 <= r < 18)%Z) by (apply Z.mod_pos_bound; lia).
  pose proof (pow10_pos (IZR q)) as Hp.
  destruct (Z.eq_dec r 17) as [E|E].
  - rewrite E. replace (18 * q + 17 + 1)%Z with (18 * (q + 1) + 0)%Z by lia.
    rewrite !pl_grid_qr by lia. rewrite plus_IZR, pow10_plus, pow10_1. cbn_nth. lra.
  - replace (18 * q + r + 1)%Z with (18 * q + (r + 1))%Z by lia.
    rewrite !pl_grid_qr by lia. apply Rmult_lt_compat_r; [assumption|].
    assert (r = 0 \/ r = 1 \/ r = 2 \/ r = 3 \/ r = 4 \/ r = 5 \/ r = 6 \/ r = 7 \/ r = 8 \/
      r = 9 \/ r = 10 \/ r = 11 \/ r = 12 \/ r = 13 \/ r = 14 \/ r = 15 \/ r = 16)%Z as Hc by lia.
    repeat (destruct Hc as [Hc|Hc]; [rewrite Hc; cbn_nth; lra|]). rewrite Hc. cbn_nth; lra.
Qed.

Lemma all_bins_pl_eq f c : (f <= c)%Z ->
  flat_map (fun e => map (fun a => pow10 (IZR e) * a) pseudo_log_mantissas) (zrange f c)
  = map pl_grid (zrange (18 * f) (18 * c)).
Proof.
  intros. remember (Z.to_nat (c - f)) as n. revert f Heqn H. induction n; intros.
  - rewrite !zrange_nil by lia. reflexivity.
  - rewrite (zrange_cons f c) by lia. cbn [flat_map].
    rewrite (zrange_app (18 * f) (18 * (f + 1)) (18 * c)) by lia.
    rewrite map_app. rewrite <- (IHn (f + 1)%Z) by lia. f_equal.
    apply nth_ext with (d := 0) (d' := 0).
    + rewrite !map_length, zrange_length. cbn [length pseudo_log_mantissas]. lia.
    + rewrite map_length. intros k Hk.
      assert (k < 18)%nat by exact Hk.
      rewrite (nth_map_lt _ _ k 0) by assumption. rewrite nth_g_zrange by lia.
      rewrite pl_grid_qr by lia. rewrite Nat2Z.id. ring.
Qed.

Lemma pow10_INR n : pow10 (INR n) = 10 ^ n.
Proof.
  induction n; [apply pow10_0|]. rewrite S_INR, pow10_plus, IHn, pow10_1. cbn. ring.
Qed.
Lemma pow10_mult_INR x n : pow10 (x * INR n) = pow10 x ^ n.
Proof.
  induction n; [rewrite Rmult_0_r; apply pow10_0|].
  rewrite S_INR, Rmult_plus_distr_l, Rmult_1_r, pow10_plus, IHn. cbn. ring.
Qed.

Lemma pow10_09 : pow10 (9 / 10) <= 9.
Proof.
  destruct (Rle_lt_dec (pow10 (9/10)) 9) as [|H]; [assumption|].
  assert (9 ^ 10 < pow10 (9 / 10) ^ 10).
  { apply Rpow_lt_compat_l' || idtac. assert (forall n a b, 0 <= a -> a < b -> (0 < n)%nat -> a ^ n < b ^ n) as P.
    { induction n; intros; [lia|]. destruct n; [cbn; lra|].
      cbn [pow]. apply Rmult_ge_0_gt_0_lt_compat; try lra.
      - apply Rle_ge. apply Rmult_le_pos; [lra|]. apply pow_le. lra.
      - apply IHn; lia || lra. }
    apply P; lra || lia. }
  rewrite <- pow10_mult_INR in H0.
  replace (9 / 10 * INR 10) with (INR 9) in H0 by (cbn; field).
  rewrite pow10_INR in H0. lra.
Qed.

(** the boundaries the code starts from contain the needed region *)
Lemma all_bins_pl_grid r0 r1 : r0 <= r1 ->
  exists a b, (a <= b)%Z /\ all_bins_pseudo_log r0 r1 = map pl_grid (zrange a (b + 1)) /\
    pl_grid a <= pow10 r0 /\ pow10 r1 <= pl_grid b.
Proof.
  intros H. unfold all_bins_pseudo_log. set (f := Rfloor r0). set (c := Rceil (r1 + 1 / 10)).
  pose proof (Rfloor_spec r0) as Hf. fold f in Hf. pose proof (Rceil_spec (r1 + 1 / 10)) as Hc. fold c in Hc.
  assert (Hfc : (f < c)%Z) by (apply lt_IZR; lra).
  exists (18 * f)%Z, (18 * c - 1)%Z. split; [lia|]. split; [|split].
  - rewrite all_bins_pl_eq by lia. f_equal. f_equal; lia.
  - replace (18 * f)%Z with (18 * f + 0)%Z by lia. rewrite pl_grid_qr by lia. cbn_nth.
    rewrite Rmult_1_l. apply pow10_le. lra.
  - replace (18 * c - 1)%Z with (18 * (c - 1) + 17)%Z by lia. rewrite pl_grid_qr by lia. cbn_nth.
    apply Rle_trans with (pow10 (9 / 10 + IZR (c - 1))).
    + apply pow10_le. rewrite minus_IZR. lra.
    + rewrite pow10_plus. apply Rmult_le_compat_r; [left; apply pow10_pos|apply pow10_09].
Qed.

Lemma all_bins_log_grid bpd off r0 r1 : 0 < bpd -> r0 <= r1 ->
  exists a b, (a <= b)%Z /\
    all_bins_log bpd off r0 r1 = map (fun z => pow10 ((IZR z - off) / bpd)) (zrange a (b + 1)) /\
    pow10 ((IZR a - off) / bpd) <= pow10 r0 /\ pow10 r1 <= pow10 ((IZR b - off) / bpd).
Proof.
  intros Hb Hr. unfold all_bins_log, range_outer.
  set (x := r0 * bpd + off). set (y := r1 * bpd + off).
  assert (Hxy : x <= y) by (unfold x, y; apply Rplus_le_compat_r, Rmult_le_compat_r; lra).
  rewrite Rmin_left, Rmax_right by assumption.
  pose proof (Rfloor_spec x) as Hf. pose proof (Rceil_spec y) as Hc.
  set (f := Rfloor x) in *. set (c := Rceil y) in *.
  assert (Hfc : (f <= c)%Z) by (apply le_IZR; lra).
  exists f, c. split; [assumption|]. split; [|split].
  - unfold arange, zrange. rewrite !map_map.
    replace (IZR c - off + 1 - (IZR f - off)) with (IZR (c + 1 - f))
      by (rewrite minus_IZR, plus_IZR; ring).
    rewrite Rceil_IZR. apply map_ext. intros i. f_equal. f_equal.
    rewrite plus_IZR, <- INR_IZR_INZ. ring.
  - apply pow10_le. apply Rmult_le_reg_r with bpd; [assumption|].
    unfold Rdiv. rewrite Rmult_assoc, Rinv_l, Rmult_1_r by lra. unfold x in Hf. lra.
  - apply pow10_le. apply Rmult_le_reg_r with bpd; [assumption|].
    unfold Rdiv. rewrite Rmult_assoc, Rinv_l, Rmult_1_r by lra. unfold y in Hc. lra.
Qed.

(** the specified grid is the code's grid *)
Lemma Rpower2_pow10 x : Rpower 2 x = pow10 (x * log10 2).
Proof.
  unfold Rpower, pow10, log10. f_equal. field. pose proof ln10_pos; lra.
Qed.
Lemma grid_pl_eq off z : grid "pseudo-log" off z = pl_grid z.
Proof.
  unfold grid. cbn [String.eqb Ascii.eqb Bool.eqb]. unfold pl_grid. rewrite Rpower10. reflexivity.
Qed.
Lemma bpd_pos b bpd : bins_per_decade b = Some bpd -> 0 < bpd.
Proof.
  unfold bins_per_decade. pose proof log10_2_pos.
  repeat (destruct (String.eqb _ _); [intros [= <-]; try lra; apply Rdiv_lt_0_compat; lra|]). discriminate.
Qed.
Lemma grid_log_eq b bpd off z : bins_per_decade b = Some bpd ->
  grid b off z = pow10 ((IZR z - off) / bpd).
Proof.
  unfold bins_per_decade, grid. pose proof log10_2_pos.
  destruct (String.eqb b "pseudo-log") eqn:E0.
  { apply String.eqb_eq in E0. subst b. cbn [String.eqb Ascii.eqb Bool.eqb]. discriminate. }
  destruct (String.eqb b "x2"); [intros [= <-]; rewrite Rpower2_pow10; f_equal; field; lra|].
  destruct (String.eqb b "root-2"); [intros [= <-]; rewrite Rpower2_pow10; f_equal; field; lra|].
  destruct (String.eqb b "4th root-2"); [intros [= <-]; rewrite Rpower2_pow10; f_equal; field; lra|].
  destruct (String.eqb b "10/decade"); [intros [= <-]; reflexivity|].
  destruct (String.eqb b "20/decade"); [intros [= <-]; reflexivity|]. discriminate.
Qed.
Lemma grid_step b off z : In b real_binnings -> grid b off z < grid b off (z + 1).
Proof.
  intros H. destruct (String.eqb b "pseudo-log") eqn:E0.
  - apply String.eqb_eq in E0; subst. rewrite !grid_pl_eq. apply pl_grid_step.
  - assert (exists bpd, bins_per_decade b = Some bpd) as [bpd Hb].
    { cbn in H. repeat (destruct H as [<-|H]; [try discriminate E0; cbn; eexists; reflexivity|]). destruct H. }
    rewrite !(grid_log_eq b bpd) by assumption. apply log_grid_step. eapply bpd_pos; eassumption.
Qed.

Lemma real_binning_cases b : In b real_binnings ->
  b = "pseudo-log"%string \/ exists bpd, bins_per_decade b = Some bpd /\ b <> "pseudo-log"%string /\ b <> "none"%string.
Proof.
  intros H. unfold real_binnings in H.
  destruct H as [<-|H]; [left; reflexivity|right].
  repeat (destruct H as [<-|H]; [eexists; split; [reflexivity|split; discriminate]|]). destruct H.
Qed.

(** generate_bins on any non-degenerate interval of logs *)
Lemma generate_bins_grid_gen b d off expand r0 r1 :
  In b real_binnings -> bins_r10 d expand = (r0, r1) -> r0 <= r1 ->
  exists z0 z1, (z0 <= z1)%Z /\
    generate_bins b d off expand = Ok (map (grid b off) (zrange z0 (z1 + 1))) /\
    grid b off z0 <= pow10 r0 /\ pow10 r0 <= grid b off (z0 + 1) /\
    pow10 r1 <= grid b off z1 /\ grid b off (z1 - 1) < pow10 r1.
Proof.
  intros Hb E Hr. unfold generate_bins. rewrite E.
  destruct (real_binning_cases b Hb) as [->|(bpd & Hbpd & Hn1 & Hn2)].
  - replace (String.eqb "pseudo-log" "none") with false by reflexivity.
    replace (String.eqb "pseudo-log" "pseudo-log") with true by reflexivity.
    destruct (all_bins_pl_grid r0 r1 Hr) as (a & c & Hac & -> & Ha & Hc).
    destruct (needed_grid pl_grid pl_grid_step a c r0 r1 Hac Ha Hr Hc)
      as (z0 & z1 & Hz & -> & H1 & H2 & H3 & H4 & _).
    exists z0, z1. rewrite !grid_pl_eq. repeat split; try assumption; try lia.
  - rewrite (proj2 (String.eqb_neq _ _) Hn1), (proj2 (String.eqb_neq _ _) Hn2), Hbpd.
    pose proof (bpd_pos _ _ Hbpd) as Hp.
    destruct (all_bins_log_grid bpd off r0 r1 Hp Hr) as (a & c & Hac & -> & Ha & Hc).
    destruct (needed_grid (fun z => pow10 ((IZR z - off) / bpd)) (fun z => log_grid_step bpd off z Hp) a c r0 r1 Hac Ha Hr Hc)
      as (z0 & z1 & Hz & -> & H1 & H2 & H3 & H4 & _).
    exists z0, z1. rewrite !(grid_log_eq b bpd) by assumption. repeat split; try assumption; try lia.
    f_equal. apply map_ext. intros. rewrite (grid_log_eq b bpd) by assumption. reflexivity.
Qed.

Lemma zrange_grid_points b off z0 z1 : (z0 <= z1)%Z ->
  map (grid b off) (zrange z0 (z1 + 1)) = grid_points b off z0 (S (Z.to_nat (z1 - z0))).
Proof.
  intros. unfold grid_points, zrange. rewrite map_map.
  replace (Z.to_nat (z1 + 1 - z0)) with (S (Z.to_nat (z1 - z0))) by lia. reflexivity.
Qed.

(** C01/C02 in one statement *)
Theorem generate_bins_grid b d off :
  In b real_binnings -> d <> [] -> Forall (fun x => 0 < x) d ->
  exists z0 n, generate_bins b d off true = Ok (grid_points b off z0 (S (S n))) /\
    (forall x, In x d -> grid b off z0 <= x < grid b off (z0 + Z.of_nat (S n))) /\
    (exists x, In x d /\ x <= grid b off (z0 + 1)) /\
    (exists x, In x d /\ grid b off (z0 + Z.of_nat n) < x * Rpower 10 (1 / 1000)).
Proof.
  intros Hb Hd Hpos. destruct d as [|x0 l]; [congruence|]. clear Hd.
  set (mn := list_min x0 l). set (mx := list_max x0 l).
  rewrite Forall_forall in Hpos.
  assert (Hmn : 0 < mn) by (apply Hpos, list_min_in).
  assert (Hmx : 0 < mx) by (apply Hpos, list_max_in).
  assert (Hmm : mn <= mx) by (apply list_min_le, list_max_in).
  assert (E : bins_r10 (x0 :: l) true = (log10 mn, log10 mx + 1 / 1000)) by reflexivity.
  destruct (generate_bins_grid_gen b _ off true _ _ Hb E) as (z0 & z1 & Hz & HG & H1 & H2 & H3 & H4).
  { pose proof (log10_le mn mx Hmn Hmm). lra. }
  rewrite pow10_plus in H3, H4. rewrite !pow10_log10 in * by assumption.
  assert (Hp1 : 1 < pow10 (1 / 1000)) by (pose proof (pow10_lt 0 (1 / 1000)) as Hq; rewrite pow10_0 in Hq; apply Hq; lra).
  assert (Hlt : grid b off z0 < grid b off z1) by nra.
  assert (Hz' : (z0 < z1)%Z).
  { apply (g_lt_inv (grid b off)); [intros; apply grid_step; assumption|assumption]. }
  exists z0, (Z.to_nat (z1 - z0 - 1)). split; [|split; [|split]].
  - rewrite HG. rewrite zrange_grid_points by lia. f_equal. f_equal. lia.
  - intros x Hx. replace (z0 + Z.of_nat (S (Z.to_nat (z1 - z0 - 1))))%Z with z1 by lia.
    assert (mn <= x) by exact (list_min_le x0 l x Hx). assert (x <= mx) by exact (list_max_ge x0 l x Hx).
    split; [lra|]. assert (mx < mx * pow10 (1 / 1000)) by nra. lra.
  - exists mn. split; [apply list_min_in|assumption].
  - exists mx. split; [apply list_max_in|]. rewrite Rpower10.
    replace (z0 + Z.of_nat (Z.to_nat (z1 - z0 - 1)))%Z with (z1 - 1)%Z by lia. assumption.
Qed.
