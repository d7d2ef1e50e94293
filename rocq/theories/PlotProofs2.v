(** Lemmas about rescaling, fractions and the time axis. *)
From Coq Require Import String Ascii List ZArith Reals Bool Lia Lra Psatz Sorted.
From Verif Require Import Base NumModel NumLemmas InterpProofs StrModel FmtModel FmtProofs PlotModel PlotSpec PlotProofs.
Import ListNotations.
Local Open Scope R_scope.

Lemma clip_in lo hi x : lo <= x <= hi -> clip lo hi x = x.
Proof. intros H. unfold clip. rewrite (Rmax_left x lo) by lra. apply Rmin_left. lra. Qed.
Lemma clip_low lo hi x : lo <= hi -> x <= lo -> clip lo hi x = lo.
Proof. intros H K. unfold clip. rewrite (Rmax_right x lo) by lra. apply Rmin_left. lra. Qed.
Lemma clip_high lo hi x : lo <= hi -> hi <= x -> clip lo hi x = hi.
Proof. intros H K. unfold clip. rewrite (Rmax_left x lo) by lra. apply Rmin_right. lra. Qed.
Lemma clip_bounds lo hi x : lo <= hi -> lo <= clip lo hi x <= hi.
Proof. intros H. unfold clip, Rmin, Rmax. repeat destruct (Rle_dec _ _); lra. Qed.
Lemma clip_mono lo hi x y : x <= y -> clip lo hi x <= clip lo hi y.
Proof. intros H. unfold clip, Rmin, Rmax. repeat destruct (Rle_dec _ _); lra. Qed.
Lemma Rfloor_mono x y : x <= y -> (Rfloor x <= Rfloor y)%Z.
Proof. intros H. destruct (Rfloor_spec x), (Rfloor_spec y). assert (K : (Rfloor x < Rfloor y + 1)%Z) by (apply lt_IZR; rewrite plus_IZR; lra). lia. Qed.
Lemma truncate_spec x : exists z, truncate x = IZR z /\ toward_zero x z.
Proof.
  unfold truncate, toward_zero. destruct (Rltb_spec x 0) as [L|L].
  - exists (- Rfloor (- x))%Z. split; [reflexivity|]. destruct (Rfloor_spec (- x)) as [A B]. assert (P : 0 <= IZR (Rfloor (- x))).
    { apply IZR_le. assert (K : IZR (-1) < IZR (Rfloor (- x))) by (change (IZR (-1)) with (-1); lra). apply lt_IZR in K. lia. }
    rewrite opp_IZR, Rabs_Ropp. rewrite (Rabs_right (IZR _)), (Rabs_left x) by lra. split; [lra|]. nra.
  - exists (Rfloor x). split; [reflexivity|]. destruct (Rfloor_spec x) as [A B]. assert (P : 0 <= IZR (Rfloor x)).
    { apply IZR_le. assert (K : IZR (-1) < IZR (Rfloor x)) by (change (IZR (-1)) with (-1); lra). apply lt_IZR in K. lia. }
    rewrite (Rabs_right (IZR _)), (Rabs_right x) by lra. split; [lra|]. nra.
Qed.
Lemma truncate_mono x y : x <= y -> truncate x <= truncate y.
Proof.
  intros H. unfold truncate. apply IZR_le. destruct (Rltb_spec x 0), (Rltb_spec y 0); try lra.
  - pose proof (Rfloor_mono (- y) (- x) ltac:(lra)). lia.
  - assert (A : (0 <= Rfloor (- x))%Z). { destruct (Rfloor_spec (- x)). assert (K : IZR (-1) < IZR (Rfloor (- x))) by (change (IZR (-1)) with (-1); lra). apply lt_IZR in K. lia. }
    assert (B : (0 <= Rfloor y)%Z). { destruct (Rfloor_spec y). assert (K : IZR (-1) < IZR (Rfloor y)) by (change (IZR (-1)) with (-1); lra). apply lt_IZR in K. lia. }
    lia.
  - now apply Rfloor_mono.
Qed.

(** ** The table of fractions *)
Lemma lf_table : fraction_lf = Ok (map (fun i => INR i / 99) (seq 0 100)).
Proof.
  unfold fraction_lf, scl.
  set (xs := seq 0 100). assert (X : map INR xs = INR 0 :: map INR (seq 1 99)) by reflexivity.
  rewrite X. 
  assert (MN : list_min (INR 0) (map INR (seq 1 99)) = 0).
  { apply list_min_unique; [now left|]. intros y [<-|I]; [cbn; lra|]. apply in_map_iff in I as (i & <- & _). apply pos_INR. }
  assert (MX : list_max (INR 0) (map INR (seq 1 99)) = 99).
  { apply list_max_unique.
    - right. apply in_map_iff. exists 99%nat. split; [rewrite INR_IZR_INZ; reflexivity|apply in_seq; lia].
    - intros y [<-|I]; [cbn; lra|]. apply in_map_iff in I as (i & <- & I). apply in_seq in I. replace 99 with (INR 99) by (rewrite INR_IZR_INZ; reflexivity). apply le_INR. lia. }
  rewrite MN, MX. cbn [bind]. destruct (Reqb_spec 99 0); [lra|]. f_equal. rewrite <- X. rewrite !map_map. apply map_ext_in. intros i I. apply in_seq in I.
  assert (B : 0 <= INR i <= 99). { split; [apply pos_INR|]. replace 99 with (INR 99) by (rewrite INR_IZR_INZ; reflexivity). apply le_INR. lia. }
  rewrite clip_in; [lra|]. split; [apply Rmult_le_pos; lra|]. apply (Rmult_le_reg_r 99); lra.
Qed.
Lemma acos_decr x y : -1 <= x -> x < y -> y <= 1 -> acos y < acos x.
Proof.
  intros A B C. apply cos_decreasing_0; try apply acos_bound. rewrite !cos_acos by lra. exact B.
Qed.
Lemma sin_gap a b : a < b -> sin b - sin a < b - a.
Proof.
  intros H. assert (E : sin b - sin a = 2 * cos ((b + a) / 2) * sin ((b - a) / 2)) by apply form4.
  rewrite E. set (h := (b - a) / 2). assert (HP : 0 < h) by (unfold h; lra). replace (b - a) with (2 * h) by (unfold h; lra).
  assert (S : Rabs (sin h) < h).
  { destruct (Rle_dec h 1) as [L|L].
    - pose proof (sin_lt_x h HP). pose proof PI2_1. assert (0 < sin h) by (apply sin_gt_0; lra). rewrite Rabs_right; lra.
    - pose proof (SIN_bound h). apply Rle_lt_trans with 1; [apply Rabs_le; lra|lra]. }
  pose proof (COS_bound ((b + a) / 2)) as CB. set (c := cos ((b + a) / 2)) in *. clearbody c.
  apply Rle_lt_trans with (2 * Rabs (sin h)); [|lra].
  rewrite Rmult_assoc. apply Rmult_le_compat_l; [lra|]. apply Rle_trans with (Rabs (c * sin h)); [apply Rle_abs|]. rewrite Rabs_mult.
  rewrite <- (Rmult_1_l (Rabs (sin h))) at 2. apply Rmult_le_compat_r; [apply Rabs_pos|]. apply Rabs_le. lra.
Qed.
Lemma area_fraction_lt x y : 0 <= x -> x < y -> y <= 1 -> area_fraction x < area_fraction y.
Proof.
  intros A B C. unfold area_fraction. pose proof PI_RGT_0 as P. apply Rmult_lt_compat_l; [apply Rdiv_lt_0_compat; lra|].
  pose proof (acos_decr (1 - 2 * y) (1 - 2 * x) ltac:(lra) ltac:(lra) ltac:(lra)) as D.
  pose proof (sin_gap (2 * acos (1 - 2 * x)) (2 * acos (1 - 2 * y)) ltac:(lra)). lra.
Qed.
Lemma area_fraction_0 : area_fraction 0 = 0.
Proof. unfold area_fraction. rewrite Rmult_0_r, Rminus_0_r, acos_1, Rmult_0_r, sin_0. lra. Qed.
Lemma area_fraction_sym x : area_fraction (1 - x) = 1 - area_fraction x.
Proof.
  unfold area_fraction. replace (1 - 2 * (1 - x)) with (- (1 - 2 * x)) by ring. rewrite acos_opp.
  set (t := acos (1 - 2 * x)). replace (2 * (PI - t)) with (2 * PI - 2 * t) by ring.
  rewrite sin_minus, sin_2PI, cos_2PI. pose proof PI_RGT_0. field. lra.
Qed.
Definition af_table : list (R * R) := map (fun i => (area_fraction (INR i / 99), INR i / 99)) (seq 0 100).
Lemma af2lf_table af : af2lf af = interp af af_table.
Proof.
  unfold af2lf. rewrite lf_table. unfold bind. unfold af_table. rewrite map_map.
  assert (E : forall l : list nat, combine (map (fun i => area_fraction (INR i / 99)) l) (map (fun i => INR i / 99) l) = map (fun i => (area_fraction (INR i / 99), INR i / 99)) l).
  { induction l as [|i l IH]; [reflexivity|]. cbn [map combine]. now rewrite IH. }
  now rewrite E.
Qed.
Lemma INR_99 : INR 99 = 99. Proof. rewrite INR_IZR_INZ. reflexivity. Qed.
Lemma af_nth i : (i < 100)%nat -> nth i af_table (0, 0) = (area_fraction (INR i / 99), INR i / 99).
Proof. intros H. unfold af_table. now rewrite (nth_map_seq _ 100 i). Qed.
Lemma af_length : length af_table = 100%nat. Proof. unfold af_table. now rewrite map_length, seq_length. Qed.
Lemma lf_range i : (i < 100)%nat -> 0 <= INR i / 99 <= 1.
Proof.
  intros H. assert (B : 0 <= INR i <= 99) by (split; [apply pos_INR|rewrite <- INR_99; apply le_INR; lia]). lra.
Qed.
Lemma lf_lt i j : (i < j)%nat -> INR i / 99 < INR j / 99.
Proof. intros H. apply lt_INR in H. lra. Qed.
Lemma af_sorted_x : StronglySorted Rlt (map fst af_table).
Proof.
  apply (SS_of_nth Rlt 0). rewrite map_length, af_length. intros i j H.
  rewrite !(nth_map_lt fst af_table _ (0, 0)) by (rewrite af_length; lia). rewrite !af_nth by lia. cbn [fst].
  apply area_fraction_lt; [apply lf_range; lia|apply lf_lt; lia|apply lf_range; lia].
Qed.
Lemma af_sorted_y : StronglySorted Rlt (map snd af_table).
Proof.
  apply (SS_of_nth Rlt 0). rewrite map_length, af_length. intros i j H.
  rewrite !(nth_map_lt snd af_table _ (0, 0)) by (rewrite af_length; lia). rewrite !af_nth by lia. cbn [snd]. apply lf_lt; lia.
Qed.
Lemma af_ne : af_table <> []. Proof. intros E. pose proof af_length as L. rewrite E in L. discriminate L. Qed.
Lemma af2lf_at i : (i < 100)%nat -> af2lf (area_fraction (INR i / 99)) = Ok (INR i / 99).
Proof.
  intros H. rewrite af2lf_table. destruct (Nat.eq_dec i 99) as [->|N].
  - rewrite (interp_beyond af_table); [|apply SS_lt_le, af_sorted_x|apply af_ne|]; rewrite af_length; change (100 - 1)%nat with 99%nat; rewrite af_nth by lia; [reflexivity|]. cbn [fst]. lra.
  - rewrite (interp_at af_table _ i); [|apply SS_lt_le, af_sorted_x|rewrite af_length; lia|].
    + rewrite !af_nth by lia. cbn [fst snd]. f_equal. ring.
    + rewrite !af_nth by lia. cbn [fst]. split; [lra|]. apply area_fraction_lt; [apply lf_range; lia|apply lf_lt; lia|apply lf_range; lia].
Qed.

(** ** Time axis *)
Lemma ten_log10 e : log10 (ten e) = IZR e.
Proof.
  assert (H : ten e = pow10 (IZR e)).
  { unfold ten, pow10. rewrite powerRZ_Rpower by lra. reflexivity. }
  rewrite H. apply log10_pow10.
Qed.
Lemma log10_lt x y : 0 < x -> x < y -> log10 x < log10 y.
Proof. intros A B. unfold log10. apply Rmult_lt_compat_r; [apply Rinv_0_lt_compat, ln10_pos|]. now apply ln_increasing. Qed.
Lemma time_labels_ok t : t <> [] -> exists ls, time_labels t = Ok ls /\ length ls = length t.
Proof.
  intros N. unfold time_labels. destruct (rev (map (fmt_g 2) t)) as [|s r] eqn:E.
  - exfalso. apply (f_equal (@length str)) in E. rewrite rev_length, map_length in E. destruct t; [congruence|discriminate E].
  - eexists. split; [reflexivity|]. apply (f_equal (@length str)) in E. rewrite rev_length, map_length in E. change (length (s :: r)) with (S (length r)) in E. rewrite rev_length. change (S (length r) = length t). symmetry. exact E.
Qed.
(** the ticks of an interval, six at most, with minor ticks *)
Lemma six_ticks lo hi : lo < hi -> exists fuel t m, (forall k, (fuel <= k)%nat -> ticks k [lo; hi] (Some 6%Z) (Some 12%Z) = Some (Ok (t, Some m))) /\
  exists v, In v t /\ lo <= v <= hi.
Proof.
  intros H. destruct (loop_terminates lo hi 6 H ltac:(lia) ltac:(left; lia)) as (fuel & [t nice] & T).
  destruct (loop_result lo hi 6 H ltac:(lia) fuel 1 t nice ltac:(lra) ltac:(lra) (T fuel (le_n fuel))) as (e & N & E & L6 & LM).
  assert (L3 : (3 <= length t <= 6)%nat). { split; [|lia]. assert (K : IZR 2 < IZR (Z.of_nat (length t))) by lra. apply lt_IZR in K. lia. }
  assert (MI : exists m, minor_ticks nice (length t) 12 = Ok m).
  { unfold minor_ticks. assert (LE : (length t = 3 \/ length t = 4 \/ length t = 5 \/ length t = 6)%nat) by lia.
    assert (B : Nat.eqb (length t) 1 = false) by (apply Nat.eqb_neq; lia). rewrite B.
    set (b := 12 / (INR (length t) - 1)). assert (BB : 0 < b <= 10).
    { unfold b. rewrite INR_IZR_INZ. assert (N3 : 3 <= IZR (Z.of_nat (length t)) <= 6) by (split; apply IZR_le; lia). set (z := IZR (Z.of_nat (length t))) in *. clearbody z.
      split; [apply Rdiv_lt_0_compat; lra|]. apply (Rmult_le_reg_r (z - 1)); [lra|]. replace (12 / (z - 1) * (z - 1)) with 12 by (field; lra). lra. }
    clearbody b. destruct (Reqb nice 2); cbn [map searchsorted]; rewrite (Rltb_false 10 b) by lra;
      destruct (Rltb 1 b), (Rltb 2 b), (Rltb 4 b), (Rltb 5 b); eexists; reflexivity. }
  destruct MI as (m & MI). exists fuel, t, m. split.
  - intros k LK. unfold ticks. change (Z.max (if Z.eqb 6 0 then 5 else 6) 2)%Z with 6%Z. cbn [list_min list_max fold_right].
    rewrite (Rmin_right hi lo), (Rmax_left hi lo) by lra. destruct (Reqb_spec lo hi) as [Q|_]; [lra|]. rewrite (T k LK).
    change (Z.eqb 12 0) with false. cbv iota. rewrite MI. reflexivity.
  - assert (NP : 0 < nice) by (destruct N as [N|[N|[N|N]]]; lra). pose proof (ten_pos e) as TP. set (s := nice * ten e) in *.
    assert (SP : 0 < s) by (unfold s; apply Rmult_lt_0_compat; lra). clearbody s.
    destruct (cover_length lo hi s H SP) as [CL _]. rewrite E in L3. set (i := Rfloor (lo / s)) in *. set (j := Rceil (hi / s)) in *.
    exists (IZR (i + 1) * s). split.
    + rewrite E. unfold cover. apply in_map_iff. exists (i + 1)%Z. split; [reflexivity|]. apply zrange_In. fold i j. lia.
    + destruct (Rfloor_spec (lo / s)) as [_ B]. destruct (Rceil_spec (hi / s)) as [C _]. fold i in B. fold j in C.
      assert (E1 : lo = lo / s * s) by (field; lra). assert (E2 : hi = hi / s * s) by (field; lra).
      assert (IJ : IZR (i + 1) <= IZR (j - 1)) by (apply IZR_le; lia). rewrite minus_IZR in IJ. rewrite plus_IZR in *.
      split; [rewrite E1 at 1|rewrite E2]; apply Rmult_le_compat_r; lra.
Qed.
