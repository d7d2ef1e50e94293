(** The bins of the randomness analysis. *)
From Coq Require Import String Ascii List ZArith Reals Bool Permutation Sorted Lia Lra.
From Verif Require Import Base NumModel NumLemmas BinModel BinSpec BinProofs ApplyProofs StrModel StrProofs FmtModel FmtSpec FmtProofs IoSpec IoProofs SccProofs3 CliModel CliProofs2 RaModel RaSpec RaProofs RaProofs2.
Import ListNotations.
Local Open Scope R_scope.

Lemma ln2_pos : 0 < ln 2. Proof. rewrite <- ln_1. apply ln_increasing; lra. Qed.
Lemma bin_key_grid z : bin_key (grid "root-2" 0 z) = fmt_g 3 (IZR z / 2).
Proof.
  unfold bin_key, grid. cbn [String.eqb Ascii.eqb Bool.eqb]. pose proof ln2_pos. f_equal. unfold Rpower. rewrite ln_exp. field. lra.
Qed.
Lemma ten_le a b : (a <= b)%Z -> ten a <= ten b.
Proof. intros H. destruct (Z.eq_dec a b) as [->|]; [lra|]. left. apply ten_lt. lia. Qed.
Lemma significant3_near x y : Rabs x < 100 -> significant 3 x y -> Rabs (x - y) <= 1 / 20.
Proof.
  intros B [[-> ->]|(e & [L _] & (m & _ & A & _))]; [rewrite Rminus_0_r, Rabs_R0; lra|].
  assert (E : (e < 2)%Z). { destruct (Z.lt_ge_cases e 2) as [|G]; [assumption|]. exfalso. apply ten_le in G. rewrite (ten_IZR 2) in G by lia. unfold ten in G. change (10 ^ 2)%Z with 100%Z in G. lra. }
  change (powerRZ 10 (e - Z.of_nat 3 + 1)) with (ten (e - 3 + 1)) in A. assert (ten (e - 3 + 1) <= ten (-1)) by (apply ten_le; lia).
  assert (T : ten (-1) = 1 / 10) by (pose proof (ten_neg 1) as T1; cbn [Z.of_nat Pos.of_succ_nat Z.opp pow] in T1; rewrite T1; lra). lra.
Qed.
Lemma key_inj a b : (Z.abs a < 200)%Z -> (Z.abs b < 200)%Z -> bin_key (grid "root-2" 0 a) = bin_key (grid "root-2" 0 b) -> a = b.
Proof.
  intros A B E. rewrite !bin_key_grid in E. destruct (read_g_spec 3 (IZR a / 2)) as [Ra Sa]. destruct (read_g_spec 3 (IZR b / 2)) as [Rb Sb]. rewrite E, Rb in Ra. injection Ra as Ra.
  cbn [Nat.max] in Sa, Sb. assert (HA : Rabs (IZR a / 2) < 100). { unfold Rdiv. rewrite Rabs_mult, <- abs_IZR, (Rabs_right (/ 2)) by lra. apply IZR_lt in A. lra. }
  assert (HB : Rabs (IZR b / 2) < 100). { unfold Rdiv. rewrite Rabs_mult, <- abs_IZR, (Rabs_right (/ 2)) by lra. apply IZR_lt in B. lra. }
  apply significant3_near in Sa; [|exact HA]. apply significant3_near in Sb; [|exact HB]. rewrite <- Ra in Sa. set (y := read_g 3 (IZR b / 2)) in *.
  assert (D : Rabs (IZR a - IZR b) < 1).
  { replace (IZR a - IZR b) with (2 * ((IZR a / 2 - y) - (IZR b / 2 - y))) by field. unfold Rabs in *. repeat destruct (Rcase_abs _); lra. }
  rewrite <- minus_IZR, <- abs_IZR in D. apply lt_IZR in D. lia.
Qed.

(** the grid of a count *)
Lemma Rpower2_lt_inv x y : Rpower 2 x < Rpower 2 y -> x < y.
Proof. intros H. destruct (Rlt_dec x y) as [|N]; [assumption|]. assert (Rpower 2 y <= Rpower 2 x) by (apply Rle_Rpower; lra). lra. Qed.
Lemma Rpower2_le_inv x y : Rpower 2 x <= Rpower 2 y -> x <= y.
Proof. intros H. destruct (Rle_dec x y) as [|N]; [assumption|]. assert (Rpower 2 y < Rpower 2 x) by (apply Rpower_lt; lra). lra. Qed.
Lemma root2 z : grid "root-2" 0 z = Rpower 2 (IZR z / 2).
Proof. unfold grid. cbn [String.eqb Ascii.eqb Bool.eqb]. now rewrite Rminus_0_r. Qed.
Definition ordinary (craters : list (R * R)) : Prop := craters <> [] /\ Forall (fun c => / 2 ^ 99 <= fst c <= 2 ^ 99) craters.
Lemma ordinary_pos craters : ordinary craters -> Forall (fun c => 0 < fst c) craters.
Proof.
  intros [_ F]. eapply Forall_impl; [|exact F]. cbv beta. intros c [H _]. assert (0 < / 2 ^ 99) by (apply Rinv_0_lt_compat, pow_lt; lra). lra.
Qed.
Lemma ordinary_bins craters bd ri : ordinary craters -> apply_binning craters "root-2" 0 = Ok (bd, ri) ->
  exists z0 n, b_dmin bd = grid_points "root-2" 0 z0 (S n) /\ (-200 < z0)%Z /\ (z0 + Z.of_nat n < 200)%Z.
Proof.
  intros O E. pose proof (ordinary_pos _ O) as P. destruct O as [NE F]. assert (I : In "root-2"%string real_binnings) by (cbn; tauto).
  destruct (apply_binning_spec craters "root-2" 0 I NE P) as (z0 & n & bd' & ri' & E' & G & D & _). rewrite E in E'. injection E' as <- _.
  assert (P' : Forall (fun x => 0 < x) (map fst craters)) by now apply Forall_map.
  destruct (generate_bins_grid "root-2" (map fst craters) 0 I ltac:(now destruct craters) P') as (z1 & n1 & G1 & _ & (x & Ix & Hx) & (y & Iy & Hy)).
  rewrite G in G1. assert (Eq : grid_points "root-2" 0 z0 (S (S n)) = grid_points "root-2" 0 z1 (S (S n1))) by congruence.
  assert (n1 = n) as ->. { apply (f_equal (@length R)) in Eq. unfold grid_points in Eq. rewrite !map_length, !seq_length in Eq. lia. }
  assert (z1 = z0) as ->.
  { apply (f_equal (hd 0)) in Eq. unfold grid_points in Eq. cbn [seq map hd] in Eq. rewrite !Z.add_0_r, !root2 in Eq.
    assert (A : IZR z0 / 2 <= IZR z1 / 2) by (apply Rpower2_le_inv; lra). assert (B : IZR z1 / 2 <= IZR z0 / 2) by (apply Rpower2_le_inv; lra). apply eq_IZR. lra. }
  exists z0, n. split; [exact D|]. rewrite root2 in Hx, Hy.
  apply in_map_iff in Ix. destruct Ix as (c & <- & Ic). apply in_map_iff in Iy. destruct Iy as (c' & <- & Ic').
  pose proof (proj1 (Forall_forall _ _) F c Ic) as [Lx _]. pose proof (proj1 (Forall_forall _ _) F c' Ic') as [_ Ly]. cbv beta in Lx, Ly.
  assert (P2 : forall k, 2 ^ k = Rpower 2 (INR k)) by (intros; symmetry; apply Rpower_pow; lra).
  assert (T : Rpower 10 (1 / 1000) <= Rpower 2 (1 / 2)).
  { replace (1 / 2) with (500 * (1 / 1000)) by lra. rewrite <- Rpower_mult. apply Rle_Rpower_l; [lra|]. split; [lra|]. replace 500 with (INR 500) by (rewrite INR_IZR_INZ; reflexivity). rewrite Rpower_pow by lra.
    replace (2 ^ 500) with (2 ^ 4 * 2 ^ 496) by (rewrite <- pow_add; f_equal). assert (1 <= 2 ^ 496) by (apply pow_R1_Rle; lra). cbn [pow] in *. nra. }
  split.
  - assert (X : - INR 99 <= IZR (z0 + 1) / 2). { apply Rpower2_le_inv. rewrite Rpower_Ropp, <- P2. lra. }
    rewrite INR_IZR_INZ in X. cbn in X. assert (-198 <= IZR (z0 + 1)) by lra. apply le_IZR in H. lia.
  - assert (X : IZR (z0 + Z.of_nat n) / 2 < INR 99 + 1 / 2).
    { apply Rpower2_lt_inv. rewrite Rpower_plus, <- P2. eapply Rlt_le_trans; [exact Hy|]. apply Rmult_le_compat; [|left; apply exp_pos|exact Ly|exact T].
      assert (0 < / 2 ^ 99) by (apply Rinv_0_lt_compat, pow_lt; lra). pose proof (proj1 (Forall_forall _ _) F c' Ic') as [Q _]. cbv beta in Q. lra. }
    rewrite INR_IZR_INZ in X. cbn in X. assert (IZR (z0 + Z.of_nat n) < 199) by lra. apply lt_IZR in H. lia.
Qed.
Lemma NoDup_map_inj_in {A B} (f : A -> B) l : (forall x y, In x l -> In y l -> f x = f y -> x = y) -> NoDup l -> NoDup (map f l).
Proof.
  intros H N. induction N as [|x l NI _ IH]; [constructor|]. cbn [map]. constructor.
  - intros I. apply in_map_iff in I. destruct I as (y & E & Iy). apply NI. rewrite (H x y); [exact Iy|now left|now right|now symmetry].
  - apply IH. intros a b Ia Ib. apply H; now right.
Qed.
Lemma keys_distinct craters bd ri : ordinary craters -> apply_binning craters "root-2" 0 = Ok (bd, ri) -> NoDup (map bin_key (b_dmin bd)).
Proof.
  intros O E. destruct (ordinary_bins _ _ _ O E) as (z0 & n & -> & A & B). unfold grid_points. rewrite map_map. apply NoDup_map_inj_in; [|apply seq_NoDup].
  intros i j Ii Ij K. apply in_seq in Ii, Ij. apply key_inj in K; lia.
Qed.

(** the craters of a bin *)
Definition in_range (lo hi : R) (c : R * R) : bool := Rleb lo (fst c) && Rltb (fst c) hi.
Lemma number_between_filter lo hi craters : number_between lo hi craters = length (filter (in_range lo hi) craters).
Proof.
  induction craters as [|[d f] r IH]; [reflexivity|]. cbn [number_between filter]. unfold in_range at 1. cbn [fst]. rewrite IH.
  destruct (Rle_dec lo d), (Rleb_spec lo d); try contradiction; cbn [andb]; [|reflexivity]. destruct (Rlt_dec d hi), (Rltb_spec d hi); try contradiction; reflexivity.
Qed.
Lemma mapM_nth {A B} (f : A -> res B) (g : A -> B) l : Forall (fun x => f x = Ok (g x)) l -> mapM f l = Ok (map g l).
Proof. induction 1 as [|x l H _ IH]; [reflexivity|]. cbn [mapM]. rewrite H. cbn [bind]. rewrite IH. reflexivity. Qed.
Lemma filter_combine_map {A B C} (P : C -> bool) (Q : B -> bool) (f : A -> C) (idx : list A) (cs : list B) {X} (items : list X) :
  length idx = length cs -> (forall k a b, nth_error idx k = Some a -> nth_error cs k = Some b -> P (f a) = Q b) ->
  map snd (filter (fun p => P (fst p)) (combine (map f idx) items)) = map snd (filter (fun p => Q (fst p)) (combine cs items)).
Proof.
  revert cs items. induction idx as [|a idx IH]; intros [|b cs] items L H; try discriminate; [reflexivity|]. destruct items as [|x items]; [reflexivity|].
  cbn [map combine filter fst]. rewrite (H O a b) by reflexivity. assert (IH' : map snd (filter (fun p => P (fst p)) (combine (map f idx) items)) = map snd (filter (fun p => Q (fst p)) (combine cs items))).
  { apply IH; [now injection L|]. intros k. apply (H (S k)). }
  destruct (Q b); cbn [map snd]; now rewrite IH'.
Qed.
Lemma bin_craters_spec {A} craters bd idx (items : list A) i : ordinary craters -> apply_binning craters "root-2" 0 = Ok (bd, Some idx) -> (i < length (b_dmin bd))%nat ->
  bin_craters bd idx items (bin_key (nth i (b_dmin bd) 0)) =
  Ok (map snd (filter (fun p => in_range (nth i (b_dmin bd) 0) (nth i (b_dmax bd) 0) (fst p)) (combine craters items))).
Proof.
  intros O E Hi. pose proof (keys_distinct _ _ _ O E) as KD. pose proof (ordinary_pos _ O) as P. destruct O as [NE F]. assert (I : In "root-2"%string real_binnings) by (cbn; tauto).
  destruct (one_bin_each _ _ _ _ _ I NE P E) as (idx' & Ei & Li & H). injection Ei as <-. unfold bin_craters. set (keys := map bin_key (b_dmin bd)) in *.
  assert (M : mapM (fun i => pyindex keys (Z.of_nat i - 1)) idx = Ok (map (fun i => nth (i - 1) keys []) idx)).
  { apply mapM_nth. apply Forall_forall. intros a Ia. apply (In_nth _ _ O) in Ia. destruct Ia as (k & Lk & Ek). rewrite Li in Lk. destruct (H k Lk) as (j & Ej & Lj & _).
    rewrite Ek in Ej. rewrite Ej. unfold pyindex. destruct (Z.ltb_spec (Z.of_nat (S j) - 1) 0); [lia|]. destruct (Z.ltb_spec (Z.of_nat (S j) - 1) 0); [lia|]. replace (Z.to_nat (Z.of_nat (S j) - 1)) with j by lia. replace (S j - 1)%nat with j by lia. assert (Lj' : (j < length keys)%nat) by (unfold keys; now rewrite map_length).
    rewrite (nth_error_nth' keys [] Lj'). reflexivity. }
  rewrite M. cbn [bind]. f_equal.
  apply (filter_combine_map (fun k => seqb k (bin_key (nth i (b_dmin bd) 0))) (in_range (nth i (b_dmin bd) 0) (nth i (b_dmax bd) 0)) (fun i => nth (i - 1) keys [])); [exact Li|].
  intros k a c Ea Ec. assert (Lk : (k < length craters)%nat) by (apply nth_error_Some; now rewrite Ec). destruct (H k Lk) as (j & Ej & Lj & Rj & Uj).
  assert (Ea' : nth k idx 0%nat = a) by now apply nth_error_nth. rewrite Ej in Ea'. subst a. replace (S j - 1)%nat with j by lia.
  assert (Ec' : nth k craters (0, 0) = c) by now apply nth_error_nth. rewrite Ec' in Rj, Uj.
  assert (Ki : bin_key (nth i (b_dmin bd) 0) = nth i keys []) by (unfold keys; rewrite (nth_map_lt bin_key (b_dmin bd) i 0) by exact Hi; reflexivity). rewrite Ki.
  assert (Lki : (i < length keys)%nat) by (unfold keys; now rewrite map_length). assert (Lkj : (j < length keys)%nat) by (unfold keys; now rewrite map_length).
  destruct (seqb_spec (nth j keys []) (nth i keys [])) as [Q|Q].
  - assert (j = i) as -> by (apply (proj1 (NoDup_nth keys []) KD j i Lkj Lki Q)). unfold in_range. symmetry. apply andb_true_iff. split; [apply Rleb_true; lra|]. destruct (Rltb_spec (fst c) (nth i (b_dmax bd) 0)); [reflexivity|lra].
  - symmetry. apply not_true_iff_false. unfold in_range. rewrite andb_true_iff. intros [U V]. destruct (Rleb_spec (nth i (b_dmin bd) 0) (fst c)); [|discriminate]. destruct (Rltb_spec (fst c) (nth i (b_dmax bd) 0)); [|discriminate].
    apply Q. f_equal. symmetry. now apply (Uj i Hi).
Qed.
(** together *)
Lemma combine_map_snd {A B} (a : list A) (b : list B) : length a = length b -> map snd (combine a b) = b.
Proof. revert b. induction a as [|x a IH]; intros [|y b] L; try discriminate; [reflexivity|]. cbn. f_equal. apply IH. now injection L. Qed.
Lemma partition_filters {A} (P : nat -> A -> bool) n l : Forall (fun x => exists i, (i < n)%nat /\ P i x = true /\ forall j, (j < n)%nat -> P j x = true -> j = i) l ->
  Permutation (flat_map (fun i => filter (P i) l) (seq 0 n)) l.
Proof.
  induction 1 as [|x l (i & Li & Pi & Ui) _ IH].
  - assert (E : flat_map (fun i => filter (P i) []) (seq 0 n) = []) by (induction (seq 0 n); [reflexivity|assumption]). rewrite E. constructor.
  - transitivity (x :: flat_map (fun i => filter (P i) l) (seq 0 n)); [clear IH|now constructor]. replace n with (i + S (n - i - 1))%nat in * by lia. set (m := (n - i - 1)%nat) in *. clearbody m. rewrite seq_app, !flat_map_app. cbn [Nat.add].
    assert (Same : forall js, (forall j, In j js -> P j x = false) -> flat_map (fun i => filter (P i) (x :: l)) js = flat_map (fun i => filter (P i) l) js).
    { intros js. induction js as [|j js IHj]; intros Hj; [reflexivity|]. cbn [flat_map]. assert (filter (P j) (x :: l) = filter (P j) l) as -> by (cbn [filter]; now rewrite (Hj j (or_introl eq_refl))). f_equal. apply IHj. intros; apply Hj; now right. }
    rewrite (Same (seq 0 i)). 2:{ intros j Ij. apply in_seq in Ij. apply not_true_iff_false. intros Q. specialize (Ui j). assert (j = i) by (apply Ui; [lia|exact Q]). lia. }
    cbn [seq flat_map]. rewrite (Same (seq (S i) m)). 2:{ intros j Ij. apply in_seq in Ij. apply not_true_iff_false. intros Q. specialize (Ui j). assert (j = i) by (apply Ui; [lia|exact Q]). lia. }
    cbn [filter]. rewrite Pi. cbn [app]. symmetry. apply Permutation_middle.
Qed.

(** the bins analysed *)
Lemma split_fold {M} (run : R -> Z -> M) least (l : list (R * R)) : forall d,
  NoDup (map fst d ++ map (fun p => bin_key (fst p)) l) ->
  fold_left (fun d p => let '(b, n) := p in if Rleb (IZR least) n then dict_set d (bin_key b) (run b (Rfloor n)) else d) l d =
  d ++ map (fun p => (bin_key (fst p), run (fst p) (Rfloor (snd p)))) (filter (fun p => Rleb (IZR least) (snd p)) l).
Proof.
  induction l as [|[b n] l IH]; intros d N; [cbn; now rewrite app_nil_r|]. cbn [fold_left filter snd fst map] in *. destruct (Rleb (IZR least) n).
  - rewrite dict_set_new.
    + rewrite IH.
      * cbn [map fst snd]. now rewrite <- app_assoc.
      * rewrite map_app. cbn [map fst]. rewrite <- app_assoc. exact N.
    + intros Q. apply NoDup_remove_2 in N. apply N. apply in_or_app. now left.
  - apply IH. now apply NoDup_remove_1 in N.
Qed.
