(** C110: tables of bins. *)
From Coq Require Import String Ascii List ZArith Reals Bool Lia Lra Sorted Permutation.
From Verif Require Import Base NumModel NumLemmas BinModel StrModel StrSpec FmtModel FmtSpec TsModel TsSpec CountModel IoModel IoSpec IoProofs IoProofs2 IoProofs3 IoProps BtabModel.
Import ListNotations.
Local Open Scope R_scope.

Section Keys.
  Context {A : Type} (key : A -> R).
  Definition key_leb (a b : A) : bool := Rleb (key a) (key b).
  Lemma take_keys (cs : list A) : forall B (g : A -> B), take_at (map g cs) (sorted_positions (map key cs)) = Ok (map g (sort key_leb cs)).
  Proof.
    set (P := combine (seq 0 (length cs)) cs). set (S := sort (fun p q : nat * A => Rleb (key (snd p)) (key (snd q))) P).
    assert (E1 : map snd S = sort key_leb cs).
    { unfold S. change (map snd (sort (fun p q : nat * A => key_leb (snd p) (snd q)) P) = sort key_leb cs). rewrite <- (sort_map snd key_leb P). unfold P. now rewrite <- numbered_pairs. }
    assert (E2 : sorted_positions (map key cs) = map fst S).
    { unfold sorted_positions. rewrite map_length.
      assert (E : combine (seq 0 (length cs)) (map key cs) = map (fun p : nat * A => (fst p, key (snd p))) P).
      { unfold P. generalize (seq 0 (length cs)). clear. induction cs as [|c cs IH]; intros [|k q]; try reflexivity. cbn [map combine fst snd]. now rewrite IH. }
      rewrite E, sort_map, map_map. reflexivity. }
    intros B g. rewrite E2, <- E1, map_map.
    assert (F : Forall (fun p => nth_error cs (fst p) = Some (snd p)) S).
    { apply Forall_forall. intros p I. apply (Permutation_in _ (Permutation_sym (sort_perm _ _))) in I.
      pose proof (numbered_nth cs 0) as H. apply (proj1 (Forall_forall _ _) H) in I. destruct I as [I _]. now rewrite Nat.sub_0_r in I. }
    clear - F. unfold take_at. induction F as [|p l H F IH]; [reflexivity|]. cbn [map mapM]. rewrite nth_error_map, H. cbn [option_map bind]. rewrite IH. reflexivity.
  Qed.
  Lemma key_sorted (cs : list A) : StronglySorted (fun a b => key a <= key b) (sort key_leb cs).
  Proof.
    assert (K : StronglySorted (fun a b => key_leb a b = true) (sort key_leb cs)).
    { apply sort_sorted.
      - unfold key_leb. intros a b. destruct (Rleb_spec (key a) (key b)), (Rleb_spec (key b) (key a)); cbn; auto; lra.
      - unfold key_leb. intros a b c. destruct (Rleb_spec (key a) (key b)), (Rleb_spec (key b) (key c)), (Rleb_spec (key a) (key c)); auto; try discriminate; lra. }
    induction K; constructor; [assumption|]. eapply Forall_impl; [|exact H]. cbn. unfold key_leb. intros q. destruct (Rleb_spec (key a) (key q)); [auto|discriminate].
  Qed.
End Keys.
Lemma upper_two d : (2 <= length d)%nat -> nth (length d - 2) d 0 <> 0 ->
  exists hi, upper_edges d = Ok hi /\ length hi = length d /\ (forall i, (S i < length d)%nat -> nth i hi 0 = nth (S i) d 0) /\
    nth (length d - 1) hi 0 = nth (length d - 1) d 0 * (nth (length d - 1) d 0 / nth (length d - 2) d 0).
Proof.
  intros H NZ. unfold upper_edges. destruct (rev d) as [|b [|a r]] eqn:E; try (apply (f_equal (@length R)) in E; rewrite rev_length in E; cbn in E; lia).
  assert (D : d = rev r ++ [a; b]). { rewrite <- (rev_involutive d), E. cbn [rev]. now rewrite <- app_assoc. }
  assert (LD : length d = S (S (length r))) by (rewrite D, app_length, rev_length; cbn; lia).
  assert (NA : nth (length d - 2) d 0 = a). { rewrite D at 2. rewrite app_nth2 by (rewrite rev_length; lia). rewrite rev_length, LD. replace (S (S (length r)) - 2 - length r)%nat with 0%nat by lia. reflexivity. }
  assert (NB : nth (length d - 1) d 0 = b). { rewrite D at 2. rewrite app_nth2 by (rewrite rev_length; lia). rewrite rev_length, LD. replace (S (S (length r)) - 1 - length r)%nat with 1%nat by lia. reflexivity. }
  unfold divide. destruct (Reqb_spec a 0) as [Q|_]; [congruence|]. cbn [bind]. eexists. split; [reflexivity|].
  assert (TL : length (tl d) = (length d - 1)%nat) by (destruct d; cbn; lia).
  split; [rewrite app_length, TL; cbn; lia|]. split.
  - intros i I. rewrite app_nth1 by lia. destruct d as [|x d]; [cbn in I; lia|reflexivity].
  - rewrite app_nth2 by lia. rewrite TL, Nat.sub_diag. cbn [nth]. now rewrite NA, NB.
Qed.
Lemma cumsum_from_nth l : forall acc i, (i < length l)%nat -> nth i (cumsum_from acc l) 0 = acc + Rsum (firstn (S i) l).
Proof.
  induction l as [|x l IH]; intros acc i I; [cbn in I; lia|]. destruct i as [|i].
  - cbn. lra.
  - cbn [cumsum_from nth]. rewrite IH by (cbn in I; lia). change (firstn (S (S i)) (x :: l)) with (x :: firstn (S i) l). cbn [Rsum]. lra.
Qed.
Lemma cumsum_from_length l : forall acc, length (cumsum_from acc l) = length l.
Proof. induction l as [|x l IH]; intros acc; [reflexivity|]. cbn. now rewrite IH. Qed.
Lemma combine_map_back {A B} (a : list A) (b : list B) : length a = length b -> map fst (combine a b) = a /\ map snd (combine a b) = b.
Proof. revert b. induction a as [|x a IH]; intros [|y b] E; cbn in *; try discriminate; [split; reflexivity|]. destruct (IH b ltac:(lia)) as (P & Q). now rewrite P, Q. Qed.

(** A table of diameters and frequencies, in any order of rows, gives bins in ascending order, each with its own frequencies (without a column of events those are the same), reaching to the next
    diameter, the last one as wide in proportion as the one before it. *)
Theorem C110_bins :
  forall fs name l tags rows ds ns es w a,
    structure_file fs name l -> table_entry l (L "table") tags rows -> (2 <= length rows)%nat ->
    numbers_in tags rows (L "diameter") ds -> Forall (fun d => 0 < d) ds ->
    numbers_in tags rows (L "frequency") ns ->
    (numbers_in tags rows (L "event_frequency") es \/ ~ In (L "event_frequency") tags /\ es = ns) ->
    text_entry l (L "area") w -> decimal w a ->
    exists c, read_binned fs name = Ok c /\ cc_area (ct c) = a /\ cc_prebinned (ct c) = true /\
      let b := cc_binned (ct c) in
      let k := length rows in
      aligned b /\ length (b_dmin b) = k /\
      Permutation (combine ds (combine ns es)) (combine (b_dmin b) (combine (b_n b) (b_nevent b))) /\
      StronglySorted Rle (b_dmin b) /\
      (forall i, (S i < k)%nat -> nth i (b_dmax b) 0 = nth (S i) (b_dmin b) 0) /\
      nth (k - 1) (b_dmax b) 0 / nth (k - 1) (b_dmin b) 0 = nth (k - 1) (b_dmin b) 0 / nth (k - 2) (b_dmin b) 0 /\
      (forall i, (i < k)%nat -> nth i (b_width b) 0 = nth i (b_dmax b) 0 - nth i (b_dmin b) 0 /\
                               0 <= nth i (b_dmean b) 0 /\ nth i (b_dmean b) 0 ^ 2 = nth i (b_dmin b) 0 * nth i (b_dmax b) 0) /\
      (* the cumulative numbers come in the opposite order: place i has the number in the i + 1 largest bins *)
      length (b_ncum_event b) = k /\
      (forall i, (i < k)%nat -> nth i (b_ncum b) 0 = fold_right Rplus 0 (firstn (S i) (rev (b_n b))) /\
                               nth i (b_ncum_event b) 0 = fold_right Rplus 0 (firstn (S i) (rev (b_nevent b)))).
Proof.
  intros fs name l tags rows ds ns es w a SF TE K D DP N E TX DA. pose proof (table_nodup _ _ _ _ (structure_file_ok _ _ _ SF) TE) as ND.
  destruct (structure_lookup _ _ _ SF) as (d & ts & S & M & H). unfold read_binned. rewrite S. cbn [bind].
  unfold dict_get. rewrite (lookup_table d l ts (L "table") tags rows H M TE). cbn [bind].
  rewrite (column_numbers tags rows _ ds ND D). cbn [bind]. rewrite (lookup_text d l ts (L "area") _ H M TX). cbn [bind float_of]. rewrite (py_float_decimal w a DA). cbn [bind].
  rewrite (column_numbers tags rows _ ns ND N).
  assert (LD := numbers_length _ _ _ _ D). assert (LN := numbers_length _ _ _ _ N). assert (LE : length es = length rows) by (destruct E as [E|[_ ->]]; [exact (numbers_length _ _ _ _ E)|exact LN]).
  set (cs := combine ds (combine ns es)). destruct (combine_map_back ns es ltac:(lia)) as (CN & CE). destruct (combine_map_back ds (combine ns es)) as (CD & CX); [rewrite combine_length; lia|]. fold cs in CD, CX.
  assert (MN : map (fun p => fst (snd p)) cs = ns) by (rewrite <- CN, <- CX, map_map; reflexivity). assert (ME : map (fun p => snd (snd p)) cs = es) by (rewrite <- CE, <- CX, map_map; reflexivity).
  assert (TK := take_keys fst cs). rewrite CD in TK. set (so := sort (key_leb fst) cs) in *.
  assert (T1 := TK R fst). rewrite CD in T1. assert (T2 := TK R (fun p => fst (snd p))). rewrite MN in T2. assert (T3 := TK R (fun p => snd (snd p))). rewrite ME in T3. rewrite T1. cbn [bind]. rewrite T2. cbn [bind].
  assert (EV : (if has (TDict (table_dict tags rows)) (L "event_frequency") then do! g <- float_column (TDict (table_dict tags rows)) (L "event_frequency"); take_at g (sorted_positions ds) else Ok (map (fun p => fst (snd p)) so))
    = Ok (map (fun p => snd (snd p)) so)).
  { rewrite table_has. destruct (in_dec (list_eq_dec ascii_dec) _ _) as [I|I]; destruct E as [E|[E1 E2]].
    - rewrite (column_numbers tags rows _ es ND E). exact T3.
    - contradiction.
    - exfalso. destruct E as (i & E & _). apply I. now apply nth_error_In in E.
    - f_equal. rewrite E2 in T3. rewrite T2 in T3. now injection T3. }
  rewrite EV. cbn [bind].
  assert (PS : Permutation cs so) by apply sort_perm. assert (LS : length so = length rows). { rewrite <- (Permutation_length PS). unfold cs. rewrite !combine_length. lia. }
  assert (LF : length (map fst so) = length rows) by now rewrite map_length.
  assert (POS : Forall (fun x => 0 < x) (map fst so)). { apply (Permutation_Forall (Permutation_map fst PS)). now rewrite CD. }
  assert (NP : forall i, (i < length rows)%nat -> 0 < nth i (map fst so) 0) by (intros i I; rewrite Forall_forall in POS; apply POS, nth_In; lia).
  destruct (upper_two (map fst so)) as (hi & U & UL & U1 & U2); [lia|assert (Q := NP (length rows - 2)%nat ltac:(lia)); rewrite LF; lra|].
  rewrite U. cbn [bind]. eexists. split; [reflexivity|]. cbn [ct cc_area cc_prebinned cc_binned]. split; [reflexivity|]. split; [reflexivity|]. rewrite LF in *.
  cbv zeta. cbn [b_dmin b_dmax b_width b_dmean b_n b_nevent b_ncum b_ncum_event].
  assert (LC : forall n, length (make_ncum n) = length n) by (intros n; unfold make_ncum, cumsum; now rewrite cumsum_from_length, rev_length).
  split; [unfold aligned; cbn [b_dmin b_dmax b_width b_dmean b_n b_nevent b_ncum b_ncum_event]; rewrite !LC, !map_length, !combine_length, map_length; lia|]. split; [exact LF|]. split.
  { assert (Q : combine (map fst so) (combine (map (fun p => fst (snd p)) so) (map (fun p => snd (snd p)) so)) = so). { clear. induction so as [|[x [y z]] so IH]; [reflexivity|]. cbn. now rewrite IH. } rewrite Q. exact PS. }
  split.
  { assert (KS := key_sorted (A := R * (R * R)) fst cs). fold so in KS. clear -KS. induction KS as [|x so KS IH F]; constructor; [exact IH|]. apply Forall_map. exact F. }
  split; [exact U1|]. split.
  { rewrite U2. assert (P1 := NP (length rows - 1)%nat ltac:(lia)). assert (P2 := NP (length rows - 2)%nat ltac:(lia)). field. split; lra. }
  assert (HP : forall i, (i < length rows)%nat -> 0 < nth i hi 0).
  { intros i I. destruct (Nat.eq_dec i (length rows - 1)) as [->|NE].
    - rewrite U2. assert (P1 := NP (length rows - 1)%nat ltac:(lia)). assert (P2 := NP (length rows - 2)%nat ltac:(lia)). apply Rmult_lt_0_compat; [exact P1|]. now apply Rdiv_lt_0_compat.
    - rewrite U1 by lia. apply NP. lia. }
  split.
  { intros i I. assert (PN : forall (f : R * R -> R), nth i (map f (combine (map fst so) hi)) 0 = f (nth i (map fst so) 0, nth i hi 0)).
    { intros f. rewrite (nth_indep _ 0 (f (0, 0))) by (rewrite map_length, combine_length; lia). rewrite map_nth. rewrite combine_nth by lia. reflexivity. }
    rewrite !PN. cbn [fst snd]. split; [reflexivity|]. split; [apply sqrt_pos|]. apply pow2_sqrt. apply Rmult_le_pos; left; [now apply NP|now apply HP]. }
  split; [now rewrite LC, map_length|].
  intros i I. unfold make_ncum, cumsum. rewrite !cumsum_from_nth by (rewrite rev_length, map_length; lia). split; apply Rplus_0_l.
Qed.
Print Assumptions C110_bins.

(** The number at the smallest diameter is that of the largest bin, not the total. *)
Theorem C110_cumulative_refuted :
  forall fs name l tags rows ds ns es w a,
    structure_file fs name l -> table_entry l (L "table") tags rows -> (2 <= length rows)%nat ->
    numbers_in tags rows (L "diameter") ds -> Forall (fun d => 0 < d) ds ->
    numbers_in tags rows (L "frequency") ns -> Forall (fun n => 0 < n) ns ->
    (numbers_in tags rows (L "event_frequency") es \/ ~ In (L "event_frequency") tags /\ es = ns) ->
    text_entry l (L "area") w -> decimal w a ->
    exists c, read_binned fs name = Ok c /\
      let b := cc_binned (ct c) in
      nth 0 (b_ncum b) 0 = nth (length rows - 1) (b_n b) 0 /\ nth 0 (b_ncum b) 0 < fold_right Rplus 0 (b_n b).
Proof.
  intros fs name l tags rows ds ns es w a SF TE K D DP N NP E TX DA.
  destruct (C110_bins fs name l tags rows ds ns es w a SF TE K D DP N E TX DA) as (c & R1 & _ & _ & H). exists c. split; [exact R1|]. cbv zeta in *. set (b := cc_binned (ct c)) in *.
  destruct H as (AL & LB & PM & _ & _ & _ & _ & _ & NC). destruct (NC 0%nat ltac:(lia)) as (N0 & _). unfold aligned in AL. cbv zeta in AL.
  assert (LN : length (b_n b) = length rows) by lia. assert (LE : length (b_nevent b) = length rows) by lia.
  assert (NB : Forall (fun n => 0 < n) (b_n b)).
  { assert (LDS := numbers_length _ _ _ _ D). assert (LNS := numbers_length _ _ _ _ N). assert (LES : length es = length rows) by (destruct E as [E|[_ ->]]; [exact (numbers_length _ _ _ _ E)|exact LNS]).
    destruct (combine_map_back ns es ltac:(lia)) as (CN & _). destruct (combine_map_back ds (combine ns es)) as (_ & CX); [rewrite combine_length; lia|].
    destruct (combine_map_back (b_n b) (b_nevent b) ltac:(lia)) as (CN' & _). destruct (combine_map_back (b_dmin b) (combine (b_n b) (b_nevent b))) as (_ & CX'); [rewrite combine_length; lia|].
    rewrite <- CN', <- CX'. apply (Permutation_Forall (Permutation_map fst (Permutation_map snd PM))). now rewrite CX, CN. }
  assert (RV : exists x y r, rev (b_n b) = x :: y :: r). { destruct (rev (b_n b)) as [|x [|y r]] eqn:Q; try (apply (f_equal (@length R)) in Q; rewrite rev_length in Q; cbn in Q; lia). eauto. }
  destruct RV as (x & y & r & RV). rewrite RV in N0. cbn [firstn fold_right] in N0. assert (BN : b_n b = rev r ++ [y; x]) by (rewrite <- (rev_involutive (b_n b)), RV; cbn [rev]; now rewrite <- app_assoc).
  split.
  - rewrite N0, BN. rewrite app_nth2 by (rewrite rev_length; apply (f_equal (@length R)) in BN; rewrite app_length, rev_length in BN; cbn in BN; lia). rewrite rev_length.
    apply (f_equal (@length R)) in BN. rewrite app_length, rev_length in BN. cbn in BN. replace (length rows - 1 - length r)%nat with 1%nat by lia. cbn. lra.
  - rewrite N0, BN. rewrite fold_right_app. cbn [fold_right]. rewrite BN in NB. apply Forall_app in NB as (NB1 & NB2). inversion NB2 as [|? ? Y NB3]; subst.
    assert (Q : forall l z, Forall (fun n => 0 < n) l -> z <= fold_right Rplus z l). { clear. induction l as [|h l IH]; intros z F; [cbn; lra|]. inversion F; subst. cbn. specialize (IH z H2). lra. }
    specialize (Q (rev r) (y + (x + 0)) NB1). lra.
Qed.
Print Assumptions C110_cumulative_refuted.

(** Such files are not read by the constructor. *)
Theorem C110_not_accepted : forall shp fs name, filename name (L "e") None None 6 = Ok (L ".binned") -> open_count shp fs name = Err SysExit.
Proof. intros shp fs name E. unfold open_count. rewrite E. reflexivity. Qed.
Print Assumptions C110_not_accepted.

(** Lower limits from at least two centres: each is halfway, in proportion, between its centre and the one before; the first makes the same proportion as the next.  The widths are the distances of the
    centres, the last as wide in proportion as the one before. *)
Theorem C110_limits : forall m, (2 <= length m)%nat -> Forall (fun d => 0 < d) m ->
  exists lo w, make_bin_min m = Ok (lo, w) /\ length lo = length m /\ length w = length m /\ Forall (fun d => 0 < d) lo /\
    (forall i, (S i < length m)%nat -> nth (S i) lo 0 ^ 2 = nth i m 0 * nth (S i) m 0) /\
    nth 0 lo 0 / nth 1 lo 0 = nth 0 m 0 / nth 1 m 0 /\
    (forall i, (S i < length m)%nat -> nth i w 0 = nth (S i) m 0 - nth i m 0) /\
    nth (length m - 1) w 0 * nth (length m - 2) m 0 = nth (length m - 2) w 0 * nth (length m - 1) m 0.
Proof.
  intros m K P. assert (NL : forall A (f : R -> R -> A), length (neighbours f m) = (length m - 1)%nat).
  { intros A f. unfold neighbours. rewrite map_length, combine_length. destruct m as [|x m]; [reflexivity|]. cbn [tl length]. lia. }
  assert (NN : forall (f : R -> R -> R) i, (S i < length m)%nat -> nth i (neighbours f m) 0 = f (nth i m 0) (nth (S i) m 0)).
  { intros f i I. unfold neighbours. set (g := fun p : R * R => f (fst p) (snd p)). rewrite (nth_indep _ 0 (g (0, nth 0 (@nil R) 0))).
    2:{ rewrite map_length, combine_length. destruct m as [|x m]; [cbn in I; lia|]. cbn [tl length] in *. lia. }
    rewrite map_nth. cbn [nth]. assert (Q : nth i (combine m (tl m)) (0, 0) = (nth i m 0, nth (S i) m 0)).
    { clear -I. destruct m as [|x m]; [cbn in I; lia|]. cbn [tl]. revert x i I. induction m as [|y m IH]; intros x i I; [cbn in I; lia|]. destruct i as [|i]; [reflexivity|]. change (nth (S i) (combine (x :: y :: m) (y :: m)) (0, 0)) with (nth i (combine (y :: m) m) (0, 0)). rewrite IH by (cbn in *; lia). reflexivity. }
    rewrite Q. reflexivity. }
  assert (MP : forall i, (i < length m)%nat -> 0 < nth i m 0) by (intros i I; rewrite Forall_forall in P; apply P, nth_In; exact I).
  unfold make_bin_min. set (f := fun a b : R => sqrt (a * b)). set (g := fun a b : R => b - a).
  destruct m as [|m0 [|m1 mr]] eqn:EM; try (cbn in K; lia). rewrite <- EM in *.
  destruct (neighbours f m) as [|x0 xr] eqn:EX; [apply (f_equal (@length R)) in EX; rewrite NL in EX; cbn in EX; lia|].
  destruct (rev m) as [|z1 [|z2 zr]] eqn:EZ; try (apply (f_equal (@length R)) in EZ; rewrite rev_length in EZ; cbn in EZ; lia).
  destruct (rev (neighbours g m)) as [|w1 wr] eqn:EW; [apply (f_equal (@length R)) in EW; rewrite rev_length, NL in EW; cbn in EW; lia|].
  assert (M0 : nth 0 m 0 = m0) by now rewrite EM. assert (M1 : nth 1 m 0 = m1) by now rewrite EM.
  assert (REV : forall l i, (i < length l)%nat -> nth i (rev l) 0 = nth (length l - S i) l 0) by (intros l i I; now apply rev_nth).
  assert (Z1 : z1 = nth (length m - 1) m 0) by (rewrite <- (REV m 0%nat) by lia; now rewrite EZ). assert (Z2 : z2 = nth (length m - 2) m 0) by (rewrite <- (REV m 1%nat) by lia; now rewrite EZ).
  assert (W1 : w1 = nth (length m - 2) (neighbours g m) 0). { replace (length m - 2)%nat with (length (neighbours g m) - 1)%nat by (rewrite NL; lia). rewrite <- (REV (neighbours g m) 0%nat) by (rewrite NL; lia). now rewrite EW. }
  assert (X0 : x0 = sqrt (m0 * m1)). { change x0 with (nth 0 (x0 :: xr) 0). rewrite <- EX, NN by lia. rewrite M0, M1. reflexivity. }
  assert (P0 := MP 0%nat ltac:(lia)). assert (P1 := MP 1%nat ltac:(lia)). assert (P2 := MP (length m - 2)%nat ltac:(lia)). rewrite M0 in P0. rewrite M1 in P1. rewrite <- Z2 in P2.
  assert (XP : 0 < x0) by (rewrite X0; apply sqrt_lt_R0; now apply Rmult_lt_0_compat).
  unfold divide. destruct (Reqb_spec m1 0) as [Q|_]; [lra|]. cbn [bind]. destruct (Reqb_spec z2 0) as [Q|_]; [lra|]. cbn [bind].
  assert (GX : forall i, (S i < length m)%nat -> nth i (x0 :: xr) 0 = sqrt (nth i m 0 * nth (S i) m 0)) by (intros i I; rewrite <- EX, NN by exact I; reflexivity).
  assert (LX : length (x0 :: xr) = (length m - 1)%nat) by (rewrite <- EX; apply NL).
  eexists _, _. split; [reflexivity|]. split; [cbn [length] in *; lia|]. split; [rewrite app_length, NL; cbn; lia|]. split.
  { constructor; [apply Rdiv_lt_0_compat; [now apply Rmult_lt_0_compat|exact P1]|]. apply Forall_forall. intros x X. apply (In_nth _ _ 0) in X as (i & I & <-). rewrite LX in I. rewrite GX by lia.
    apply sqrt_lt_R0. apply Rmult_lt_0_compat; apply MP; lia. }
  split. { intros i I. change (nth (S i) (x0 * m0 / m1 :: x0 :: xr) 0) with (nth i (x0 :: xr) 0). rewrite GX by exact I. apply pow2_sqrt. apply Rmult_le_pos; left; apply MP; lia. }
  split. { cbn [nth]. rewrite EM. cbn [nth]. field. split; lra. }
  split. { intros i I. rewrite app_nth1 by (rewrite NL; lia). now rewrite NN. }
  rewrite app_nth2 by (rewrite NL; lia). rewrite NL, Nat.sub_diag. cbn [nth]. rewrite app_nth1 by (rewrite NL; lia). rewrite <- W1, <- Z1, <- Z2. field. lra.
Qed.
Print Assumptions C110_limits.
(** an example: two bins, the larger one first *)
Definition btab_example : str :=
  L "area = 12.5" ++ [nl] ++ L "table = {diameter,frequency" ++ [nl] ++ L "2 1" ++ [nl] ++ L "1.5 2" ++ [nl] ++ L "}".
Definition btab_entries : list entry :=
  [Entry [] (L "area") false (L " ") (L " ") (Word (L "12.5")) [];
   Entry [] (L "table") false (L " ") (L " ")
     (Table [Item [] None (L "diameter") []; Item [] None (L "frequency") []] [row (L "2") (L "1"); row (L "1.5") (L "2")] []) []].
Lemma btab_file : structure_file [(L "a.binned", btab_example)] (L "a.binned") btab_entries.
Proof.
  eexists _, []. split; [vm_compute; reflexivity|]. split; [vm_compute; reflexivity|]. split; [discriminate|]. split; [|split; [|now left]].
  - apply Forall_cons; [|apply Forall_cons; [|constructor]].
    + split; [apply plain_frame; [repeat constructor|discriminate]|]. cbn [value_of]. apply (word_number false _ (125/10)); [left; apply num_125|reflexivity].
    + split; [apply plain_frame; [repeat constructor|discriminate]|]. cbn [value_of flat_ok].
      split; [discriminate|]. split; [cbn [map item_word]; repeat constructor; cbn; intuition discriminate|].
      split; [apply Forall_cons; [apply plain_item; [repeat constructor|discriminate]|apply Forall_cons; [apply plain_item; [repeat constructor|discriminate]|constructor]]|].
      split; [reflexivity|]. split; [discriminate|]. split; [|constructor].
      apply Forall_cons; [eapply row_ok_numbers; left; [apply num_2|apply num_1]|]. apply Forall_cons; [eapply row_ok_numbers; left; [apply num_15|apply num_2]|constructor].
  - intros l1 e l2 E (x & y & z & V). exfalso. unfold btab_entries in E. destruct l1 as [|? [|? [|? ?]]]; cbn in E; injection E; intros; subst; cbn in V; discriminate.
Qed.
Example C110_hypotheses_met :
  let tags := [L "diameter"; L "frequency"] in
  let rows := [row (L "2") (L "1"); row (L "1.5") (L "2")] in
  structure_file [(L "a.binned", btab_example)] (L "a.binned") btab_entries /\ table_entry btab_entries (L "table") tags rows /\
  numbers_in tags rows (L "diameter") [2; 15/10] /\ Forall (fun d => 0 < d) [2; 15/10] /\ numbers_in tags rows (L "frequency") [1; 2] /\ Forall (fun d => 0 < d) [1; 2] /\
  ~ In (L "event_frequency") tags /\ text_entry btab_entries (L "area") (L "12.5") /\ decimal (L "12.5") (125/10) /\
  filename (L "a.binned") (L "e") None None 6 = Ok (L ".binned").
Proof.
  cbv zeta. split; [apply btab_file|]. split.
  { eexists (nth 1 btab_entries (Entry [] [] false [] [] (Word []) [])), _, _. split; [|split; [reflexivity|split; reflexivity]].
    eexists [_], []. split; [reflexivity|]. repeat constructor; cbn; discriminate. }
  split; [exists 0%nat; split; [reflexivity|]; repeat constructor; apply numeral_decimal; [apply num_2|apply num_15]|].
  split; [repeat constructor; lra|]. split; [exists 1%nat; split; [reflexivity|]; repeat constructor; apply numeral_decimal; [apply num_1|apply num_2]|].
  split; [repeat constructor; lra|]. split; [cbn; intuition discriminate|]. split.
  { eexists (nth 0 btab_entries (Entry [] [] false [] [] (Word []) [])). split; [|split; [reflexivity|left; reflexivity]].
    eexists [], _. split; [reflexivity|]. repeat constructor; cbn; discriminate. }
  split; [apply numeral_decimal, num_125|]. vm_compute. reflexivity.
Qed.
