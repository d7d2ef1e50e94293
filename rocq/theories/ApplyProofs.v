(** Proofs about apply_binning: conservation, cumulative counts, order independence. *)
From Coq Require Import String List ZArith Reals Lra Lia Bool Permutation Sorting.Sorted.
From Verif Require Import Base NumModel NumLemmas BinModel BinSpec BinProofs.
Import ListNotations.
Local Open Scope R_scope.

(** ** histogram *)
Lemma hist1_between lo hi closed dw :
  (closed = true -> Forall (fun p => fst p < hi) dw) ->
  hist1 lo hi closed dw = fraction_between lo hi dw.
Proof.
  unfold hist1. induction dw as [|[d f] dw IH]; intros H; [reflexivity|].
  cbn [filter fst snd map fraction_between]. rewrite <- IH by (intros E; specialize (H E); inversion H; assumption).
  assert (Hin : in_bin lo hi closed d = (if Rle_dec lo d then if Rlt_dec d hi then true else false else false)).
  { unfold in_bin, Rleb, Rltb. destruct (Rle_dec lo d); cbn [andb]; [|reflexivity].
    destruct closed; [|destruct (Rlt_dec d hi); reflexivity].
    specialize (H eq_refl). inversion H; subst; cbn in *.
    destruct (Rle_dec d hi), (Rlt_dec d hi); try reflexivity; lra. }
  rewrite Hin. destruct (Rle_dec lo d); [|ring]. destruct (Rlt_dec d hi); cbn [map snd Rsum]; ring.
Qed.

Lemma histogram_length bins dw : length (histogram bins dw) = pred (length bins).
Proof.
  induction bins as [|lo bins IH]; [reflexivity|]. destruct bins as [|hi bins]; [reflexivity|].
  change (histogram (lo :: hi :: bins) dw) with
    (hist1 lo hi (match bins with [] => true | _ => false end) dw :: histogram (hi :: bins) dw).
  cbn [length]. rewrite IH. cbn. reflexivity.
Qed.

Lemma histogram_nth bins dw i :
  (S i < length bins)%nat -> Forall (fun p => fst p < last bins 0) dw ->
  nth i (histogram bins dw) 0 = fraction_between (nth i bins 0) (nth (S i) bins 0) dw.
Proof.
  revert i. induction bins as [|lo bins IH]; intros i H Hall; cbn in H; [lia|].
  destruct bins as [|hi bins]; [cbn in H; lia|].
  change (histogram (lo :: hi :: bins) dw) with
    (hist1 lo hi (match bins with [] => true | _ => false end) dw :: histogram (hi :: bins) dw).
  destruct i.
  - cbn [nth]. apply hist1_between. destruct bins; [|discriminate]. intros _. exact Hall.
  - change (nth i (histogram (hi :: bins) dw) 0 =
      fraction_between (nth i (hi :: bins) 0) (nth (S i) (hi :: bins) 0) dw).
    apply IH; [cbn in H |- *; lia|]. exact Hall.
Qed.

(** ** interval arithmetic of the specification *)
Lemma fraction_between_split lo mid hi cs : lo <= mid -> mid <= hi ->
  fraction_between lo hi cs = fraction_between lo mid cs + fraction_between mid hi cs.
Proof.
  intros. induction cs as [|[d f] cs IH]; cbn [fraction_between]; [ring|]. rewrite IH.
  destruct (Rle_dec lo d), (Rlt_dec d hi), (Rlt_dec d mid), (Rle_dec mid d); try lra.
Qed.
Lemma number_between_split lo mid hi cs : lo <= mid -> mid <= hi ->
  (number_between lo hi cs = number_between lo mid cs + number_between mid hi cs)%nat.
Proof.
  intros. induction cs as [|[d f] cs IH]; cbn [number_between]; [reflexivity|]. rewrite IH.
  destruct (Rle_dec lo d), (Rlt_dec d hi), (Rlt_dec d mid), (Rle_dec mid d); try lia; exfalso; lra.
Qed.
Lemma fraction_between_top lo hi cs : Forall (fun p => fst p < hi) cs ->
  fraction_between lo hi cs = fraction_from lo cs.
Proof.
  induction 1 as [|[d f] cs Hd _ IH]; [reflexivity|]. cbn [fraction_between fraction_from fst] in *.
  rewrite IH. destruct (Rle_dec lo d); [|reflexivity]. destruct (Rlt_dec d hi); [reflexivity|lra].
Qed.
Lemma number_between_top lo hi cs : Forall (fun p => fst p < hi) cs ->
  number_between lo hi cs = number_from lo cs.
Proof.
  induction 1 as [|[d f] cs Hd _ IH]; [reflexivity|]. cbn [number_between number_from fst] in *.
  rewrite IH. destruct (Rle_dec lo d); [|reflexivity]. destruct (Rlt_dec d hi); [reflexivity|lra].
Qed.
Lemma fraction_from_all lo cs : Forall (fun p => lo <= fst p) cs -> fraction_from lo cs = total_fraction cs.
Proof.
  induction 1 as [|[d f] cs Hd _ IH]; [reflexivity|]. cbn [fraction_from total_fraction fst] in *.
  rewrite IH. destruct (Rle_dec lo d); [reflexivity|lra].
Qed.
Lemma number_from_all lo cs : Forall (fun p => lo <= fst p) cs -> number_from lo cs = length cs.
Proof.
  induction 1 as [|[d f] cs Hd _ IH]; [reflexivity|]. cbn [number_from length fst] in *.
  rewrite IH. destruct (Rle_dec lo d); [reflexivity|lra].
Qed.
Lemma fraction_ones lo hi cs :
  fraction_between lo hi (map (fun c : R * R => (fst c, 1)) cs) = INR (number_between lo hi cs).
Proof.
  induction cs as [|[d f] cs IH]; [reflexivity|]. cbn [map fst fraction_between number_between].
  rewrite IH, plus_INR. destruct (Rle_dec lo d); [|cbn; ring]. destruct (Rlt_dec d hi); cbn; ring.
Qed.

(** ** flip(cumsum(flip h)) is the tail sum *)
Lemma flip_cumsum_length h : length (flip_cumsum h) = length h.
Proof. unfold flip_cumsum. rewrite rev_length, cumsum_length, rev_length. reflexivity. Qed.
Lemma flip_cumsum_nth h i : (i < length h)%nat -> nth i (flip_cumsum h) 0 = Rsum (skipn i h).
Proof.
  intros H. unfold flip_cumsum.
  rewrite rev_nth by (rewrite cumsum_length, rev_length; assumption).
  rewrite cumsum_length, rev_length. rewrite cumsum_nth by (rewrite rev_length; lia).
  replace (S (length h - S i)) with (length h - i)%nat by lia.
  rewrite firstn_rev. rewrite Rsum_rev. f_equal. f_equal. lia.
Qed.

(** tail sums of a histogram telescope *)
Lemma histogram_tail bins dw i :
  (S i < length bins)%nat -> ascending bins -> Forall (fun p => fst p < last bins 0) dw ->
  Rsum (skipn i (histogram bins dw)) = fraction_from (nth i bins 0) dw.
Proof.
  intros Hi Hasc Hall. remember (length bins - S i)%nat as m. revert i Hi Heqm.
  induction m; intros i Hi Hm; [lia|].
  assert (Hl : (i < length (histogram bins dw))%nat) by (rewrite histogram_length; lia).
  assert (Hs : skipn i (histogram bins dw) = nth i (histogram bins dw) 0 :: skipn (S i) (histogram bins dw)).
  { clear -Hl. remember (histogram bins dw) as l. clear Heql. revert l Hl.
    induction i; intros [|x l] H; cbn in H; try lia; [reflexivity|]. cbn [skipn nth]. apply IHi. lia. }
  rewrite Hs. cbn [Rsum]. rewrite histogram_nth by assumption.
  destruct (Nat.eq_dec (S (S i)) (length bins)) as [E|E].
  - rewrite (skipn_all2 (n := S i)) by (rewrite histogram_length; lia). cbn [Rsum]. rewrite Rplus_0_r.
    assert (Hlast : nth (S i) bins 0 = last bins 0).
    { clear -E. revert i E. induction bins as [|x bins IH]; intros i E; [discriminate|].
      destruct bins as [|y bins]; [discriminate|]. destruct i.
      - destruct bins; [reflexivity|discriminate].
      - change (nth (S i) (y :: bins) 0 = last (y :: bins) 0). apply IH. cbn in *. lia. }
    rewrite Hlast. apply fraction_between_top. assumption.
  - rewrite IHm by lia.
    assert (Hlt : nth i bins 0 < nth (S i) bins 0) by (apply Hasc; lia).
    clear -Hlt. induction dw as [|[d f] dw IH]; cbn [fraction_between fraction_from]; [ring|].
    destruct (Rle_dec (nth i bins 0) d), (Rlt_dec d (nth (S i) bins 0)), (Rle_dec (nth (S i) bins 0) d); lra.
Qed.

Lemma fraction_from_ones lo cs :
  fraction_from lo (map (fun c : R * R => (fst c, 1)) cs) = INR (number_from lo cs).
Proof.
  induction cs as [|[d f] cs IH]; [reflexivity|]. cbn [map fst fraction_from number_from].
  rewrite IH, plus_INR. destruct (Rle_dec lo d); cbn; ring.
Qed.

(** ** grid points *)
Lemma grid_points_length b off z n : length (grid_points b off z n) = n.
Proof. unfold grid_points. rewrite map_length, seq_length. reflexivity. Qed.
Lemma grid_points_nth b off z n i : (i < n)%nat -> nth i (grid_points b off z n) 0 = grid b off (z + Z.of_nat i).
Proof. intros. unfold grid_points. rewrite nth_map_seq by assumption. reflexivity. Qed.
Lemma grid_points_ascending b off z n : In b real_binnings -> ascending (grid_points b off z n).
Proof.
  intros Hb i j Hij. rewrite grid_points_length in Hij. rewrite !grid_points_nth by lia.
  apply g_lt; [intros; apply grid_step; assumption|lia].
Qed.
Lemma last_nth {A} (l : list A) d : last l d = nth (length l - 1) l d.
Proof.
  destruct l as [|x l _] using rev_ind; [reflexivity|].
  rewrite last_last, app_length. cbn [length]. rewrite app_nth2 by lia.
  replace (length l + 1 - 1 - length l)%nat with O by lia. reflexivity.
Qed.
Lemma grid_points_last b off z n : last (grid_points b off z (S n)) 0 = grid b off (z + Z.of_nat n).
Proof.
  rewrite last_nth, grid_points_length. rewrite grid_points_nth by lia. f_equal. lia.
Qed.
Lemma removelast_firstn {A} (l : list A) : removelast l = firstn (length l - 1) l.
Proof.
  destruct l as [|x l _] using rev_ind; [reflexivity|].
  rewrite removelast_last, app_length. cbn [length].
  replace (length l + 1 - 1)%nat with (length l + 0)%nat by lia.
  rewrite firstn_app_2. cbn [firstn]. rewrite app_nil_r. reflexivity.
Qed.
Lemma firstn_map_seq {A} (f : nat -> A) k n m : (n <= m)%nat -> firstn n (map f (seq k m)) = map f (seq k n).
Proof.
  revert k m. induction n; intros k m H; [reflexivity|]. destruct m; [lia|].
  cbn [seq map firstn]. f_equal. apply IHn. lia.
Qed.
Lemma edges_lo_grid b off z n : edges_lo (grid_points b off z (S n)) = grid_points b off z n.
Proof.
  unfold edges_lo. rewrite removelast_firstn, grid_points_length. unfold grid_points.
  replace (S n - 1)%nat with n by lia. apply firstn_map_seq. lia.
Qed.
Lemma edges_hi_grid b off z n : edges_hi (grid_points b off z (S n)) = grid_points b off (z + 1) n.
Proof.
  unfold edges_hi, grid_points. cbn [seq map tl]. rewrite <- seq_shift, map_map.
  apply map_ext. intros. f_equal. lia.
Qed.
Lemma map_combine_points b off z n (F : R -> R -> R) :
  map (fun p => F (fst p) (snd p)) (combine (grid_points b off z n) (grid_points b off (z + 1) n))
  = map (fun i => F (grid b off (z + Z.of_nat i)) (grid b off (z + 1 + Z.of_nat i))) (seq 0 n).
Proof.
  unfold grid_points. generalize (seq 0 n). induction l; [reflexivity|]. cbn. f_equal. assumption.
Qed.

(** ** apply_binning with a real binning *)
Lemma real_binning_member b : In b real_binnings -> existsb (String.eqb b) BINNINGS = true /\ String.eqb b "none" = false.
Proof.
  intros H. unfold real_binnings in H.
  repeat (destruct H as [<-|H]; [split; reflexivity|]). destruct H.
Qed.

Theorem apply_binning_spec craters b off :
  In b real_binnings -> craters <> [] -> Forall (fun c => 0 < fst c) craters ->
  exists z0 n bd ri, apply_binning craters b off = Ok (bd, Some ri) /\
    generate_bins b (map fst craters) off true = Ok (grid_points b off z0 (S (S n))) /\
    b_dmin bd = grid_points b off z0 (S n) /\
    b_dmax bd = grid_points b off (z0 + 1) (S n) /\
    (forall c, In c craters -> grid b off z0 <= fst c < grid b off (z0 + Z.of_nat (S n))) /\
    b_width bd = map (fun i => grid b off (z0 + 1 + Z.of_nat i) - grid b off (z0 + Z.of_nat i)) (seq 0 (S n)) /\
    b_dmean bd = map (fun i => sqrt (grid b off (z0 + 1 + Z.of_nat i) * grid b off (z0 + Z.of_nat i))) (seq 0 (S n)) /\
    b_n bd = map (fun i => fraction_between (grid b off (z0 + Z.of_nat i)) (grid b off (z0 + Z.of_nat i + 1)) craters) (seq 0 (S n)) /\
    b_nevent bd = map (fun i => INR (number_between (grid b off (z0 + Z.of_nat i)) (grid b off (z0 + Z.of_nat i + 1)) craters)) (seq 0 (S n)) /\
    b_ncum bd = map (fun i => fraction_from (grid b off (z0 + Z.of_nat i)) craters) (seq 0 (S n)) /\
    b_ncum_event bd = map (fun i => INR (number_from (grid b off (z0 + Z.of_nat i)) craters)) (seq 0 (S n)) /\
    ri = map (fun c => digitize (grid_points b off z0 (S (S n))) (fst c)) craters.
Proof.
  intros Hb Hne Hpos.
  destruct (generate_bins_grid b (map fst craters) off Hb) as (z0 & n & HG & Hcov & _ & _).
  { destruct craters; [congruence|discriminate]. }
  { apply Forall_map. assumption. }
  destruct (real_binning_member b Hb) as [Hm Hnn].
  set (bins := grid_points b off z0 (S (S n))) in *.
  assert (Hcov' : forall c, In c craters -> grid b off z0 <= fst c < grid b off (z0 + Z.of_nat (S n))).
  { intros c Hc. apply Hcov. apply in_map. assumption. }
  assert (Hlast : last bins 0 = grid b off (z0 + Z.of_nat (S n))) by apply grid_points_last.
  assert (Hall : Forall (fun p => fst p < last bins 0) craters).
  { apply Forall_forall. intros c Hc. rewrite Hlast. apply Hcov'. assumption. }
  assert (Hall1 : Forall (fun p => fst p < last bins 0) (map (fun c : R * R => (fst c, 1)) craters)).
  { apply Forall_map. eapply Forall_impl; [|exact Hall]. intros c Hc. exact Hc. }
  assert (Hasc : ascending bins) by (apply grid_points_ascending; assumption).
  assert (Hlen : length bins = S (S n)) by apply grid_points_length.
  assert (Hmapeq : forall (l : list R) (f : nat -> R), length l = S n ->
            (forall i, (i < S n)%nat -> nth i l 0 = f i) -> l = map f (seq 0 (S n))).
  { intros l f Hl Hn. apply nth_ext with (d := 0) (d' := 0).
    - rewrite map_length, seq_length. assumption.
    - intros i Hi. rewrite nth_map_seq by lia. apply Hn. lia. }
  unfold apply_binning. rewrite Hm, Hnn. cbn [negb]. rewrite HG. cbn [bind].
  do 4 eexists. split; [reflexivity|]. split; [reflexivity|].
  cbn [b_dmin b_dmax b_width b_dmean b_n b_nevent b_ncum b_ncum_event].
  unfold bins. rewrite edges_lo_grid, edges_hi_grid. fold bins.
  split; [reflexivity|]. split; [reflexivity|]. split; [exact Hcov'|].
  split; [apply (map_combine_points b off z0 (S n) (fun x y => y - x))|].
  split; [apply (map_combine_points b off z0 (S n) (fun x y => sqrt (y * x)))|].
  assert (Hn1 : forall i, (i < S n)%nat -> nth i bins 0 = grid b off (z0 + Z.of_nat i)).
  { intros. unfold bins. apply grid_points_nth. lia. }
  assert (Hn2 : forall i, (i < S n)%nat -> nth (S i) bins 0 = grid b off (z0 + Z.of_nat i + 1)).
  { intros. unfold bins. rewrite grid_points_nth by lia. f_equal. lia. }
  repeat split.
  - apply Hmapeq; [rewrite histogram_length, Hlen; reflexivity|].
    intros i Hi. rewrite histogram_nth by (assumption || lia). rewrite Hn1, Hn2 by assumption. reflexivity.
  - apply Hmapeq; [rewrite histogram_length, Hlen; reflexivity|].
    intros i Hi. rewrite histogram_nth by (assumption || lia). rewrite Hn1, Hn2 by assumption. apply fraction_ones.
  - apply Hmapeq; [rewrite flip_cumsum_length, histogram_length, Hlen; reflexivity|].
    intros i Hi. rewrite flip_cumsum_nth by (rewrite histogram_length; lia).
    rewrite histogram_tail by (assumption || lia). rewrite Hn1 by assumption. reflexivity.
  - apply Hmapeq; [rewrite flip_cumsum_length, histogram_length, Hlen; reflexivity|].
    intros i Hi. rewrite flip_cumsum_nth by (rewrite histogram_length; lia).
    rewrite histogram_tail by (assumption || lia). rewrite Hn1 by assumption. apply fraction_from_ones.
Qed.

(** every crater is in exactly one bin, and reverse_indices gives it (1-based) *)
Lemma digitize_grid b off z0 n d : In b real_binnings ->
  grid b off z0 <= d < grid b off (z0 + Z.of_nat (S n)) ->
  exists i, (i < S n)%nat /\ digitize (grid_points b off z0 (S (S n))) d = S i /\
    grid b off (z0 + Z.of_nat i) <= d < grid b off (z0 + 1 + Z.of_nat i).
Proof.
  intros Hb Hd. set (l := grid_points b off z0 (S (S n))). set (k := digitize l d).
  assert (Hlen : length l = S (S n)) by apply grid_points_length.
  assert (Hk1 : (k <= S (S n))%nat) by (rewrite <- Hlen; apply digitize_le).
  assert (Hk0 : k <> O).
  { intros E. pose proof (digitize_above l d ltac:(fold k; lia)) as Ha. fold k in Ha. rewrite E in Ha.
    unfold l in Ha. rewrite grid_points_nth in Ha by lia. cbn [Z.of_nat] in Ha. rewrite Z.add_0_r in Ha. lra. }
  assert (Hk2 : (k < S (S n))%nat).
  { destruct (Nat.eq_dec k (S (S n))) as [E|]; [|lia]. exfalso.
    pose proof (digitize_below l d (S n) ltac:(fold k; lia)) as Hbw. unfold l in Hbw.
    rewrite grid_points_nth in Hbw by lia. lra. }
  exists (pred k). split; [lia|]. split; [lia|]. split.
  - pose proof (digitize_below l d (pred k) ltac:(fold k; lia)) as Hbw. unfold l in Hbw.
    rewrite grid_points_nth in Hbw by lia. exact Hbw.
  - pose proof (digitize_above l d ltac:(fold k; lia)) as Ha. fold k in Ha. unfold l in Ha.
    rewrite grid_points_nth in Ha by lia. replace (z0 + 1 + Z.of_nat (pred k))%Z with (z0 + Z.of_nat k)%Z by lia.
    exact Ha.
Qed.

Lemma Rsum_fraction_bins b off z0 n cs : In b real_binnings ->
  Rsum (map (fun i => fraction_between (grid b off (z0 + Z.of_nat i)) (grid b off (z0 + Z.of_nat i + 1)) cs) (seq 0 (S n)))
  = fraction_between (grid b off z0) (grid b off (z0 + Z.of_nat (S n))) cs.
Proof.
  intros Hb. induction n.
  - cbn [seq map Rsum Z.of_nat]. rewrite Rplus_0_r, !Z.add_0_r. reflexivity.
  - rewrite seq_S, map_app, Rsum_app, IHn. cbn [map Rsum]. rewrite Rplus_0_r. rewrite Nat.add_0_l.
    rewrite (fraction_between_split (grid b off z0) (grid b off (z0 + Z.of_nat (S n))) (grid b off (z0 + Z.of_nat (S (S n))))).
    + f_equal. f_equal. f_equal. lia.
    + apply g_le; [intros; apply grid_step; assumption|lia].
    + apply g_le; [intros; apply grid_step; assumption|lia].
Qed.

(** ** order independence *)
Lemma fraction_between_perm lo hi l m : Permutation l m -> fraction_between lo hi l = fraction_between lo hi m.
Proof.
  induction 1 as [|[d f]|[d f] [e g] l|]; cbn [fraction_between]; try reflexivity.
  - rewrite IHPermutation; reflexivity.
  - ring.
  - congruence.
Qed.
Lemma number_between_perm lo hi l m : Permutation l m -> number_between lo hi l = number_between lo hi m.
Proof.
  induction 1 as [|[d f]|[d f] [e g] l|]; cbn [number_between]; try reflexivity.
  - rewrite IHPermutation; reflexivity.
  - lia.
  - congruence.
Qed.
Lemma hist1_perm lo hi c l m : Permutation l m -> hist1 lo hi c l = hist1 lo hi c m.
Proof.
  intros. unfold hist1. apply Rsum_perm. apply Permutation_map.
  induction H as [|p l m HP IH|p q l|l1 l2 l3 H1 IH1 H2 IH2]; cbn [filter].
  - constructor.
  - destruct (in_bin _ _ _ _); [constructor|]; assumption.
  - destruct (in_bin _ _ _ (fst p)), (in_bin _ _ _ (fst q)); try reflexivity. apply perm_swap.
  - etransitivity; eassumption.
Qed.
Lemma histogram_perm bins l m : Permutation l m -> histogram bins l = histogram bins m.
Proof.
  intros HP. induction bins as [|lo bins IH]; [reflexivity|]. destruct bins as [|hi bins]; [reflexivity|].
  cbn [histogram]. cbn [histogram] in IH. rewrite IH. f_equal. apply hist1_perm; assumption.
Qed.
Lemma list_min_perm x l y m : Permutation (x :: l) (y :: m) -> list_min x l = list_min y m.
Proof.
  intros HP. apply list_min_unique.
  - eapply Permutation_in; [apply Permutation_sym; exact HP|apply list_min_in].
  - intros z Hz. apply list_min_le. eapply Permutation_in; eassumption.
Qed.
Lemma list_max_perm x l y m : Permutation (x :: l) (y :: m) -> list_max x l = list_max y m.
Proof.
  intros HP. apply list_max_unique.
  - eapply Permutation_in; [apply Permutation_sym; exact HP|apply list_max_in].
  - intros z Hz. apply list_max_ge. eapply Permutation_in; eassumption.
Qed.
Lemma bins_r10_perm l m e : Permutation l m -> bins_r10 l e = bins_r10 m e.
Proof.
  intros HP. destruct l as [|x l], m as [|y m]; try reflexivity.
  - apply Permutation_nil in HP; discriminate.
  - apply Permutation_sym, Permutation_nil in HP; discriminate.
  - unfold bins_r10. rewrite (list_min_perm x l y m HP), (list_max_perm x l y m HP). reflexivity.
Qed.
Lemma generate_bins_perm b l m off e : String.eqb b "none" = false -> Permutation l m ->
  generate_bins b l off e = generate_bins b m off e.
Proof. intros Hn HP. unfold generate_bins. rewrite (bins_r10_perm l m e HP), Hn. reflexivity. Qed.

Theorem apply_binning_perm l m b off : Permutation l m ->
  match apply_binning l b off, apply_binning m b off with
  | Ok (x, _), Ok (y, _) => x = y
  | Err e, Err e' => e = e'
  | _, _ => False
  end.
Proof.
  intros HP. unfold apply_binning. destruct (negb _); [reflexivity|].
  destruct (String.eqb b "none") eqn:En.
  - destruct l as [|p l], m as [|q m]; try reflexivity.
    + apply Permutation_nil in HP; discriminate.
    + apply Permutation_sym, Permutation_nil in HP; discriminate.
    + rewrite (sort_perm_eq pair_leb pair_leb_total pair_leb_trans pair_leb_antisym _ _ HP).
      f_equal. pose proof (Permutation_length HP) as Hl. cbn in Hl. injection Hl as Hl.
      clear -Hl. cbn [map]. f_equal. revert m Hl. induction l; intros [|? m] H; try discriminate; [reflexivity|].
      cbn. f_equal. apply IHl. cbn in H; lia.
  - rewrite (generate_bins_perm b (map fst l) (map fst m) off true En) by (apply Permutation_map; assumption).
    destruct (generate_bins b (map fst m) off true) as [bins|e]; cbn [bind]; [|reflexivity].
    rewrite (histogram_perm bins l m HP).
    rewrite (histogram_perm bins (map (fun c => (fst c, 1)) l) (map (fun c => (fst c, 1)) m))
      by (apply Permutation_map; assumption).
    reflexivity.
Qed.

(** ** corollaries in the form of the properties *)
Lemma bins_cover b d off : In b real_binnings -> d <> [] -> Forall (fun x => 0 < x) d ->
  exists bins, generate_bins b d off true = Ok bins /\ (2 <= length bins)%nat /\
    forall x, In x d -> hd 0 bins <= x < last bins 0.
Proof.
  intros Hb Hd Hp. destruct (generate_bins_grid b d off Hb Hd Hp) as (z0 & n & HG & Hc & _).
  exists (grid_points b off z0 (S (S n))). split; [assumption|]. split; [rewrite grid_points_length; lia|].
  intros x Hx. rewrite grid_points_last. replace (hd 0 _) with (grid b off z0); [apply Hc; assumption|].
  unfold grid_points. cbn [seq map hd Z.of_nat]. f_equal. lia.
Qed.

Lemma bins_comparable b d d' off bins bins' i j :
  In b real_binnings -> d <> [] -> d' <> [] -> Forall (fun x => 0 < x) d -> Forall (fun x => 0 < x) d' ->
  generate_bins b d off true = Ok bins -> generate_bins b d' off true = Ok bins' ->
  (S i < length bins)%nat -> (S j < length bins')%nat ->
  nth i bins 0 < nth (S j) bins' 0 -> nth j bins' 0 < nth (S i) bins 0 ->
  nth i bins 0 = nth j bins' 0 /\ nth (S i) bins 0 = nth (S j) bins' 0.
Proof.
  intros Hb Hd Hd' Hp Hp' HG HG' Hi Hj H1 H2.
  destruct (generate_bins_grid b d off Hb Hd Hp) as (z & n & E & _).
  destruct (generate_bins_grid b d' off Hb Hd' Hp') as (z' & n' & E' & _).
  rewrite HG in E. rewrite HG' in E'. injection E as ->. injection E' as ->.
  rewrite !grid_points_length in *. rewrite !grid_points_nth in * by lia.
  assert (Hs : forall k, grid b off k < grid b off (k + 1)) by (intros; apply grid_step; assumption).
  apply (g_lt_inv _ Hs) in H1. apply (g_lt_inv _ Hs) in H2.
  split; f_equal; lia.
Qed.

Lemma ascending_bins b d off bins : In b real_binnings -> d <> [] -> Forall (fun x => 0 < x) d ->
  generate_bins b d off true = Ok bins -> ascending bins.
Proof.
  intros Hb Hd Hp HG. destruct (generate_bins_grid b d off Hb Hd Hp) as (z & n & E & _).
  rewrite HG in E. injection E as ->. apply grid_points_ascending. assumption.
Qed.

Lemma total_fraction_Rsum cs : total_fraction cs = Rsum (map snd cs).
Proof. induction cs as [|[d f] cs IH]; [reflexivity|]. cbn. rewrite IH. reflexivity. Qed.

Lemma binning_conserves craters b off bd ri :
  In b real_binnings -> craters <> [] -> Forall (fun c => 0 < fst c) craters ->
  apply_binning craters b off = Ok (bd, ri) ->
  length (b_n bd) = length (b_dmin bd) /\ length (b_nevent bd) = length (b_dmin bd) /\
  length (b_dmax bd) = length (b_dmin bd) /\
  (forall i, (i < length (b_dmin bd))%nat ->
     nth i (b_n bd) 0 = fraction_between (nth i (b_dmin bd) 0) (nth i (b_dmax bd) 0) craters /\
     nth i (b_nevent bd) 0 = INR (number_between (nth i (b_dmin bd) 0) (nth i (b_dmax bd) 0) craters)) /\
  Rsum (b_n bd) = total_fraction craters /\
  Rsum (b_nevent bd) = INR (length craters).
Proof.
  intros Hb Hne Hpos HA.
  destruct (apply_binning_spec craters b off Hb Hne Hpos)
    as (z0 & n & bd' & ri' & HA' & HG & Hmin & Hmax & Hcov & Hw & Hm & Hn & He & Hc & Hce & Hri).
  rewrite HA in HA'. injection HA' as <- ->.
  rewrite Hmin, Hmax, Hn, He. rewrite !map_length, !grid_points_length, !seq_length.
  repeat split; try reflexivity.
  - intros. rewrite nth_map_seq by assumption. rewrite !grid_points_nth by assumption.
    f_equal. f_equal. lia.
  - rewrite nth_map_seq by assumption. rewrite !grid_points_nth by assumption.
    f_equal. f_equal. f_equal. lia.
  - rewrite Rsum_fraction_bins by assumption.
    rewrite fraction_between_top by (apply Forall_forall; intros c Hin; apply Hcov; assumption).
    apply fraction_from_all. apply Forall_forall; intros c Hin; apply Hcov; assumption.
  - rewrite (map_ext _ (fun i => fraction_between (grid b off (z0 + Z.of_nat i)) (grid b off (z0 + Z.of_nat i + 1))
       (map (fun c : R * R => (fst c, 1)) craters))) by (intros; symmetry; apply fraction_ones).
    rewrite Rsum_fraction_bins by assumption. rewrite fraction_ones. f_equal.
    rewrite number_between_top by (apply Forall_forall; intros c Hin; apply Hcov; assumption).
    apply number_from_all. apply Forall_forall; intros c Hin; apply Hcov; assumption.
Qed.

Lemma one_bin_each craters b off bd ri :
  In b real_binnings -> craters <> [] -> Forall (fun c => 0 < fst c) craters ->
  apply_binning craters b off = Ok (bd, ri) ->
  exists idx, ri = Some idx /\ length idx = length craters /\
  forall k, (k < length craters)%nat ->
    exists i, nth k idx O = S i /\ (i < length (b_dmin bd))%nat /\
      nth i (b_dmin bd) 0 <= fst (nth k craters (0, 0)) < nth i (b_dmax bd) 0 /\
      forall j, (j < length (b_dmin bd))%nat ->
        nth j (b_dmin bd) 0 <= fst (nth k craters (0, 0)) < nth j (b_dmax bd) 0 -> j = i.
Proof.
  intros Hb Hne Hpos HA.
  destruct (apply_binning_spec craters b off Hb Hne Hpos)
    as (z0 & n & bd' & ri' & HA' & HG & Hmin & Hmax & Hcov & Hw & Hm & Hn & He & Hc & Hce & Hri).
  rewrite HA in HA'. injection HA' as <- ->.
  exists ri'. split; [reflexivity|]. split; [subst ri'; apply map_length|].
  intros k Hk. set (c := nth k craters (0, 0)).
  assert (Hin : In c craters) by (apply nth_In; assumption).
  destruct (digitize_grid b off z0 n (fst c) Hb (Hcov c Hin)) as (i & Hi & Hdig & Hbin).
  exists i. subst ri'. rewrite (nth_map_lt _ craters k (0, 0)) by assumption. fold c.
  split; [assumption|]. rewrite Hmin, Hmax, grid_points_length. split; [assumption|].
  rewrite !grid_points_nth by assumption. split; [assumption|].
  intros j Hj Hjb. rewrite !grid_points_nth in Hjb by assumption.
  assert (Hs : forall k, grid b off k < grid b off (k + 1)) by (intros; apply grid_step; assumption).
  assert (H1 : grid b off (z0 + Z.of_nat i) < grid b off (z0 + 1 + Z.of_nat j)) by lra.
  assert (H2 : grid b off (z0 + Z.of_nat j) < grid b off (z0 + 1 + Z.of_nat i)) by lra.
  apply (g_lt_inv _ Hs) in H1. apply (g_lt_inv _ Hs) in H2. lia.
Qed.

Lemma fraction_from_antitone lo hi cs : lo <= hi -> Forall (fun c => 0 <= snd c) cs ->
  fraction_from hi cs <= fraction_from lo cs.
Proof.
  intros H. induction 1 as [|[d f] cs Hf _ IH]; cbn [fraction_from snd] in *; [lra|].
  destruct (Rle_dec hi d), (Rle_dec lo d); lra.
Qed.

Lemma cumulative_counts craters b off bd ri :
  In b real_binnings -> craters <> [] -> Forall (fun c => 0 < fst c) craters ->
  apply_binning craters b off = Ok (bd, ri) ->
  length (b_ncum bd) = length (b_dmin bd) /\ length (b_ncum_event bd) = length (b_dmin bd) /\
  (forall i, (i < length (b_dmin bd))%nat ->
     nth i (b_ncum bd) 0 = fraction_from (nth i (b_dmin bd) 0) craters /\
     nth i (b_ncum_event bd) 0 = INR (number_from (nth i (b_dmin bd) 0) craters)) /\
  nth 0 (b_ncum bd) 0 = total_fraction craters /\
  nth 0 (b_ncum_event bd) 0 = INR (length craters) /\
  (Forall (fun c => 0 <= snd c) craters ->
     forall i j, (i <= j < length (b_dmin bd))%nat -> nth j (b_ncum bd) 0 <= nth i (b_ncum bd) 0).
Proof.
  intros Hb Hne Hpos HA.
  destruct (apply_binning_spec craters b off Hb Hne Hpos)
    as (z0 & n & bd' & ri' & HA' & HG & Hmin & Hmax & Hcov & Hw & Hm & Hn & He & Hc & Hce & Hri).
  rewrite HA in HA'. injection HA' as <- ->.
  rewrite Hmin, Hc, Hce. rewrite !map_length, grid_points_length, !seq_length.
  assert (Hlow : Forall (fun p => grid b off (z0 + Z.of_nat 0) <= fst p) craters).
  { cbn [Z.of_nat]. rewrite Z.add_0_r. apply Forall_forall; intros c Hin; apply Hcov; assumption. }
  split; [reflexivity|]. split; [reflexivity|]. split; [|split; [|split]].
  - intros i Hi. rewrite !nth_map_seq by assumption. rewrite !grid_points_nth by assumption. split; reflexivity.
  - rewrite nth_map_seq by lia. apply fraction_from_all. assumption.
  - rewrite nth_map_seq by lia. f_equal. apply number_from_all. assumption.
  - intros Hf i j Hij. rewrite !nth_map_seq by lia. apply fraction_from_antitone; [|assumption].
    apply g_le; [intros; apply grid_step; assumption|lia].
Qed.

Lemma unbinned_counts craters off bd ri :
  apply_binning craters "none" off = Ok (bd, ri) ->
  Permutation (combine (b_dmin bd) (b_n bd)) craters /\
  b_dmax bd = b_dmin bd /\ b_dmean bd = b_dmin bd /\
  (forall i j, (i <= j < length craters)%nat -> nth i (b_dmin bd) 0 <= nth j (b_dmin bd) 0) /\
  b_nevent bd = repeat 1 (length craters) /\ b_width bd = repeat 0 (length craters) /\
  (forall i, (i < length craters)%nat ->
     nth i (b_ncum bd) 0 = Rsum (skipn i (b_n bd)) /\
     nth i (b_ncum_event bd) 0 = INR (length craters - i)).
Proof.
  unfold apply_binning. cbn [existsb BINNINGS].
  replace (negb _) with false by reflexivity.
  replace (String.eqb "none" "none") with true by reflexivity.
  destruct craters as [|c0 cs]; [discriminate|]. set (l := c0 :: cs). set (s := sort pair_leb l).
  intros E. injection E as <- <-. cbn [b_dmin b_dmax b_width b_dmean b_n b_nevent b_ncum b_ncum_event].
  assert (Hlen : length s = length l) by apply sort_length.
  assert (Hcomb : combine (map fst s) (map snd s) = s).
  { clear. induction s as [|[x y] s IH]; [reflexivity|]. cbn. rewrite IH. reflexivity. }
  assert (Hrep : forall A (m : list A) (v : R), map (fun _ => v) m = repeat v (length m)).
  { induction m; intros; [reflexivity|]. cbn. rewrite IHm. reflexivity. }
  split; [rewrite Hcomb; apply Permutation_sym, sort_perm|].
  split; [reflexivity|]. split; [reflexivity|]. split; [|split; [|split]].
  - pose proof (sort_sorted pair_leb pair_leb_total pair_leb_trans l) as HS. fold s in HS.
    intros i j Hij. destruct (Nat.eq_dec i j); [subst; lra|].
    assert (forall (m : list (R * R)) i j, StronglySorted (fun a b => pair_leb a b = true) m -> (i < j < length m)%nat ->
       nth i (map fst m) 0 <= nth j (map fst m) 0) as Gen.
    { clear. induction m as [|p m IH]; intros i j HS H; [cbn in H; lia|].
      inversion HS; subst. destruct j; [lia|]. destruct i.
      - cbn [map nth]. rewrite (nth_map_lt fst m j (0, 0)) by (cbn in H; lia).
        rewrite Forall_forall in H3. specialize (H3 (nth j m (0, 0))).
        assert (In (nth j m (0, 0)) m) by (apply nth_In; cbn in H; lia). specialize (H3 H0).
        unfold pair_leb in H3. destruct (Rltb_spec (fst p) (fst (nth j m (0, 0)))); [lra|].
        destruct (Reqb_spec (fst p) (fst (nth j m (0, 0)))); [lra|]. discriminate.
      - cbn [map nth]. apply IH; [assumption|cbn in H; lia]. }
    apply Gen; [assumption|]. rewrite Hlen. lia.
  - rewrite Hrep, Hlen. reflexivity.
  - exact (Hrep _ l 0).
  - intros i Hi. split.
    + rewrite flip_cumsum_nth by (rewrite map_length, Hlen; assumption). reflexivity.
    + rewrite flip_cumsum_nth by (rewrite map_length, Hlen; assumption).
      rewrite skipn_map, Rsum_ones, skipn_length, Hlen. reflexivity.
Qed.
