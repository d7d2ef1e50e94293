(** Lemmas about the numpy layer. *)
From Coq Require Import List ZArith Reals Lra Lia Bool Permutation Sorting.Sorted.
From Verif Require Import Base NumModel.
Import ListNotations.
Local Open Scope R_scope.

Lemma list_min_in x l : In (list_min x l) (x :: l).
Proof.
  unfold list_min. induction l as [|y l IH]; cbn [fold_right]; [left; reflexivity|].
  apply Rmin_case; [right; left; reflexivity|].
  destruct IH as [H|H]; [left; exact H|right; right; exact H].
Qed.
Lemma list_max_in x l : In (list_max x l) (x :: l).
Proof.
  unfold list_max. induction l as [|y l IH]; cbn [fold_right]; [left; reflexivity|].
  apply Rmax_case; [right; left; reflexivity|].
  destruct IH as [H|H]; [left; exact H|right; right; exact H].
Qed.
Lemma list_min_le x l y : In y (x :: l) -> list_min x l <= y.
Proof.
  unfold list_min. induction l as [|z l IH]; cbn; intros H.
  - destruct H as [->|[]]; lra.
  - destruct H as [->|[->|H]].
    + eapply Rle_trans; [apply Rmin_r|]. apply IH; left; reflexivity.
    + apply Rmin_l.
    + eapply Rle_trans; [apply Rmin_r|]. apply IH; right; assumption.
Qed.
Lemma list_max_ge x l y : In y (x :: l) -> y <= list_max x l.
Proof.
  unfold list_max. induction l as [|z l IH]; cbn; intros H.
  - destruct H as [->|[]]; lra.
  - destruct H as [->|[->|H]].
    + eapply Rle_trans; [|apply Rmax_r]. apply IH; left; reflexivity.
    + apply Rmax_l.
    + eapply Rle_trans; [|apply Rmax_r]. apply IH; right; assumption.
Qed.
Lemma list_min_unique x l m : In m (x :: l) -> (forall y, In y (x :: l) -> m <= y) -> list_min x l = m.
Proof.
  intros Hm Hle. apply Rle_antisym; [apply list_min_le; assumption|].
  apply Hle. apply list_min_in.
Qed.
Lemma list_max_unique x l m : In m (x :: l) -> (forall y, In y (x :: l) -> y <= m) -> list_max x l = m.
Proof.
  intros Hm Hle. apply Rle_antisym; [|apply list_max_ge; assumption].
  apply Hle. apply list_max_in.
Qed.

(** searchsorted *)
Lemma searchsorted_le l v : (searchsorted l v <= length l)%nat.
Proof. induction l as [|x l IH]; cbn; [lia|]. destruct (Rltb x v); lia. Qed.
Lemma searchsorted_below l v i : (i < searchsorted l v)%nat -> nth i l 0 < v.
Proof.
  revert i; induction l as [|x l IH]; cbn; intros i H; [lia|].
  destruct (Rltb_spec x v); [|lia]. destruct i; [assumption|]. apply IH; lia.
Qed.
Lemma searchsorted_above l v : (searchsorted l v < length l)%nat -> v <= nth (searchsorted l v) l 0.
Proof.
  induction l as [|x l IH]; cbn; intros H; [lia|].
  destruct (Rltb_spec x v); [|lra]. apply IH; lia.
Qed.
Lemma searchsorted_unique l v k :
  (k <= length l)%nat -> (forall i, (i < k)%nat -> nth i l 0 < v) ->
  ((k < length l)%nat -> v <= nth k l 0) -> searchsorted l v = k.
Proof.
  intros Hk Hlt Hge.
  destruct (lt_eq_lt_dec (searchsorted l v) k) as [[H|H]|H]; [|assumption|].
  - specialize (Hlt _ H). pose proof (searchsorted_above l v). lra || (specialize (H0 ltac:(lia)); lra).
  - pose proof (searchsorted_le l v). pose proof (searchsorted_below l v k H).
    specialize (Hge ltac:(lia)). lra.
Qed.

(** digitize *)
Lemma digitize_le l v : (digitize l v <= length l)%nat.
Proof. induction l as [|x l IH]; cbn; [lia|]. destruct (Rleb x v); lia. Qed.
Lemma digitize_below l v i : (i < digitize l v)%nat -> nth i l 0 <= v.
Proof.
  revert i; induction l as [|x l IH]; cbn; intros i H; [lia|].
  destruct (Rleb_spec x v); [|lia]. destruct i; [assumption|]. apply IH; lia.
Qed.
Lemma digitize_above l v : (digitize l v < length l)%nat -> v < nth (digitize l v) l 0.
Proof.
  induction l as [|x l IH]; cbn; intros H; [lia|].
  destruct (Rleb_spec x v); [|lra]. apply IH; lia.
Qed.
Lemma digitize_unique l v k :
  (k <= length l)%nat -> (forall i, (i < k)%nat -> nth i l 0 <= v) ->
  ((k < length l)%nat -> v < nth k l 0) -> digitize l v = k.
Proof.
  intros Hk Hlt Hge.
  destruct (lt_eq_lt_dec (digitize l v) k) as [[H|H]|H]; [|assumption|].
  - specialize (Hlt _ H). pose proof (digitize_above l v). specialize (H0 ltac:(lia)). lra.
  - pose proof (digitize_le l v). pose proof (digitize_below l v k H).
    specialize (Hge ltac:(lia)). lra.
Qed.

(** sums *)
Lemma Rsum_app l m : Rsum (l ++ m) = Rsum l + Rsum m.
Proof. induction l; cbn; [ring|]. rewrite IHl; ring. Qed.
Lemma Rsum_perm l m : Permutation l m -> Rsum l = Rsum m.
Proof. induction 1; cbn; lra. Qed.
Lemma Rsum_rev l : Rsum (rev l) = Rsum l.
Proof. apply Rsum_perm. apply Permutation_sym, Permutation_rev. Qed.
Lemma Rsum_nonneg l : Forall (fun x => 0 <= x) l -> 0 <= Rsum l.
Proof. induction 1; cbn; lra. Qed.
Lemma Rsum_ones {A} (l : list A) : Rsum (map (fun _ => 1) l) = INR (length l).
Proof. induction l; [reflexivity|]. cbn [map Rsum length]. rewrite S_INR, IHl. ring. Qed.
Lemma Rsum_scale c l : Rsum (map (fun x => x * c) l) = Rsum l * c.
Proof. induction l; cbn; [ring|]. rewrite IHl; ring. Qed.
Lemma Rsum_zero l : Forall (fun x => x = 0) l -> Rsum l = 0.
Proof. induction 1; cbn; lra. Qed.

(** cumsum *)
Lemma cumsum_from_length a l : length (cumsum_from a l) = length l.
Proof. revert a; induction l; intros; cbn; [reflexivity|]. rewrite IHl; reflexivity. Qed.
Lemma cumsum_length l : length (cumsum l) = length l.
Proof. apply cumsum_from_length. Qed.
Lemma cumsum_from_nth a l i : (i < length l)%nat ->
  nth i (cumsum_from a l) 0 = a + Rsum (firstn (S i) l).
Proof.
  revert a i; induction l as [|x l IH]; intros a i H; cbn in H; [lia|].
  destruct i; cbn [cumsum_from nth firstn Rsum].
  - ring.
  - rewrite IH by lia. cbn [firstn Rsum]. ring.
Qed.
Lemma cumsum_nth l i : (i < length l)%nat -> nth i (cumsum l) 0 = Rsum (firstn (S i) l).
Proof. intros. unfold cumsum. rewrite cumsum_from_nth by assumption. ring. Qed.

Lemma nth_map_lt {A B} (f : A -> B) l i da db :
  (i < length l)%nat -> nth i (map f l) db = f (nth i l da).
Proof.
  revert i; induction l as [|x l IH]; cbn; intros i H; [lia|].
  destruct i; [reflexivity|]. apply IH; lia.
Qed.
Lemma nth_map_seq {A} (f : nat -> A) n i d : (i < n)%nat -> nth i (map f (seq 0 n)) d = f i.
Proof.
  intros. rewrite (nth_map_lt f (seq 0 n) i O) by (rewrite seq_length; assumption).
  rewrite seq_nth by assumption. reflexivity.
Qed.

(** zrange, arange *)
Lemma zrange_length a b : length (zrange a b) = Z.to_nat (b - a).
Proof. unfold zrange. rewrite map_length, seq_length. reflexivity. Qed.
Lemma zrange_nth a b i d : (i < Z.to_nat (b - a))%nat -> nth i (zrange a b) d = (a + Z.of_nat i)%Z.
Proof.
  intros. unfold zrange. rewrite nth_map_seq by assumption. reflexivity.
Qed.
Lemma zrange_nil a b : (b <= a)%Z -> zrange a b = [].
Proof. intros. unfold zrange. replace (Z.to_nat (b - a)) with O by lia. reflexivity. Qed.
Lemma zrange_cons a b : (a < b)%Z -> zrange a b = a :: zrange (a + 1) b.
Proof.
  intros. unfold zrange. replace (Z.to_nat (b - a)) with (S (Z.to_nat (b - (a + 1)))) by lia.
  cbn [seq map]. f_equal; [lia|]. rewrite <- seq_shift, map_map. apply map_ext. intros; lia.
Qed.
Lemma zrange_app a b c : (a <= b <= c)%Z -> zrange a c = zrange a b ++ zrange b c.
Proof.
  intros. remember (Z.to_nat (b - a)) as n. revert a Heqn H.
  induction n; intros.
  - assert (a = b) by lia. subst. rewrite (zrange_nil b b) by lia. reflexivity.
  - rewrite (zrange_cons a b), (zrange_cons a c) by lia. cbn. f_equal. apply IHn; lia.
Qed.
Lemma zrange_snoc a b : (a <= b)%Z -> zrange a (b + 1) = zrange a b ++ [b].
Proof.
  intros. rewrite (zrange_app a b (b + 1)) by lia. f_equal.
  rewrite zrange_cons by lia. rewrite zrange_nil by lia. reflexivity.
Qed.
Lemma zrange_In a b z : In z (zrange a b) <-> (a <= z < b)%Z.
Proof.
  unfold zrange. rewrite in_map_iff. split.
  - intros (i & <- & Hi). apply in_seq in Hi. lia.
  - intros. exists (Z.to_nat (z - a)). split; [lia|]. apply in_seq. lia.
Qed.
Lemma zrange_shift a b c : zrange (a + c) (b + c) = map (fun z => (z + c)%Z) (zrange a b).
Proof.
  unfold zrange. rewrite map_map. replace (b + c - (a + c))%Z with (b - a)%Z by lia.
  apply map_ext. intros; lia.
Qed.

(** sorting *)
Section Sort.
  Context {A : Type} (leb : A -> A -> bool).
  Lemma insert_perm x l : Permutation (x :: l) (insert leb x l).
  Proof.
    induction l as [|y l IH]; cbn; [reflexivity|].
    destruct (leb x y); [reflexivity|].
    rewrite perm_swap. apply perm_skip. exact IH.
  Qed.
  Lemma sort_perm l : Permutation l (sort leb l).
  Proof.
    induction l as [|x l IH]; cbn; [reflexivity|].
    rewrite <- insert_perm. apply perm_skip. exact IH.
  Qed.
  Hypothesis leb_total : forall x y, leb x y = false -> leb y x = true.
  Hypothesis leb_trans : forall x y z, leb x y = true -> leb y z = true -> leb x z = true.
  Lemma insert_sorted x l : StronglySorted (fun a b => leb a b = true) l ->
    StronglySorted (fun a b => leb a b = true) (insert leb x l).
  Proof.
    induction 1 as [|y l Hs IH Hall]; cbn; [repeat constructor|].
    destruct (leb x y) eqn:E.
    - constructor; [constructor; assumption|]. constructor; [assumption|].
      eapply Forall_impl; [|exact Hall]. intros z Hz. eapply leb_trans; eassumption.
    - constructor; [assumption|].
      apply Forall_forall. intros z Hz.
      apply Permutation_in with (l' := x :: l) in Hz; [|apply Permutation_sym, insert_perm].
      destruct Hz as [<-|Hz]; [apply leb_total; assumption|].
      rewrite Forall_forall in Hall. apply Hall; assumption.
  Qed.
  Lemma sort_sorted l : StronglySorted (fun a b => leb a b = true) (sort leb l).
  Proof. induction l; cbn; [constructor|]. apply insert_sorted; assumption. Qed.
  Lemma sort_length l : length (sort leb l) = length l.
  Proof. apply Permutation_length, Permutation_sym, sort_perm. Qed.
  Hypothesis leb_antisym : forall x y, leb x y = true -> leb y x = true -> x = y.
  Lemma sorted_unique l m : Permutation l m ->
    StronglySorted (fun a b => leb a b = true) l -> StronglySorted (fun a b => leb a b = true) m -> l = m.
  Proof.
    intros HP Hl. revert m HP. induction Hl as [|x l Hs IH Hall]; intros m HP Hm.
    - apply Permutation_nil in HP. congruence.
    - destruct m as [|y m]; [apply Permutation_sym, Permutation_nil in HP; discriminate|].
      assert (x = y).
      { assert (Hy : In y (x :: l)) by (eapply Permutation_in; [apply Permutation_sym; exact HP|left; reflexivity]).
        assert (Hx : In x (y :: m)) by (eapply Permutation_in; [exact HP|left; reflexivity]).
        inversion Hm; subst. rewrite Forall_forall in Hall, H2.
        destruct Hy as [?|Hy]; [congruence|]. destruct Hx as [?|Hx]; [congruence|].
        apply leb_antisym; auto. }
      subst. f_equal. inversion Hm; subst. apply IH; [|assumption].
      eapply Permutation_cons_inv; eassumption.
  Qed.
  Lemma sort_perm_eq l m : Permutation l m -> sort leb l = sort leb m.
  Proof.
    intros. apply sorted_unique; try apply sort_sorted.
    rewrite <- (sort_perm l), <- (sort_perm m). assumption.
  Qed.
End Sort.

Lemma pair_leb_total x y : pair_leb x y = false -> pair_leb y x = true.
Proof.
  unfold pair_leb. destruct x as [a b], y as [c d]; cbn.
  destruct (Rltb_spec a c), (Rltb_spec c a), (Reqb_spec a c), (Reqb_spec c a),
    (Rleb_spec b d), (Rleb_spec d b); cbn; intros; try reflexivity; try discriminate; exfalso; lra.
Qed.
Lemma pair_leb_trans x y z : pair_leb x y = true -> pair_leb y z = true -> pair_leb x z = true.
Proof.
  unfold pair_leb. destruct x as [a b], y as [c d], z as [e f]; cbn.
  destruct (Rltb_spec a c), (Rltb_spec c e), (Rltb_spec a e), (Reqb_spec a c), (Reqb_spec c e),
    (Reqb_spec a e); cbn; try (intros; reflexivity); try discriminate;
  destruct (Rleb_spec b d), (Rleb_spec d f), (Rleb_spec b f); cbn; intros; try reflexivity;
  try discriminate; exfalso; lra.
Qed.
Lemma pair_leb_antisym x y : pair_leb x y = true -> pair_leb y x = true -> x = y.
Proof.
  unfold pair_leb. destruct x as [a b], y as [c d]; cbn.
  destruct (Rltb_spec a c), (Rltb_spec c a), (Reqb_spec a c), (Reqb_spec c a),
    (Rleb_spec b d), (Rleb_spec d b); cbn; intros; try discriminate; try (exfalso; lra);
  f_equal; lra.
Qed.

(** interp *)
Lemma slice_nth {A} (l : list A) a b i d : (i < b - a)%nat -> nth i (slice l a b) d = nth (a + i) l d.
Proof.
  intros. unfold slice. revert a b H l. intros a b H l.
  assert (forall n (m : list A) i, (i < n)%nat -> nth i (firstn n m) d = nth i m d) as F.
  { induction n; intros; [lia|]. destruct m; [destruct i0; reflexivity|]. destruct i0; cbn; [reflexivity|]. apply IHn; lia. }
  rewrite F by assumption. clear.
  revert l; induction a; intros; [reflexivity|]. destruct l; cbn; [destruct i; reflexivity|]. apply IHa.
Qed.
Lemma slice_length {A} (l : list A) a b : length (slice l a b) = Nat.min (b - a) (length l - a).
Proof. unfold slice. rewrite firstn_length, skipn_length. reflexivity. Qed.
