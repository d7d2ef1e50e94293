From Coq Require Import List ZArith Reals Lra Lia Bool Sorted.
From Verif Require Import Base NumModel NumLemmas InterpProofs BinModel ChronModel ChronSpec ChronProofs PdfModel PdfSpec.
Import ListNotations.
Local Open Scope R_scope.

(** ** Lists *)
Lemma nth_combine_R {A B} (l : list A) (m : list B) i a b :
  length l = length m -> nth i (combine l m) (a, b) = (nth i l a, nth i m b).
Proof. intros H. apply combine_nth. exact H. Qed.
Lemma removelast_length' (l : list R) : length (removelast l) = (length l - 1)%nat.
Proof.
  induction l as [|x l IH]; [reflexivity|]. destruct l as [|y l]; [reflexivity|].
  change (length (x :: removelast (y :: l)) = (length (x :: y :: l) - 1)%nat).
  cbn [length]. rewrite IH. cbn [length]. lia.
Qed.
Lemma removelast_nth (l : list R) i : (S i < length l)%nat -> nth i (removelast l) 0 = nth i l 0.
Proof.
  revert i. induction l as [|x l IH]; intros i H; [cbn in H; lia|].
  destruct l as [|y l]; [cbn in H; lia|].
  change (nth i (x :: removelast (y :: l)) 0 = nth i (x :: y :: l) 0).
  destruct i as [|i]; [reflexivity|]. change (nth i (removelast (y :: l)) 0 = nth i (y :: l) 0).
  apply IH. cbn [length] in *. lia.
Qed.
Lemma roll1_length l : length (roll1 l) = length l.
Proof.
  destruct l as [|x l]; [reflexivity|]. unfold roll1. cbn [length].
  rewrite removelast_length'. cbn [length]. lia.
Qed.
Lemma roll1_S l i : (S i < length l)%nat -> nth (S i) (roll1 l) 0 = nth i l 0.
Proof.
  intros H. destruct l as [|x l]; [cbn in H; lia|]. unfold roll1. cbn [nth]. now apply removelast_nth.
Qed.
Lemma roll1_0 l : nth 0 (roll1 l) 0 = nth (length l - 1) l 0.
Proof. destruct l as [|x l]; [reflexivity|]. unfold roll1. cbn [nth]. apply last_nth_R. Qed.

Lemma set_nth_length j v l : (j < length l)%nat -> length (set_nth j v l) = length l.
Proof. intros H. unfold set_nth. rewrite app_length. cbn [length]. rewrite firstn_length, skipn_length. lia. Qed.
Lemma set_nth_same j v l d : (j < length l)%nat -> nth j (set_nth j v l) d = v.
Proof.
  intros H. unfold set_nth. rewrite app_nth2; rewrite firstn_length; [|lia].
  replace (j - Nat.min j (length l))%nat with 0%nat by lia. reflexivity.
Qed.
Lemma nth_skipn_R {A} (l : list A) n i d : nth i (skipn n l) d = nth (n + i) l d.
Proof.
  revert l. induction n as [|n IH]; intros l; [reflexivity|]. destruct l as [|x l]; [now destruct i|].
  cbn [skipn Nat.add nth]. apply IH.
Qed.
Lemma nth_firstn_R {A} (l : list A) n i d : (i < n)%nat -> nth i (firstn n l) d = nth i l d.
Proof.
  revert l i. induction n as [|n IH]; intros l i H; [lia|]. destruct l as [|x l]; [now destruct i|].
  destruct i as [|i]; [reflexivity|]. cbn [firstn nth]. apply IH. lia.
Qed.
Lemma set_nth_other j v l d i : (j < length l)%nat -> i <> j -> nth i (set_nth j v l) d = nth i l d.
Proof.
  intros H N. unfold set_nth. destruct (Nat.lt_ge_cases i j) as [L|L].
  - rewrite app_nth1 by (rewrite firstn_length; lia). apply nth_firstn_R. exact L.
  - rewrite app_nth2 by (rewrite firstn_length; lia). rewrite firstn_length.
    replace (i - Nat.min j (length l))%nat with (S (i - S j)) by lia. cbn [nth].
    rewrite nth_skipn_R. f_equal. lia.
Qed.

Lemma zipmul_length a b : length a = length b -> length (zipmul a b) = length a.
Proof. intros H. unfold zipmul. rewrite map_length, combine_length. lia. Qed.
Lemma zipmul_nth a b i : length a = length b -> nth i (zipmul a b) 0 = nth i a 0 * nth i b 0.
Proof.
  intros H. unfold zipmul. destruct (Nat.lt_ge_cases i (length a)) as [L|L].
  - rewrite (nth_map_lt _ _ _ (0, 0)) by (rewrite combine_length; lia).
    now rewrite combine_nth by exact H.
  - rewrite !nth_overflow; try (rewrite ?map_length, ?combine_length; lia). lra.
Qed.

Lemma Rsum_nth l : Rsum l = sum_to (fun i => nth i l 0) (length l).
Proof.
  induction l as [|x l IH] using rev_ind; [reflexivity|].
  rewrite Rsum_app, app_length. cbn [length Rsum]. rewrite Nat.add_1_r. cbn [sum_to].
  rewrite app_nth2 by lia. rewrite Nat.sub_diag. cbn [nth]. rewrite Rplus_0_r. f_equal.
  rewrite IH. clear IH.
  assert (G : forall n, (n <= length l)%nat -> sum_to (fun i => nth i l 0) n = sum_to (fun i => nth i (l ++ [x]) 0) n).
  { induction n as [|n IHn]; intros L; [reflexivity|]. cbn [sum_to]. rewrite IHn by lia. f_equal.
    now rewrite app_nth1 by lia. }
  apply G. lia.
Qed.
Lemma sum_to_ext f g n : (forall i, (i < n)%nat -> f i = g i) -> sum_to f n = sum_to g n.
Proof. induction n as [|n IH]; intros H; [reflexivity|]. cbn [sum_to]. rewrite IH, H; auto. Qed.
Lemma sum_to_nonneg f n : (forall i, (i < n)%nat -> 0 <= f i) -> 0 <= sum_to f n.
Proof.
  induction n as [|n IH]; intros H; [cbn; lra|]. cbn [sum_to].
  pose proof (H n ltac:(lia)). assert (0 <= sum_to f n) by (apply IH; auto). lra.
Qed.
Lemma sum_to_mono f n m : (forall i, (i < m)%nat -> 0 <= f i) -> (n <= m)%nat -> sum_to f n <= sum_to f m.
Proof.
  intros H L. induction m as [|m IH]; [replace n with 0%nat by lia; lra|].
  destruct (Nat.eq_dec n (S m)) as [->|N]; [lra|]. cbn [sum_to].
  pose proof (H m ltac:(lia)). assert (sum_to f n <= sum_to f m) by (apply IH; auto; lia). lra.
Qed.
Lemma sum_to_pos f n i : (forall i, (i < n)%nat -> 0 <= f i) -> (i < n)%nat -> 0 < f i -> 0 < sum_to f n.
Proof.
  intros H Hi P. pose proof (sum_to_mono f (S i) n H ltac:(lia)) as M. cbn [sum_to] in M.
  assert (0 <= sum_to f i) by (apply sum_to_nonneg; intros; apply H; lia). lra.
Qed.
Lemma sum_to_div f c n : sum_to (fun i => f i / c) n = sum_to f n / c.
Proof. induction n as [|n IH]; cbn [sum_to]; [lra|]. rewrite IH. lra. Qed.
Lemma sum_to_telescope f n : sum_to (fun i => f (S i) - f i) n = f n - f 0%nat.
Proof. induction n as [|n IH]; cbn [sum_to]; [lra|]. rewrite IH. lra. Qed.
Lemma Rsum_firstn l n : (n <= length l)%nat -> Rsum (firstn n l) = sum_to (fun i => nth i l 0) n.
Proof.
  intros H. rewrite Rsum_nth, firstn_length, Nat.min_l by exact H.
  apply sum_to_ext. intros i Hi. now apply nth_firstn_R.
Qed.

(** ** The widths *)
Lemma make_dt_ok ts : (2 <= length ts)%nat ->
  exists dt, make_dt ts = Ok dt /\ length dt = length ts /\ nth 0 dt 0 = nth 1 dt 0 /\
    forall i, (0 < i < length ts)%nat -> nth i dt 0 = nth i ts 0 - nth (i - 1) ts 0.
Proof.
  intros H. unfold make_dt. set (d := map _ _).
  assert (L : length d = length ts).
  { unfold d. rewrite map_length, combine_length, roll1_length. lia. }
  assert (D : forall i, (0 < i < length ts)%nat -> nth i d 0 = nth i ts 0 - nth (i - 1) ts 0).
  { intros i Hi. unfold d. rewrite (nth_map_lt _ _ _ (0, 0)) by (rewrite combine_length, roll1_length; lia).
    rewrite combine_nth by (now rewrite roll1_length). cbn [fst snd].
    destruct i as [|i]; [lia|]. rewrite roll1_S by lia. do 2 f_equal. lia. }
  assert (P : pyindex d 1 = Ok (nth 1 d 0)).
  { destruct d as [|a [|b r]]; cbn in L; [lia|lia|]. reflexivity. }
  rewrite P. cbn [bind]. eexists. split; [reflexivity|].
  rewrite set_nth_length by lia. split; [exact L|]. split.
  - rewrite set_nth_same by lia. rewrite set_nth_other; [reflexivity|lia|lia].
  - intros i Hi. rewrite set_nth_other; [now apply D|lia|lia].
Qed.

(** ** The distribution *)
Lemma pmf_pos k lam : 0 < lam -> 0 < poisson_pmf k lam.
Proof.
  intros H. unfold poisson_pmf. apply Rmult_lt_0_compat; [|apply Rinv_0_lt_compat, INR_fact_lt_0].
  apply Rmult_lt_0_compat; [now apply pow_lt|apply exp_pos].
Qed.

Section Samples.
Context (ts lam : list R) (ph : R -> R) (k : nat).
Context (Hlen : length lam = length ts) (H2 : (2 <= length ts)%nat).
Context (Hts : forall i j, (i <= j < length ts)%nat -> 0 <= nth i ts 0 <= nth j ts 0 /\ nth j ts 0 <= 5).
Context (Hgrow : nth 0 ts 0 < nth (length ts - 1) ts 0).
Context (Hlam : forall i, (i < length ts)%nat -> 0 < nth i lam 0) (Hph : forall t, 0 < ph t).

(** likelihood times rate *)
Definition like (i : nat) : R := poisson_pmf k (nth i lam 0) * ph (nth i ts 0).

Let pdf0 := map (fun p => poisson_pmf k (fst p) * ph (snd p)) (combine lam ts).
Lemma pdf0_length : length pdf0 = length ts.
Proof. unfold pdf0. rewrite map_length, combine_length. lia. Qed.
Lemma pdf0_nth i : (i < length ts)%nat -> nth i pdf0 0 = like i.
Proof.
  intros H. unfold pdf0. rewrite (nth_map_lt _ _ _ (0, 0)) by (rewrite combine_length; lia).
  rewrite combine_nth by exact Hlen. reflexivity.
Qed.
Lemma like_pos i : (i < length ts)%nat -> 0 < like i.
Proof. intros H. apply Rmult_lt_0_compat; [apply pmf_pos; auto|apply Hph]. Qed.
Lemma pdf0_sum : Rsum pdf0 = sum_to like (length ts).
Proof. rewrite Rsum_nth, pdf0_length. apply sum_to_ext. exact pdf0_nth. Qed.

(** a grid that grows has a positive width somewhere *)
Lemma some_width dt : length dt = length ts ->
  (forall i, (0 < i < length ts)%nat -> nth i dt 0 = nth i ts 0 - nth (i - 1) ts 0) ->
  exists i, (0 < i < length ts)%nat /\ 0 < nth i dt 0.
Proof.
  intros L D.
  assert (G : forall n, (S n <= length ts)%nat ->
            (exists i, (0 < i < length ts)%nat /\ 0 < nth i dt 0) \/ nth n ts 0 = nth 0 ts 0).
  { induction n as [|n IH]; intros Hn; [now right|].
    destruct IH as [E|E]; [lia|now left|].
    pose proof (D (S n) ltac:(lia)) as W. replace (S n - 1)%nat with n in W by lia.
    destruct (Hts n (S n) ltac:(lia)) as [[_ M] _].
    destruct (Rle_lt_or_eq_dec _ _ M) as [Lt|Eq].
    - left. exists (S n). split; [lia|]. lra.
    - right. lra. }
  destruct (G (length ts - 1)%nat ltac:(lia)) as [E|E]; [exact E|lra].
Qed.

Definition usable (p1 : list R) : Prop :=
  length p1 = length ts /\ forall i, (i < length ts)%nat -> 0 < nth i p1 0.

Lemma finish p1 dt : usable p1 -> length dt = length ts -> nth 0 dt 0 = nth 1 dt 0 ->
  (forall i, (0 < i < length ts)%nat -> nth i dt 0 = nth i ts 0 - nth (i - 1) ts 0) ->
  let s := Rsum (zipmul p1 dt) in
  let p := map (fun x => x / s) p1 in
  0 < s /\ distribution (mkPdf ts dt p (cumsum (zipmul p dt))) (length ts).
Proof.
  intros [U1 U2] L D0 D s p.
  assert (W : forall i, (i < length ts)%nat -> 0 <= nth i dt 0).
  { intros i Hi. destruct i as [|i].
    - rewrite D0, (D 1%nat) by lia. destruct (Hts 0 1 ltac:(lia)) as [[_ M] _].
      replace (1 - 1)%nat with 0%nat by lia. lra.
    - rewrite D by lia. destruct (Hts (S i - 1) (S i) ltac:(lia)) as [[_ M] _]. lra. }
  assert (S0 : 0 < s).
  { unfold s. rewrite Rsum_nth, zipmul_length by lia.
    destruct (some_width dt L D) as (i & Hi & Wi).
    apply (sum_to_pos _ _ i); [intros j Hj|lia|]; rewrite zipmul_nth by lia.
    - pose proof (U2 j ltac:(lia)). pose proof (W j ltac:(lia)). nra.
    - pose proof (U2 i ltac:(lia)). nra. }
  split; [exact S0|].
  assert (Lp : length p = length ts) by (unfold p; now rewrite map_length).
  assert (P : forall i, (i < length ts)%nat -> nth i p 0 = nth i p1 0 / s).
  { intros i Hi. unfold p. now rewrite (nth_map_lt _ _ _ 0) by lia. }
  constructor; cbn [pdf_ts pdf_dt pdf_pdf pdf_cdf].
  - repeat split; auto. rewrite cumsum_length, zipmul_length; lia.
  - exact Hts.
  - exact D.
  - exact D0.
  - intros i Hi. rewrite P by exact Hi. left. apply Rmult_lt_0_compat; [apply U2; exact Hi|now apply Rinv_0_lt_compat].
  - transitivity (sum_to (fun i => nth i p1 0 * nth i dt 0 / s) (length ts)).
    + apply sum_to_ext. intros i Hi. unfold weight. cbn [pdf_pdf pdf_dt]. rewrite P by exact Hi. field. lra.
    + rewrite sum_to_div. rewrite (sum_to_ext _ (fun i => nth i (zipmul p1 dt) 0)).
      * unfold s. rewrite Rsum_nth. rewrite (zipmul_length p1) by lia. rewrite U1. apply Rinv_r.
        assert (E : s = sum_to (fun i => nth i (zipmul p1 dt) 0) (length ts)).
        { unfold s. rewrite Rsum_nth, zipmul_length by lia. now rewrite U1. }
        rewrite <- E. lra.
      * intros i Hi. now rewrite zipmul_nth by lia.
  - intros i Hi. rewrite cumsum_nth by (rewrite zipmul_length; lia).
    rewrite Rsum_firstn by (rewrite zipmul_length; lia).
    apply sum_to_ext. intros j Hj. rewrite zipmul_nth by lia. reflexivity.
Qed.

Lemma pdf_from_cases :
  (pow10 (-30) <= sum_to like (length ts) ->
     exists p, pdf_from ts lam ph k = Ok p /\ distribution p (length ts) /\ pdf_ts p = ts /\
       exists c, 0 < c /\ forall i, (i < length ts)%nat -> nth i (pdf_pdf p) 0 = c * like i) /\
  (sum_to like (length ts) < pow10 (-30) ->
     ((forall i, (i < length ts)%nat -> nth i lam 0 < INR k) -> pdf_from ts lam ph k = Err IndexError) /\
     forall j, (j < length ts)%nat -> (forall i, (i < j)%nat -> nth i lam 0 < INR k) -> INR k <= nth j lam 0 ->
     exists p, pdf_from ts lam ph k = Ok p /\ distribution p (length ts) /\ pdf_ts p = ts /\
       exists c, 0 < c /\ nth j (pdf_pdf p) 0 = c /\
         forall i, (i < length ts)%nat -> i <> j -> nth i (pdf_pdf p) 0 = c * like i).
Proof.
  destruct (make_dt_ok ts H2) as (dt & E & L & D0 & D).
  split.
  - intros Hs. unfold pdf_from. rewrite E. cbn [bind]. fold pdf0. rewrite pdf0_sum.
    rewrite Rltb_false by exact Hs. cbn [bind].
    assert (U : usable pdf0).
    { split; [exact pdf0_length|]. intros i Hi. rewrite pdf0_nth by exact Hi. now apply like_pos. }
    destruct (finish pdf0 dt U L D0 D) as [S0 Dist].
    destruct (Reqb_spec (Rsum (zipmul pdf0 dt)) 0) as [Z|_]; [lra|].
    eexists. split; [reflexivity|]. split; [exact Dist|]. split; [reflexivity|].
    exists (/ Rsum (zipmul pdf0 dt)). split; [now apply Rinv_0_lt_compat|].
    intros i Hi. cbn [pdf_pdf]. rewrite (nth_map_lt _ _ _ 0) by (now rewrite pdf0_length).
    rewrite pdf0_nth by exact Hi. unfold Rdiv. lra.
  - intros Hs. split.
    + intros A. unfold pdf_from. rewrite E. cbn [bind]. fold pdf0. rewrite pdf0_sum, Rltb_true by exact Hs.
      rewrite (searchsorted_unique lam (INR k) (length ts)); [|lia| |lia].
      * rewrite pdf0_length. destruct (Nat.ltb_spec (length ts) (length ts)); [lia|]. reflexivity.
      * exact A.
    + intros j Hj B C. unfold pdf_from. rewrite E. cbn [bind]. fold pdf0. rewrite pdf0_sum, Rltb_true by exact Hs.
      rewrite (searchsorted_unique lam (INR k) j); [|lia|exact B|intros _; exact C].
      rewrite pdf0_length. destruct (Nat.ltb_spec j (length ts)); [|lia]. cbn [bind].
      assert (U : usable (set_nth j 1 pdf0)).
      { split; [rewrite set_nth_length; rewrite pdf0_length; lia|]. intros i Hi.
        destruct (Nat.eq_dec i j) as [->|N].
        - rewrite set_nth_same by (rewrite pdf0_length; lia). lra.
        - rewrite set_nth_other by (rewrite ?pdf0_length; lia). rewrite pdf0_nth by exact Hi. now apply like_pos. }
      destruct (finish _ dt U L D0 D) as [S0 Dist].
      set (s := Rsum (zipmul (set_nth j 1 pdf0) dt)) in *.
      destruct (Reqb_spec s 0) as [Z|_]; [lra|].
      eexists. split; [reflexivity|]. split; [exact Dist|]. split; [reflexivity|].
      exists (/ s). split; [now apply Rinv_0_lt_compat|].
      assert (LL : length (set_nth j 1 pdf0) = length ts) by apply U.
      split.
      * cbn [pdf_pdf]. rewrite (nth_map_lt _ _ _ 0) by lia. rewrite set_nth_same by (rewrite pdf0_length; lia).
        unfold Rdiv. lra.
      * intros i Hi N. cbn [pdf_pdf]. rewrite (nth_map_lt _ _ _ 0) by lia.
        rewrite set_nth_other by (rewrite ?pdf0_length; lia). rewrite pdf0_nth by exact Hi. unfold Rdiv. lra.
Qed.
End Samples.

(** ** The time grid of Craterpdf *)
Section Grid.
Context (cf : chron) (Hc : positive_coefficients cf) (n : nat) (Hn : (2 <= n)%nat).
Definition grid : list R := map (fun x => cf_t_a0 cf (cf_a0 cf 1 + x)) (linspace (-10) 5 n).
Lemma grid_length : length grid = n.
Proof. unfold grid. now rewrite map_length, linspace_length. Qed.
Lemma grid_nth i : (i < n)%nat -> nth i grid 0 = cf_t cf (N1 cf 1 * pow10 (nth i (linspace (-10) 5 n) 0)).
Proof.
  intros H. unfold grid. rewrite (nth_map_lt _ _ _ 0) by (now rewrite linspace_length).
  unfold cf_t_a0, cf_a0. rewrite pow10_plus, pow10_log10; [reflexivity|]. apply N1_pos; [exact Hc|lra].
Qed.
Lemma grid_mono i j : (i <= j < n)%nat -> 0 <= nth i grid 0 <= nth j grid 0 /\ nth j grid 0 <= 5.
Proof.
  intros H. rewrite !grid_nth by lia. pose proof (N1_pos cf Hc 1 ltac:(lra)) as N.
  split; [split|]; try apply cf_t_range; try exact Hc.
  apply cf_t_mono; [exact Hc|]. apply Rmult_le_compat_l; [lra|]. apply pow10_le.
  apply SS_nth_le; [apply SS_lt_le, linspace_sorted; lra|rewrite linspace_length; lia].
Qed.
Lemma grid_grows : nth 0 grid 0 < nth (length grid - 1) grid 0.
Proof.
  rewrite grid_length, !grid_nth by lia. rewrite linspace_first, linspace_last by lia.
  pose proof (N1_pos cf Hc 1 ltac:(lra)) as N. pose proof (N1_lt cf Hc 1 5 ltac:(lra)) as N5.
  assert (pow10 (-10) < pow10 0) by (apply pow10_lt; lra). rewrite pow10_0 in *.
  pose proof (pow10_pos (-10)). assert (pow10 (-10) < pow10 5) by (apply pow10_lt; lra).
  apply cf_t_lt; [exact Hc|split|]; nra.
Qed.
End Grid.

Lemma lam_standard_nth xs C1 C2 area i : 0 < C1 -> 0 < C2 -> (i < length xs)%nat ->
  nth i (lam_standard xs C1 C2 area) 0 = (C1 - C2) * area * pow10 (nth i xs 0).
Proof.
  intros H1 H2 H. unfold lam_standard. rewrite (nth_map_lt _ _ _ 0) by exact H.
  rewrite !pow10_plus, !pow10_log10 by assumption. ring.
Qed.

(** lambda of the samples: the expected number of craters *)
Definition lam_at (cf : chron) (C : R -> R -> R) (area lo hi x : R) : R :=
  (C lo (cf_a0 cf 1) - C hi (cf_a0 cf 1)) * area * pow10 x.

(** ** Percentiles *)
Section Percentiles.
Context (p : pdf) (n : nat) (Hp : distribution p n) (Hn : (2 <= n)%nat).
Lemma dlen : length (pdf_ts p) = n /\ length (pdf_dt p) = n /\ length (pdf_pdf p) = n /\ length (pdf_cdf p) = n.
Proof. apply Hp. Qed.
Lemma dt_nonneg i : (i < n)%nat -> 0 <= nth i (pdf_dt p) 0.
Proof.
  intros Hi. destruct i as [|i].
  - rewrite (d_width0 _ _ Hp), (d_width _ _ Hp 1) by lia. destruct (d_grid _ _ Hp 0 1 ltac:(lia)) as [[_ M] _].
    replace (1 - 1)%nat with 0%nat by lia. lra.
  - rewrite (d_width _ _ Hp) by lia. destruct (d_grid _ _ Hp (S i - 1) (S i) ltac:(lia)) as [[_ M] _]. lra.
Qed.
Lemma weight_nonneg i : (i < n)%nat -> 0 <= weight p i.
Proof. intros H. apply Rmult_le_pos; [now apply (d_nonneg _ _ Hp)|now apply dt_nonneg]. Qed.
Lemma cdf_mono i j : (i <= j < n)%nat -> nth i (pdf_cdf p) 0 <= nth j (pdf_cdf p) 0.
Proof.
  intros H. rewrite !(d_cdf _ _ Hp) by lia. apply sum_to_mono; [|lia].
  intros k Hk. apply weight_nonneg. lia.
Qed.
Lemma cdf_last : nth (n - 1) (pdf_cdf p) 0 = 1.
Proof. rewrite (d_cdf _ _ Hp) by lia. replace (S (n - 1)) with n by lia. apply (d_total _ _ Hp). Qed.
Lemma cdf_range i : (i < n)%nat -> 0 <= nth i (pdf_cdf p) 0 <= 1.
Proof.
  intros H. split.
  - rewrite (d_cdf _ _ Hp) by lia. apply sum_to_nonneg. intros; apply weight_nonneg; lia.
  - rewrite <- cdf_last. apply cdf_mono. lia.
Qed.

Let tbl := combine (pdf_cdf p) (pdf_ts p).
Lemma tbl_length : length tbl = n.
Proof. unfold tbl. destruct dlen as (A & _ & _ & B). rewrite combine_length. lia. Qed.
Lemma tbl_nth i : nth i tbl (0, 0) = (nth i (pdf_cdf p) 0, nth i (pdf_ts p) 0).
Proof. unfold tbl. destruct dlen as (A & _ & _ & B). apply combine_nth. lia. Qed.
Lemma cdf_sorted : StronglySorted Rle (pdf_cdf p).
Proof.
  destruct dlen as (_ & _ & _ & B). apply (SS_of_nth Rle 0). intros i j H. apply cdf_mono. lia.
Qed.
Lemma ts_sorted' : StronglySorted Rle (pdf_ts p).
Proof.
  destruct dlen as (A & _). apply (SS_of_nth Rle 0). intros i j H.
  destruct (d_grid _ _ Hp i j ltac:(lia)) as [[_ M] _]. exact M.
Qed.
Lemma tbl_sx : StronglySorted Rle (map fst tbl).
Proof. unfold tbl. destruct dlen as (A & _ & _ & B). rewrite map_fst_combine' by lia. exact cdf_sorted. Qed.
Lemma tbl_sy : StronglySorted Rle (map snd tbl).
Proof. unfold tbl. destruct dlen as (A & _ & _ & B). rewrite map_snd_combine' by lia. exact ts_sorted'. Qed.
Lemma tbl_ne : tbl <> [].
Proof. intros E. pose proof tbl_length as L. rewrite E in L. cbn in L. lia. Qed.
Lemma pdf_t_ok f : interp f tbl = Ok (pdf_t p f).
Proof. unfold pdf_t. fold tbl. destruct (interp_total f tbl tbl_ne) as [y E]. now rewrite E. Qed.

Lemma pdf_t_mono f g : f <= g -> pdf_t p f <= pdf_t p g.
Proof. intros H. exact (interp_mono tbl f g _ _ tbl_sx tbl_sy H (pdf_t_ok f) (pdf_t_ok g)). Qed.
Lemma pdf_t_range f : nth 0 (pdf_ts p) 0 <= pdf_t p f <= nth (n - 1) (pdf_ts p) 0.
Proof.
  pose proof (interp_range tbl f _ tbl_sx tbl_sy (pdf_t_ok f)) as B. rewrite tbl_length, !tbl_nth in B. exact B.
Qed.

(** cdf and ts grow together *)
Lemma cdf_step_ts i : (S i < n)%nat -> nth i (pdf_cdf p) 0 < nth (S i) (pdf_cdf p) 0 ->
  nth i (pdf_ts p) 0 < nth (S i) (pdf_ts p) 0.
Proof.
  intros Hi H. rewrite !(d_cdf _ _ Hp) in H by lia. cbn [sum_to] in H.
  pose proof (d_nonneg _ _ Hp (S i) Hi) as N. pose proof (dt_nonneg (S i) Hi) as W.
  assert (K : 0 < weight p (S i)) by lra. unfold weight in K.
  assert (0 < nth (S i) (pdf_dt p) 0).
  { destruct W as [W|W]; [exact W|]. rewrite <- W in K. lra. }
  rewrite (d_width _ _ Hp) in H0 by lia. replace (S i - 1)%nat with i in H0 by lia. lra.
Qed.

Let tbl2 := combine (pdf_ts p) (pdf_cdf p).
Lemma tbl2_length : length tbl2 = n.
Proof. unfold tbl2. destruct dlen as (A & _ & _ & B). rewrite combine_length. lia. Qed.
Lemma tbl2_nth i : nth i tbl2 (0, 0) = (nth i (pdf_ts p) 0, nth i (pdf_cdf p) 0).
Proof. unfold tbl2. destruct dlen as (A & _ & _ & B). apply combine_nth. lia. Qed.
Lemma tbl2_sx : StronglySorted Rle (map fst tbl2).
Proof. unfold tbl2. destruct dlen as (A & _ & _ & B). rewrite map_fst_combine' by lia. exact ts_sorted'. Qed.
Lemma tbl2_sy : StronglySorted Rle (map snd tbl2).
Proof. unfold tbl2. destruct dlen as (A & _ & _ & B). rewrite map_snd_combine' by lia. exact cdf_sorted. Qed.
Lemma tbl2_ne : tbl2 <> [].
Proof. intros E. pose proof tbl2_length as L. rewrite E in L. cbn in L. lia. Qed.
Lemma cf_ok t : interp t tbl2 = Ok (cumulative_fraction p t).
Proof. unfold cumulative_fraction. fold tbl2. destruct (interp_total t tbl2 tbl2_ne) as [y E]. now rewrite E. Qed.
Lemma cumulative_fraction_mono t u : t <= u -> cumulative_fraction p t <= cumulative_fraction p u.
Proof. intros H. exact (interp_mono tbl2 t u _ _ tbl2_sx tbl2_sy H (cf_ok t) (cf_ok u)). Qed.
Lemma cumulative_fraction_range t : 0 <= cumulative_fraction p t <= 1.
Proof.
  pose proof (interp_range tbl2 t _ tbl2_sx tbl2_sy (cf_ok t)) as B. rewrite tbl2_length, !tbl2_nth in B. cbn [snd] in B.
  rewrite cdf_last in B. pose proof (cdf_range 0 ltac:(lia)). lra.
Qed.

Lemma percentile_inverse f : nth 0 (pdf_cdf p) 0 <= f <= 1 -> cumulative_fraction p (pdf_t p f) = f.
Proof.
  intros Hf.
  destruct (interp_segment tbl f tbl_sx tbl_ne) as (j & J1 & J2 & J3 & J4).
  { rewrite tbl_nth. cbn. lra. }
  rewrite tbl_length in *. rewrite pdf_t_ok in *. rewrite tbl_nth in J2, J4. cbn [fst snd] in *.
  destruct (Nat.eq_dec (S j) n) as [E|E].
  - specialize (J4 E). injection J4 as J4. rewrite J4.
    assert (C1 : nth j (pdf_cdf p) 0 = 1) by (replace j with (n - 1)%nat by lia; apply cdf_last).
    assert (f = 1) by lra. subst f.
    pose proof (interp_beyond tbl2 (nth j (pdf_ts p) 0) tbl2_sx tbl2_ne) as B.
    rewrite tbl2_length, tbl2_nth in B. cbn [fst snd] in B. replace (n - 1)%nat with j in B by lia.
    specialize (B (Rle_refl _)). rewrite cf_ok in B. injection B as B. lra.
  - destruct (J3 ltac:(lia)) as [A B]. rewrite !tbl_nth in *. cbn [fst snd] in *. injection B as B.
    pose proof (cdf_step_ts j ltac:(lia) ltac:(lra)) as T.
    set (c0 := nth j (pdf_cdf p) 0) in *. set (c1 := nth (S j) (pdf_cdf p) 0) in *.
    set (t0 := nth j (pdf_ts p) 0) in *. set (t1 := nth (S j) (pdf_ts p) 0) in *.
    pose proof (slope_bounds c0 t0 c1 t1 f ltac:(lra) ltac:(lra)) as SB.
    pose proof (slope_lt c0 t0 c1 t1 f ltac:(lra) ltac:(lra)) as SL. rewrite <- B in SB, SL.
    pose proof (interp_at tbl2 (pdf_t p f) j tbl2_sx) as I. rewrite tbl2_length, !tbl2_nth in I. cbn [fst snd] in I.
    fold c0 c1 t0 t1 in I. specialize (I ltac:(lia) ltac:(lra)). rewrite cf_ok in I. injection I as I.
    rewrite I, B. field. split; lra.
Qed.
End Percentiles.

(** ** Gaussian percentiles *)
Section Gauss.
Context (erf : R -> R) (H0 : erf 0 = 0) (Hinc : forall x y, x < y -> erf x < erf y) (Hlt : forall x, erf x < 1).
Lemma gp_length n : length (gaussian_percentiles erf n) = (2 * n + 1)%nat.
Proof. induction n as [|n IH]; [reflexivity|]. cbn [gaussian_percentiles]. rewrite !app_length, IH. cbn [length]. lia. Qed.
Lemma gp_sym n i : (i <= 2 * n)%nat -> nth i (gaussian_percentiles erf n) 0 + nth (2 * n - i) (gaussian_percentiles erf n) 0 = 1.
Proof.
  revert i. induction n as [|n IH]; intros i Hi.
  - replace i with 0%nat by lia. cbn. lra.
  - cbn [gaussian_percentiles]. set (f := (1 - erf _) / 2). pose proof (gp_length n) as L.
    destruct i as [|i].
    + change ([f] ++ gaussian_percentiles erf n ++ [1 - f]) with (f :: (gaussian_percentiles erf n ++ [1 - f])).
      cbn [nth]. rewrite Nat.sub_0_r. replace (2 * S n)%nat with (S (2 * n + 1)) by lia. cbn [nth].
      rewrite app_nth2 by lia. replace (2 * n + 1 - length (gaussian_percentiles erf n))%nat with 0%nat by lia. cbn. lra.
    + change ([f] ++ gaussian_percentiles erf n ++ [1 - f]) with (f :: (gaussian_percentiles erf n ++ [1 - f])).
      cbn [nth]. destruct (Nat.eq_dec i (2 * n + 1)) as [->|N].
      * rewrite app_nth2 by lia. replace (2 * n + 1 - length (gaussian_percentiles erf n))%nat with 0%nat by lia.
        replace (2 * S n - S (2 * n + 1))%nat with 0%nat by lia. cbn. lra.
      * rewrite app_nth1 by lia. replace (2 * S n - S i)%nat with (S (2 * n - i)) by lia. cbn [nth].
        rewrite app_nth1 by lia. apply IH. lia.
Qed.
Lemma sqrt2_pos : 0 < sqrt 2. Proof. apply sqrt_lt_R0. lra. Qed.
Lemma erf_step n : erf (INR n / sqrt 2) < erf (INR (S n) / sqrt 2).
Proof.
  apply Hinc. apply Rmult_lt_compat_r; [apply Rinv_0_lt_compat, sqrt2_pos|]. apply lt_INR. lia.
Qed.
Lemma gp_range n i : (i <= 2 * n)%nat ->
  (1 - erf (INR n / sqrt 2)) / 2 <= nth i (gaussian_percentiles erf n) 0 <= 1 - (1 - erf (INR n / sqrt 2)) / 2.
Proof.
  revert i. induction n as [|n IH]; intros i Hi.
  - replace i with 0%nat by lia. cbn [gaussian_percentiles nth INR].
    replace (0 / sqrt 2) with 0 by (unfold Rdiv; lra). rewrite H0. lra.
  - cbn [gaussian_percentiles]. set (f := (1 - erf (INR (S n) / sqrt 2)) / 2). pose proof (gp_length n) as L.
    pose proof (erf_step n) as E.
    assert (Ep : 0 < erf (INR (S n) / sqrt 2)).
    { rewrite <- H0. apply Hinc. apply Rmult_lt_0_compat; [apply lt_0_INR; lia|apply Rinv_0_lt_compat, sqrt2_pos]. }
    change ([f] ++ gaussian_percentiles erf n ++ [1 - f]) with (f :: (gaussian_percentiles erf n ++ [1 - f])).
    destruct i as [|i]; cbn [nth]; [subst f; lra|].
    destruct (Nat.eq_dec i (2 * n + 1)) as [->|N].
    + rewrite app_nth2 by lia. replace (2 * n + 1 - length (gaussian_percentiles erf n))%nat with 0%nat by lia. cbn [nth]. subst f; lra.
    + rewrite app_nth1 by lia. specialize (IH i ltac:(lia)). subst f; lra.
Qed.
Lemma gp_inc n i j : (i < j <= 2 * n)%nat -> nth i (gaussian_percentiles erf n) 0 < nth j (gaussian_percentiles erf n) 0.
Proof.
  revert i j. induction n as [|n IH]; intros i j Hij; [lia|].
  cbn [gaussian_percentiles]. set (f := (1 - erf (INR (S n) / sqrt 2)) / 2). pose proof (gp_length n) as L.
  pose proof (erf_step n) as E.
  assert (Ep : 0 < erf (INR (S n) / sqrt 2)).
  { rewrite <- H0. apply Hinc. apply Rmult_lt_0_compat; [apply lt_0_INR; lia|apply Rinv_0_lt_compat, sqrt2_pos]. }
  change ([f] ++ gaussian_percentiles erf n ++ [1 - f]) with (f :: (gaussian_percentiles erf n ++ [1 - f])).
  destruct j as [|j]; [lia|]. cbn [nth]. destruct i as [|i]; cbn [nth].
  - destruct (Nat.eq_dec j (2 * n + 1)) as [->|N].
    + rewrite app_nth2 by lia. replace (2 * n + 1 - length (gaussian_percentiles erf n))%nat with 0%nat by lia. cbn [nth]. subst f; lra.
    + rewrite app_nth1 by lia. pose proof (gp_range n j ltac:(lia)). subst f; lra.
  - rewrite (app_nth1 _ _ _ (n := i)) by lia. destruct (Nat.eq_dec j (2 * n + 1)) as [->|N].
    + rewrite app_nth2 by lia. replace (2 * n + 1 - length (gaussian_percentiles erf n))%nat with 0%nat by lia. cbn [nth].
      pose proof (gp_range n i ltac:(lia)). subst f; lra.
    + rewrite app_nth1 by lia. apply IH. lia.
Qed.
Lemma gp_middle n : nth n (gaussian_percentiles erf n) 0 = 1 / 2.
Proof. pose proof (gp_sym n n ltac:(lia)) as E. replace (2 * n - n)%nat with n in E by lia. lra. Qed.
Lemma gp_prob n i : (i <= 2 * n)%nat -> 0 < nth i (gaussian_percentiles erf n) 0 < 1.
Proof. intros H. pose proof (gp_range n i H). pose proof (Hlt (INR n / sqrt 2)). lra. Qed.
End Gauss.

(** ** Sequence probability *)
Definition cdf_before (p : pdf) (i : nat) : R := match i with O => 1 | S j => nth j (pdf_cdf p) 0 end.

Lemma sequence_sum p q n : distribution p n -> distribution q n -> (2 <= n)%nat ->
  sequence_probability p q = sum_to (fun i => weight p i * ((nth i (pdf_cdf q) 0 + cdf_before q i) / 2)) n.
Proof.
  intros Hp Hq Hn. destruct (d_lengths _ _ Hp) as (A1 & A2 & A3 & A4). destruct (d_lengths _ _ Hq) as (B1 & B2 & B3 & B4).
  unfold sequence_probability. set (m := map _ _).
  assert (Lm : length m = n) by (unfold m; rewrite map_length, combine_length, roll1_length; lia).
  assert (Lz : length (zipmul (pdf_dt p) (pdf_pdf p)) = n) by (rewrite zipmul_length; lia).
  rewrite Rsum_nth, zipmul_length, Lz by lia. apply sum_to_ext. intros i Hi.
  rewrite zipmul_nth by lia. rewrite zipmul_nth by lia. unfold weight.
  assert (E : nth i m 0 = (nth i (pdf_cdf q) 0 + cdf_before q i) / 2).
  { unfold m. rewrite (nth_map_lt _ _ _ (0, 0)) by (rewrite combine_length, roll1_length; lia).
    rewrite combine_nth by (now rewrite roll1_length). cbn [fst snd]. do 2 f_equal.
    destruct i as [|i]; cbn [cdf_before].
    - rewrite roll1_0, B4. apply (cdf_last q n Hq Hn).
    - apply roll1_S. lia. }
  rewrite E. ring.
Qed.
Lemma sequence_range p q n : distribution p n -> distribution q n -> (2 <= n)%nat ->
  0 <= sequence_probability p q <= 1.
Proof.
  intros Hp Hq Hn. rewrite (sequence_sum p q n) by assumption.
  assert (M : forall i, (i < n)%nat -> 0 <= (nth i (pdf_cdf q) 0 + cdf_before q i) / 2 <= 1).
  { intros i Hi. pose proof (cdf_range q n Hq Hn i Hi).
    assert (0 <= cdf_before q i <= 1); [|lra].
    destruct i as [|i]; cbn [cdf_before]; [lra|]. apply (cdf_range q n Hq Hn). lia. }
  split.
  - apply sum_to_nonneg. intros i Hi. pose proof (weight_nonneg p n Hp Hn i Hi). pose proof (M i Hi). nra.
  - rewrite <- (d_total _ _ Hp).
    assert (G : forall m, (m <= n)%nat -> sum_to (fun i => weight p i * ((nth i (pdf_cdf q) 0 + cdf_before q i) / 2)) m <= sum_to (weight p) m).
    { induction m as [|m IH]; intros L; [cbn; lra|]. cbn [sum_to].
      pose proof (IH ltac:(lia)). pose proof (weight_nonneg p n Hp Hn m ltac:(lia)). pose proof (M m ltac:(lia)). nra. }
    apply G. lia.
Qed.
Lemma sequence_complement p q n : distribution p n -> distribution q n -> (2 <= n)%nat ->
  sequence_probability p q + sequence_probability q p = 1 + (weight p 0 + weight q 0) / 2.
Proof.
  intros Hp Hq Hn. rewrite (sequence_sum p q n), (sequence_sum q p n) by assumption.
  assert (G : forall m, (S m <= n)%nat ->
    sum_to (fun i => weight p i * ((nth i (pdf_cdf q) 0 + cdf_before q i) / 2)) (S m) +
    sum_to (fun i => weight q i * ((nth i (pdf_cdf p) 0 + cdf_before p i) / 2)) (S m) =
    nth m (pdf_cdf p) 0 * nth m (pdf_cdf q) 0 + (weight p 0 + weight q 0) / 2).
  { induction m as [|m IH]; intros L.
    - cbn [sum_to cdf_before]. rewrite (d_cdf _ _ Hp), (d_cdf _ _ Hq) by lia. cbn [sum_to]. lra.
    - change (sum_to ?f (S (S m))) with (sum_to f (S m) + f (S m)).
      specialize (IH ltac:(lia)).
      assert (Wp : nth (S m) (pdf_cdf p) 0 = nth m (pdf_cdf p) 0 + weight p (S m)).
      { rewrite !(d_cdf _ _ Hp) by lia. reflexivity. }
      assert (Wq : nth (S m) (pdf_cdf q) 0 = nth m (pdf_cdf q) 0 + weight q (S m)).
      { rewrite !(d_cdf _ _ Hq) by lia. reflexivity. }
      cbn [cdf_before]. rewrite Wp, Wq.
      generalize dependent (sum_to (fun i => weight p i * ((nth i (pdf_cdf q) 0 + cdf_before q i) / 2)) (S m)).
      generalize dependent (sum_to (fun i => weight q i * ((nth i (pdf_cdf p) 0 + cdf_before p i) / 2)) (S m)).
      intros u v IH. nra. }
  specialize (G (n - 1)%nat ltac:(lia)). replace (S (n - 1)) with n in G by lia. rewrite G.
  rewrite (cdf_last p n Hp Hn), (cdf_last q n Hq Hn). lra.
Qed.
