(** C109: the histogram of the trials. *)
From Coq Require Import String Ascii List Arith ZArith Reals Bool Lia Lra Psatz.
From Verif Require Import Base NumModel NumLemmas InterpProofs StrModel FmtModel FmtProofs FmtSpec PlotModel PlotSpec PlotProps RaModel RaSpec RaProps HistModel HistSpec.
Import ListNotations.
Local Open Scope R_scope.

(** * a step line over increasing edges *)
Section Steps.
  Variables (f G : nat -> R) (k : nat).
  Definition corner (i : nat) : list (R * R) := [(f i, G i); (f i, G (S i))].
  Definition corners (i n : nat) : list (R * R) := flat_map corner (seq i n).

  Lemma step_line_corners n : forall a before (g : nat -> R), G a = before -> (forall i, (a <= i < a + n)%nat -> G (S i) = g i) -> G (S (a + n)) = 0 ->
    step_line before (map f (seq a (S n))) (map g (seq a n)) = corners a (S n).
  Proof.
    induction n as [|n IH]; intros a before g E1 E2 E3.
    - cbn. unfold corners. cbn. unfold corner. rewrite Nat.add_0_r in E3. now rewrite E1, E3.
    - change (seq a (S (S n))) with (a :: seq (S a) (S n)). change (seq a (S n)) with (a :: seq (S a) n). rewrite !map_cons. cbn [step_line].
      rewrite (IH (S a) (g a) g); [|rewrite <- (E2 a) by lia; reflexivity|intros i I; apply E2; lia|rewrite <- E3; f_equal; lia].
      unfold corners. change (seq a (S (S n))) with (a :: seq (S a) (S n)). cbn [flat_map]. unfold corner at 2. rewrite E1, (E2 a) by lia. reflexivity.
  Qed.
  Lemma corners_split i n1 n2 : corners i (n1 + n2) = corners i n1 ++ corners (i + n1) n2.
  Proof. unfold corners. rewrite seq_app, flat_map_app. reflexivity. Qed.
  Lemma corners_in p i n : In p (corners i n) -> exists j, (i <= j < i + n)%nat /\ fst p = f j.
  Proof.
    unfold corners. rewrite in_flat_map. intros (j & J & P). apply in_seq in J. exists j. split; [exact J|]. destruct P as [<-|[<-|[]]]; reflexivity.
  Qed.
  Lemma filter_none {A} (P : A -> bool) l : (forall x, In x l -> P x = false) -> filter P l = [].
  Proof. induction l as [|x l IH]; intros H; [reflexivity|]. cbn. rewrite (H x) by now left. apply IH. intros y Y. apply H. now right. Qed.
  Lemma filter_every {A} (P : A -> bool) l : (forall x, In x l -> P x = true) -> filter P l = l.
  Proof. induction l as [|x l IH]; intros H; [reflexivity|]. cbn. rewrite (H x) by now left. f_equal. apply IH. intros y Y. apply H. now right. Qed.

  Variables (a b : R).
  Let keep (p : R * R) : bool := Rltb a (fst p) && Rltb (fst p) b.
  Lemma corners_filter i j : (i <= j <= k)%nat -> (forall e, (e < i)%nat -> f e <= a) -> (forall e, (i <= e <= j)%nat -> a < f e < b) -> (forall e, (j < e <= k)%nat -> b <= f e) ->
    filter keep (corners 0 (S k)) = corners i (S (j - i)).
  Proof.
    intros IJ LO MI HI. replace (S k) with (i + (S (j - i) + (k - j)))%nat by lia. rewrite !corners_split, !filter_app.
    rewrite (filter_none keep (corners 0 i)), (filter_every keep (corners (0 + i) _)), (filter_none keep (corners (0 + i + S (j - i)) _)).
    - cbn [app]. now rewrite app_nil_r.
    - intros p P. apply corners_in in P as (e & E & F). unfold keep. rewrite F. assert (B := HI e ltac:(lia)). destruct (Rltb_spec (f e) b); [lra|]. apply andb_false_r.
    - intros p P. apply corners_in in P as (e & E & F). unfold keep. rewrite F. assert (B := MI e ltac:(lia)). destruct (Rltb_spec (f e) b), (Rltb_spec a (f e)); try lra; reflexivity.
    - intros p P. apply corners_in in P as (e & E & F). unfold keep. rewrite F. assert (B := LO e ltac:(lia)). destruct (Rltb_spec a (f e)); [lra|]. reflexivity.
  Qed.
End Steps.

Lemma some_above (f : nat -> R) a c : (exists j, (j < c)%nat /\ a < f j) \/ forall j, (j < c)%nat -> f j <= a.
Proof.
  induction c as [|c IH]; [right; intros j J; lia|]. destruct IH as [(j & J1 & J2)|Q]; [left; exists j; split; [lia|exact J2]|].
  destruct (Rlt_le_dec a (f c)) as [Y|M]; [left; exists c; split; [lia|exact Y]|]. right. intros j J. destruct (Nat.eq_dec j c) as [->|]; [exact M|apply Q; lia].
Qed.
Lemma first_above (f : nat -> R) a : forall e, a < f e -> exists i, (i <= e)%nat /\ a < f i /\ forall j, (j < i)%nat -> f j <= a.
Proof.
  induction e as [e IH] using lt_wf_ind. intros H. destruct (some_above f a e) as [(j & J1 & J2)|Q].
  - destruct (IH j J1 J2) as (i & I1 & I2). exists i. split; [lia|exact I2].
  - exists e. split; [lia|]. now split.
Qed.
(** the last below b, counted down from n *)
Lemma last_below (f : nat -> R) b n e : (e <= n)%nat -> f e < b -> exists j, (e <= j <= n)%nat /\ f j < b /\ forall i, (j < i <= n)%nat -> b <= f i.
Proof.
  intros E H. destruct (first_above (fun i => - f (n - i)%nat) (- b) (n - e)) as (i & I1 & I2 & I3).
  - replace (n - (n - e))%nat with e by lia. lra.
  - exists (n - i)%nat. split; [lia|]. split; [lra|]. intros q Q. specialize (I3 (n - q)%nat ltac:(lia)). cbv beta in I3. replace (n - (n - q))%nat with q in I3 by lia. lra.
Qed.

(** interpolation where the line is level *)
Lemma interp_from_level v y : forall A x0 y0 xa xb B, x0 <= v -> Forall (fun p => fst p <= v) A -> xa <= v < xb ->
  interp_from x0 y0 (A ++ (xa, y) :: (xb, y) :: B) v = y.
Proof.
  induction A as [|[x1 y1] A IH]; intros x0 y0 xa xb B H F X.
  - cbn. rewrite Rltb_false by lra. rewrite Rltb_true by lra. unfold Rdiv. lra.
  - inversion F as [|? ? F1 F2]; subst. cbn in F1. cbn [app interp_from]. rewrite Rltb_false by lra. now apply IH.
Qed.
Lemma interp_level v y A xa xb B : Forall (fun p => fst p <= v) A -> xa <= v < xb -> interp v (A ++ (xa, y) :: (xb, y) :: B) = Ok y.
Proof.
  intros F X. destruct A as [|[x0 y0] A].
  - cbn. rewrite Rltb_false by lra. rewrite Rltb_true by lra. f_equal. unfold Rdiv. lra.
  - inversion F as [|? ? F1 F2]; subst. cbn in F1. cbn [app interp]. rewrite Rltb_false by lra. f_equal. now apply interp_from_level.
Qed.

(** * np.histogram over edges *)
Lemma histogram_step x y l dw : histogram (x :: y :: l) dw = hist1 x y (match l with [] => true | _ => false end) dw :: histogram (y :: l) dw.
Proof. reflexivity. Qed.
Lemma histogram_seq (f : nat -> R) dw n : forall a,
  histogram (map f (seq a (S n))) dw = map (fun i => hist1 (f i) (f (S i)) (Nat.eqb (S i) (a + n)) dw) (seq a n).
Proof.
  induction n as [|n IH]; intros a; [reflexivity|]. change (seq a (S (S n))) with (a :: S a :: seq (S (S a)) n). rewrite !map_cons, histogram_step.
  change (seq a (S n)) with (a :: seq (S a) n). rewrite map_cons. f_equal.
  - f_equal. destruct n; cbn [seq map].
    + symmetry. apply Nat.eqb_eq. lia.
    + symmetry. apply Nat.eqb_neq. lia.
  - specialize (IH (S a)). change (seq (S a) (S n)) with (S a :: seq (S (S a)) n) in IH. rewrite map_cons in IH. rewrite IH. apply map_ext_in. intros i I. now replace (a + S n)%nat with (S a + n)%nat by lia.
Qed.
Lemma diff_seq (f : nat -> R) n : forall a, diff (map f (seq a (S n))) = map (fun i => f (S i) - f i) (seq a n).
Proof.
  induction n as [|n IH]; intros a; [reflexivity|]. change (seq a (S (S n))) with (a :: S a :: seq (S (S a)) n). rewrite !map_cons.
  change (seq a (S n)) with (a :: seq (S a) n). rewrite map_cons. specialize (IH (S a)). change (seq (S a) (S n)) with (S a :: seq (S (S a)) n) in IH. rewrite map_cons in IH.
  cbn [diff] in *. now rewrite IH.
Qed.
Lemma hist1_ones lo hi c m : hist1 lo hi c (map (fun v => (v, 1)) m) = INR (if c then between_closed lo hi m else between lo hi m).
Proof.
  unfold hist1, between_closed, between, in_bin. induction m as [|x m IH]; [destruct c; reflexivity|]. cbn [map filter fst]. unfold Rleb, Rltb in *.
  destruct c; destruct (Rle_dec lo x); cbn [andb]; try exact IH; [destruct (Rle_dec x hi)|destruct (Rlt_dec x hi)]; try exact IH;
    cbn [map Rsum snd length]; rewrite S_INR, IH; lra.
Qed.
(** the parts make the whole *)
Lemma between_split a b c m : a <= b <= c -> (between a c m = between a b m + between b c m)%nat.
Proof.
  intros H. unfold between. induction m as [|x m IH]; [reflexivity|]. cbn [filter].
  destruct (Rle_dec a x), (Rlt_dec x b), (Rle_dec b x), (Rlt_dec x c); cbn [length]; try lia; exfalso; lra.
Qed.
Lemma between_last a b c m : a <= b <= c -> (between_closed a c m = between a b m + between_closed b c m)%nat.
Proof.
  intros H. unfold between, between_closed. induction m as [|x m IH]; [reflexivity|]. cbn [filter].
  destruct (Rle_dec a x), (Rlt_dec x b), (Rle_dec b x), (Rle_dec x c); cbn [length]; try lia; exfalso; lra.
Qed.
Lemma between_nil a m : between a a m = 0%nat.
Proof. unfold between. induction m as [|x m IH]; [reflexivity|]. cbn [filter]. destruct (Rle_dec a x), (Rlt_dec x a); try exact IH. exfalso; lra. Qed.
Lemma between_all lo hi m : (forall v, In v m -> lo <= v <= hi) -> between_closed lo hi m = length m.
Proof.
  unfold between_closed. induction m as [|x m IH]; intros H; [reflexivity|]. cbn [filter]. specialize (IH ltac:(intros v V; apply H; now right)). specialize (H x (or_introl eq_refl)).
  destruct (Rle_dec lo x), (Rle_dec x hi); cbn [length]; try lra. now rewrite IH.
Qed.
Lemma counts_sum (f : nat -> R) m k : (forall i j, (i <= j)%nat -> f i <= f j) -> (0 < k)%nat ->
  Rsum (map (fun i => INR (if Nat.eqb (S i) k then between_closed (f i) (f k) m else between (f i) (f (S i)) m)) (seq 0 k)) = INR (between_closed (f 0%nat) (f k) m).
Proof.
  intros M K. assert (Q : forall n, (n < k)%nat -> Rsum (map (fun i => INR (if Nat.eqb (S i) k then between_closed (f i) (f k) m else between (f i) (f (S i)) m)) (seq 0 n)) = INR (between (f 0%nat) (f n) m)).
  { induction n as [|n IH]; intros N; [cbn; now rewrite between_nil|]. rewrite seq_S, map_app, Rsum_app. rewrite IH by lia. cbn [map Rsum]. replace (0 + n)%nat with n by lia.
    destruct (Nat.eqb_spec (S n) k); [lia|]. rewrite (between_split (f 0%nat) (f n) (f (S n))) by (split; apply M; lia). rewrite plus_INR. lra. }
  destruct k as [|n]; [lia|]. rewrite seq_S, map_app, Rsum_app, Q by lia. cbn [map Rsum]. replace (0 + n)%nat with n by lia. rewrite Nat.eqb_refl.
  rewrite (between_last (f 0%nat) (f n) (f (S n))) by (split; apply M; lia). rewrite plus_INR. lra.
Qed.

(** * spread *)
Lemma sum_one (F : R -> R) m a : (forall v, 0 <= F v) -> In a m -> F a <= fold_right Rplus 0 (map F m).
Proof.
  intros N. induction m as [|x m IH]; intros A; [destruct A|]. cbn. assert (P : 0 <= fold_right Rplus 0 (map F m)).
  { clear -N. induction m as [|x m IH]; cbn; [lra|]. specialize (N x). lra. }
  destruct A as [<-|A]; [lra|]. specialize (IH A). specialize (N x). lra.
Qed.
Lemma sum_two (F : R -> R) m a b : (forall v, 0 <= F v) -> In a m -> In b m -> a <> b -> F a + F b <= fold_right Rplus 0 (map F m).
Proof.
  intros N. induction m as [|x m IH]; intros A B D; [destruct A|]. cbn. destruct A as [->|A], B as [->|B]; [congruence| | |].
  - assert (Q := sum_one F m b N B). lra.
  - assert (Q := sum_one F m a N A). lra.
  - specialize (IH A B D). specialize (N x). lra.
Qed.
Lemma stats_average m0 m s : calculate_stats m0 m = Ok s -> s_m0 s = m0 /\ average m (s_mn s) /\ deviation m (s_mn s) (s_sd s) /\ (0 < length m)%nat.
Proof.
  intros E. destruct m as [|x m]; [discriminate|]. set (l := x :: m) in *. assert (E' : calculate_stats m0 l = Ok (mkStats m0 (mean l) (std l) (if Reqb (std l) 0 then None else Some ((m0 - mean l) / std l))
    (INR (searchsorted (sort Rleb l) m0) / INR (length l) * 100))) by reflexivity. rewrite E' in E. injection E as <-. cbn [s_m0 s_mn s_sd].
  assert (P : 0 < INR (length l)) by (apply lt_0_INR; cbn; lia). split; [reflexivity|]. split.
  { unfold average. transitivity (Rsum l); [|reflexivity]. unfold mean. generalize (Rsum l). intros q. field. lra. } split; [|cbn; lia].
  split; [apply sqrt_pos|]. transitivity (Rsum (map (fun v => (v - mean l) ^ 2) l)); [|reflexivity]. unfold std. rewrite pow2_sqrt; [generalize (Rsum (map (fun v => (v - mean l) ^ 2) l)); intros q; field; lra|].
  apply Rle_mult_inv_pos; [|exact P]. apply Rsum_nonneg. apply Forall_forall. intros v V. apply in_map_iff in V as (u & <- & _). apply pow2_ge_0.
Qed.
Lemma average_between m mn lo hi : (0 < length m)%nat -> average m mn -> (forall v, In v m -> lo <= v <= hi) -> lo <= mn <= hi.
Proof.
  intros N A H. assert (P : 0 < INR (length m)) by now apply lt_0_INR. unfold average in A.
  assert (B : lo * INR (length m) <= fold_right Rplus 0 m <= hi * INR (length m)).
  { clear -H. induction m as [|x m IH]; [cbn; lra|]. cbn [fold_right length]. rewrite S_INR. specialize (IH ltac:(intros v V; apply H; now right)). specialize (H x (or_introl eq_refl)). lra. }
  split; apply (Rmult_le_reg_r (INR (length m))); lra.
Qed.
(** the spread of n values is more than half of a bar *)
Lemma spread_bar m mn sd lo hi kk : average m mn -> deviation m mn sd -> extent m lo hi -> lo < hi -> sqrt (INR (length m)) < kk -> 0 < sd /\ (hi - lo) / kk < 2 * sd.
Proof.
  intros A (D1 & D2) (E1 & E2 & E3) LH K. assert (T := sum_two (fun v => (v - mn) ^ 2) m lo hi ltac:(intros v; apply pow2_ge_0) E1 E2 ltac:(lra)). cbv beta in T. rewrite <- D2 in T.
  assert (NP : 0 < INR (length m)). { apply lt_0_INR. destruct m; [destruct E1|cbn; lia]. }
  set (n := INR (length m)) in *. assert (S0 := sqrt_lt_R0 n NP). assert (S2 := sqrt_sqrt n ltac:(lra)). set (q := sqrt n) in *.
  assert (Q : (hi - lo) ^ 2 <= 2 * (sd * q) ^ 2). { replace ((sd * q) ^ 2) with (sd ^ 2 * n) by (rewrite <- S2; ring). assert (H0 := pow2_ge_0 (lo - mn + (hi - mn))). replace ((hi - lo) ^ 2) with (2 * ((lo - mn) ^ 2 + (hi - mn) ^ 2) - (lo - mn + (hi - mn)) ^ 2) by ring. lra. }
  assert (SP : 0 < sd). { destruct D1 as [D1|<-]; [exact D1|]. assert (0 < (hi - lo) ^ 2) by (apply pow_lt; lra). replace (2 * (0 * q) ^ 2) with 0 in Q by ring. lra. } split; [exact SP|].
  apply (Rmult_lt_reg_r kk); [lra|]. unfold Rdiv. rewrite Rmult_assoc, Rinv_l by lra. rewrite Rmult_1_r.
  assert (Y : 0 < sd * q) by now apply Rmult_lt_0_compat. assert (Z : hi - lo < 2 * (sd * q)).
  { apply Rnot_le_lt. intros C. assert ((2 * (sd * q)) ^ 2 <= (hi - lo) ^ 2) by (apply pow_incr; lra). assert (0 < (sd * q) ^ 2) by now apply pow_lt. replace ((2 * (sd * q)) ^ 2) with (4 * (sd * q) ^ 2) in * by ring. lra. }
  assert (sd * q < sd * kk) by now apply Rmult_lt_compat_l. lra.
Qed.

(** * the drawing *)
Lemma corners_outline f G n : forall a,
  corners f G a (S n) = (f a, G a) :: flat_map (fun i => [(f i, G (S i)); (f (S i), G (S i))]) (seq a n) ++ [(f (a + n)%nat, G (S (a + n)))].
Proof.
  induction n as [|n IH]; intros a; [cbn; now rewrite Nat.add_0_r|]. unfold corners in *. change (seq a (S (S n))) with (a :: seq (S a) (S n)). change (seq a (S n)) with (a :: seq (S a) n).
  cbn [flat_map]. rewrite IH. replace (S a + n)%nat with (a + S n)%nat by lia. reflexivity.
Qed.
Lemma combine_maps {A B C} (p : A -> B) (q : A -> C) l : combine (map p l) (map q l) = map (fun i => (p i, q i)) l.
Proof. induction l as [|x l IH]; [reflexivity|]. cbn. now rewrite IH. Qed.
Lemma combine_longer {B C} (p : nat -> B) (q : nat -> C) n : combine (map p (seq 0 (S n))) (map q (seq 0 n)) = map (fun i => (p i, q i)) (seq 0 n).
Proof.
  rewrite <- combine_maps, seq_S, map_app. cbn [map]. rewrite <- (app_nil_r (map q (seq 0 n))) at 1. generalize (p (0 + n)%nat). intros z.
  generalize (seq 0 n). intros l. induction l as [|x l IH]; [reflexivity|]. cbn. cbn in IH. now rewrite IH.
Qed.
Lemma filter_eq {A} (P Q : A -> bool) l : (forall x, P x = Q x) -> filter P l = filter Q l.
Proof. intros H. induction l as [|x l IH]; [reflexivity|]. cbn. now rewrite H, IH. Qed.

Section Drawing.
  Variables (m : list R) (lo hi : R) (k : nat).
  Hypothesis LH : lo < hi.
  Hypothesis K : (0 < k)%nat.
  Let w : R := (hi - lo) / INR k.
  Let f (i : nat) : R := lo + INR i * w.
  Let g (i : nat) : R := INR (if Nat.eqb (S i) k then between_closed (f i) hi m else between (f i) (f (S i)) m).
  Let G (i : nat) : R := match i with O => 0 | S j => if Nat.ltb j k then g j else 0 end.
  Let bars : list (R * R * R) := map (fun i => (f i, w, g i)) (seq 0 k).

  Let KP : 0 < INR k. Proof. now apply lt_0_INR. Qed.
  Let W : 0 < w. Proof. unfold w. apply Rdiv_lt_0_compat; lra. Qed.
  Let f_S i : f (S i) = f i + w. Proof. unfold f. rewrite S_INR. lra. Qed.
  Let f_0 : f 0%nat = lo. Proof. unfold f. cbn. lra. Qed.
  Let f_k : f k = hi. Proof. unfold f, w. field. lra. Qed.
  Let f_mono i j : (i <= j)%nat -> f i <= f j.
  Proof. intros H. unfold f. apply le_INR in H. assert (INR i * w <= INR j * w) by (apply Rmult_le_compat_r; lra). lra. Qed.

  Let G_in i : (i < k)%nat -> G (S i) = g i. Proof. intros I. unfold G. destruct (Nat.ltb_spec i k); [reflexivity|lia]. Qed.
  Let G_out i : (k <= i)%nat -> G (S i) = 0. Proof. intros I. unfold G. destruct (Nat.ltb_spec i k); [lia|reflexivity]. Qed.

  Lemma edges_seq : linspace lo hi (S k) = map f (seq 0 (S k)).
  Proof. unfold linspace. replace (S k - 1)%nat with k by lia. reflexivity. Qed.
  Lemma diffs_seq : diff (linspace lo hi (S k)) = map (fun _ => w) (seq 0 k).
  Proof. rewrite edges_seq, diff_seq. apply map_ext. intros i. rewrite f_S. lra. Qed.
  Lemma heights_seq : histogram (linspace lo hi (S k)) (map (fun v => (v, 1)) m) = map g (seq 0 k).
  Proof.
    rewrite edges_seq, histogram_seq. apply map_ext_in. intros i I. rewrite hist1_ones. unfold g. cbn [Nat.add]. destruct (Nat.eqb_spec (S i) k) as [E|E]; [|reflexivity].
    rewrite E, f_k. reflexivity.
  Qed.
  Lemma bars_drawn : combine (combine (linspace lo hi (S k)) (diff (linspace lo hi (S k)))) (histogram (linspace lo hi (S k)) (map (fun v => (v, 1)) m)) = bars.
  Proof. rewrite heights_seq, diffs_seq, edges_seq, combine_longer, combine_maps. reflexivity. Qed.
  Lemma bars_right : bars_of m lo hi k bars.
  Proof.
    unfold bars_of. cbv zeta. fold w. split; [unfold bars; now rewrite map_length, seq_length|]. intros i I. unfold bars. rewrite nth_error_map. rewrite (nth_error_nth' (seq 0 k) 0%nat) by now rewrite seq_length.
    rewrite seq_nth by exact I. reflexivity.
  Qed.
  Lemma bars_total : extent m lo hi -> Rsum (map snd bars) = INR (length m).
  Proof.
    intros (E1 & E2 & E3). unfold bars. rewrite map_map. cbn [snd]. assert (Q := counts_sum f m k f_mono K). rewrite f_k, f_0, between_all in Q by exact E3. exact Q.
  Qed.
  Lemma line_corners : step_line 0 (linspace lo hi (S k)) (histogram (linspace lo hi (S k)) (map (fun v => (v, 1)) m)) = corners f G 0 (S k).
  Proof.
    rewrite heights_seq, edges_seq. apply step_line_corners; [reflexivity| |].
    - intros i I. apply G_in. lia.
    - apply G_out. lia.
  Qed.
  Lemma line_outline : corners f G 0 (S k) = outline_of lo hi bars.
  Proof.
    rewrite corners_outline. cbn [Nat.add]. unfold outline_of. rewrite f_0, f_k, (G_out k) by lia. change (G 0%nat) with 0. f_equal. f_equal. unfold bars.
    rewrite flat_map_concat_map, flat_map_concat_map, map_map. f_equal. apply map_ext_in. intros i I. apply in_seq in I. rewrite G_in by lia. now rewrite f_S.
  Qed.
  Lemma bars_in l v h : In (l, v, h) bars <-> exists i, (i < k)%nat /\ l = f i /\ v = w /\ h = g i.
  Proof.
    unfold bars. rewrite in_map_iff. split.
    - intros (i & E & I). injection E as <- <- <-. apply in_seq in I. exists i. repeat split. lia.
    - intros (i & I & -> & -> & ->). exists i. split; [reflexivity|]. apply in_seq. lia.
  Qed.
  (** i is the first edge beyond a *)
  Lemma height_before i a : (i <= k)%nat -> a < f i -> (forall e, (e < i)%nat -> f e <= a) -> height_right bars a (G i).
  Proof.
    intros I A B. destruct i as [|i].
    - right. split; [reflexivity|]. intros l v h H. apply bars_in in H as (j & _ & -> & _). assert (f 0%nat <= f j) by (apply f_mono; lia). lra.
    - left. exists (f i), w. rewrite G_in by lia. split; [apply bars_in; now exists i|]. rewrite <- f_S. split; [apply B; lia|exact A].
  Qed.
  Lemma height_after j b : (j <= k)%nat -> f j < b -> (forall e, (j < e <= k)%nat -> b <= f e) -> height_left bars b (G (S j)).
  Proof.
    intros J A B. destruct (le_lt_dec k j) as [C|C]; [rewrite G_out by exact C|rewrite G_in by exact C]; [|left].
    2: { exists (f j), w. split; [apply bars_in; now exists j|]. rewrite <- f_S. split; [exact A|apply B; lia]. }
    right. split; [reflexivity|]. intros l v h H. apply bars_in in H as (i & I & -> & -> & _). rewrite <- f_S. assert (f (S i) <= f j) by (apply f_mono; lia). lra.
  Qed.
  Lemma last_corners i n d : snd (last (tl (corners f G i (S n))) d) = G (S (i + n)).
  Proof.
    replace (S n) with (n + 1)%nat by lia. rewrite corners_split. unfold corners at 2. cbn [seq flat_map]. rewrite app_nil_r. unfold corner.
    destruct n as [|n].
    - cbn. now rewrite Nat.add_0_r.
    - unfold corners. change (seq i (S n)) with (i :: seq (S i) n). cbn [flat_map]. unfold corner at 1. cbn [app tl].
      rewrite (app_comm_cons _ _ (f i, G (S i))). change [(f (i + S n)%nat, G (i + S n)%nat); (f (i + S n)%nat, G (S (i + S n)))] with ([(f (i + S n)%nat, G (i + S n)%nat)] ++ [(f (i + S n)%nat, G (S (i + S n)))]).
      rewrite app_assoc, last_last. reflexivity.
  Qed.
  (** the shaded part and the line of the mean, if some edge is between a and b *)
  Lemma shade_drawn a b v e0 : (e0 <= k)%nat -> a < f e0 < b -> a < v < b -> lo <= v < hi ->
    exists ya yb h band, step_line 0 (linspace lo hi (S k)) (histogram (linspace lo hi (S k)) (map (fun v => (v, 1)) m)) = outline_of lo hi bars /\ shade (a, b) (outline_of lo hi bars) = Ok band /\ interp v band = Ok h /\
      height_right bars a ya /\ height_left bars b yb /\
      band = (a, 0) :: (a, ya) :: inside a b (outline_of lo hi bars) ++ [(b, yb); (b, 0)] /\
      exists l, In (l, w, h) bars /\ l <= v < l + w.
  Proof.
    rewrite <- line_outline. intros E0 AB V VR. destruct (first_above f a e0) as (i & I1 & I2 & I3); [lra|]. destruct (last_below f b k e0) as (j & J1 & J2 & J3); [exact E0|lra|].
    assert (FI : filter (fun p => Rltb a (fst p) && Rltb (fst p) b) (corners f G 0 (S k)) = corners f G i (S (j - i))).
    { apply corners_filter; [lia|exact I3| |exact J3]. intros e E. split; [assert (f i <= f e) by (apply f_mono; lia); lra|assert (f e <= f j) by (apply f_mono; lia); lra]. }
    assert (IN : inside a b (corners f G 0 (S k)) = corners f G i (S (j - i))).
    { rewrite <- FI. unfold inside. apply filter_eq. intros p. unfold Rltb. destruct (Rlt_dec a (fst p)), (Rlt_dec (fst p) b); reflexivity. }
    set (band := (a, 0) :: (a, G i) :: corners f G i (S (j - i)) ++ [(b, G (S j)); (b, 0)]).
    (* the bar of v *)
    destruct (first_above f v k) as (c1 & C1 & C2 & C3); [rewrite f_k; lra|]. destruct c1 as [|c]; [rewrite f_0 in C2; lra|]. assert (C4 := C3 c ltac:(lia)).
    exists (G i), (G (S j)), (g c), band. split; [apply line_corners|]. split; [|split; [|split; [|split; [|split]]]].
    - unfold shade. cbn [fst snd]. rewrite FI. assert (LC := last_corners i (j - i) (f i, G i)). replace (S (i + (j - i))) with (S j) in LC by lia. unfold band.
      unfold corners in *. change (seq i (S (j - i))) with (i :: seq (S i) (j - i)) in *. cbn [flat_map] in *. unfold corner at 1 in LC. unfold corner at 1. unfold corner at 3. cbn [app tl] in *. cbn [snd]. rewrite LC. reflexivity.
    - assert (GC : G (S c) = g c) by (apply G_in; lia).
      destruct (le_lt_dec i c) as [IC|IC].
      + assert (CJ : (c <= j)%nat). { destruct (le_lt_dec c j); [assumption|]. assert (b <= f c) by (apply J3; lia). lra. }
        (* corners up to c *)
        unfold band. replace (S (j - i)) with ((c - i) + (1 + (j - c)))%nat by lia. rewrite !corners_split.
        replace (i + (c - i))%nat with c by lia. unfold corners at 2. cbn [seq flat_map]. rewrite app_nil_r. unfold corner. rewrite GC.
        assert (Q : exists xb B, corners f G (c + 1) (j - c) ++ [(b, G (S j)); (b, 0)] = (xb, g c) :: B /\ v < xb).
        { destruct (j - c)%nat as [|n] eqn:JC.
          - exists b, [(b, 0)]. replace j with c by lia. rewrite GC. split; [reflexivity|lra].
          - unfold corners. cbn [seq flat_map]. unfold corner at 1. cbn [app]. replace (c + 1)%nat with (S c) by lia. eexists _, _. rewrite GC. split; [reflexivity|exact C2]. }
        destruct Q as (xb & B & Q & VX). rewrite <- !app_assoc. rewrite Q. cbn [app].
        set (A := (a, 0) :: (a, G i) :: corners f G i (c - i) ++ [(f c, G c)]).
        replace ((a, 0) :: (a, G i) :: corners f G i (c - i) ++ (f c, G c) :: (f c, g c) :: (xb, g c) :: B) with (A ++ (f c, g c) :: (xb, g c) :: B) by (unfold A; cbn [app]; rewrite <- app_assoc; reflexivity).
        apply interp_level; [|lra]. unfold A. constructor; [cbn; lra|]. constructor; [cbn; lra|]. apply Forall_app. split; [|constructor; [cbn; lra|constructor]].
        apply Forall_forall. intros p P. apply corners_in in P as (e & E & ->). assert (f e <= f c) by (apply f_mono; lia). lra.
      + assert (i = S c). { destruct (Nat.eq_dec i (S c)); [assumption|]. assert (f (S c) <= a) by (apply I3; lia). lra. } subst i.
        unfold band, corners. change (seq (S c) (S (j - S c))) with (S c :: seq (S (S c)) (j - S c)). cbn [flat_map]. unfold corner at 1. cbn [app]. rewrite GC.
        change ((a, 0) :: (a, g c) :: (f (S c), g c) :: (f (S c), G (S (S c))) :: (flat_map (corner f G) (seq (S (S c)) (j - S c))) ++ [(b, G (S j)); (b, 0)])
          with ([(a, 0)] ++ (a, g c) :: (f (S c), g c) :: ((f (S c), G (S (S c))) :: (flat_map (corner f G) (seq (S (S c)) (j - S c))) ++ [(b, G (S j)); (b, 0)])).
        apply interp_level; [constructor; [cbn; lra|constructor]|lra].
    - apply height_before; [lia|exact I2|exact I3].
    - apply height_after; [lia|exact J2|exact J3].
    - unfold band. now rewrite IN.
    - exists (f c). split; [apply bars_in; exists c; repeat split; lia|]. rewrite <- f_S. lra.
  Qed.
  (** an edge between a and b, less than a bar apart from the edges *)
  Lemma edge_between mn sd : lo <= mn <= hi -> 0 < sd -> w < 2 * sd -> exists e, (e <= k)%nat /\ mn - sd < f e < mn + sd.
  Proof.
    intros M S0 W2. destruct (Rlt_le_dec (mn - sd) lo) as [A|A]; [exists 0%nat; rewrite f_0; split; [lia|lra]|].
    destruct (Rlt_le_dec hi (mn + sd)) as [B|B]; [exists k; rewrite f_k; split; [lia|lra]|].
    destruct (first_above f (mn - sd) k) as (i & I1 & I2 & I3); [rewrite f_k; lra|]. exists i. split; [exact I1|]. split; [exact I2|].
    destruct i as [|i]; [rewrite f_0 in I2; lra|]. specialize (I3 i ltac:(lia)). rewrite f_S in *. lra.
  Qed.
End Drawing.
Lemma list_min_least x l lo : In lo l -> (forall v, In v l -> lo <= v) -> list_min x l = Rmin lo x.
Proof.
  intros I H. assert (A := list_min_in x l). assert (B := list_min_le x l x (or_introl eq_refl)). assert (C := list_min_le x l lo (or_intror I)).
  unfold Rmin. destruct (Rle_dec lo x) as [D|D]; destruct A as [A|A]; [lra| |congruence|]; specialize (H _ A); lra.
Qed.
Lemma list_max_greatest x l hi : In hi l -> (forall v, In v l -> v <= hi) -> list_max x l = Rmax hi x.
Proof.
  intros I H. assert (A := list_max_in x l). assert (B := list_max_ge x l x (or_introl eq_refl)). assert (C := list_max_ge x l hi (or_intror I)).
  unfold Rmax. destruct (Rle_dec hi x) as [D|D]; destruct A as [A|A]; [congruence| |lra|]; specialize (H _ A); lra.
Qed.
Lemma bar_number_near n : Rabs (INR (bar_number n) - (sqrt (INR n) + 5)) <= 1 / 2.
Proof.
  unfold bar_number. set (x := sqrt (INR n) + 5). assert (P := sqrt_pos (INR n)). destruct (round_even_spec x) as (A & _). apply Rabs_le_inv in A.
  assert (Z0 : (0 <= round_even x)%Z) by (apply round_even_ge; unfold x; lra). rewrite INR_IZR_INZ, Z2Nat.id by exact Z0. apply Rabs_le. lra.
Qed.
Lemma extent_of x r : extent (x :: r) (list_min x r) (list_max x r).
Proof. split; [apply list_min_in|]. split; [apply list_max_in|]. intros v V. split; [now apply list_min_le|now apply list_max_ge]. Qed.

(** A histogram of trials that are not all the same can always be drawn.  It has about five bars more than the square root of the number of trials, side by side from the smallest trial to the
    largest; each is as high as there are trials in it, and together they count every trial once.  The line follows the tops of the bars.  What is shaded is the part of the histogram within one
    standard deviation of the mean, and the line of the mean ends at the top of the bar the mean is in.  All trials and the value measured are within the axes, at least a bar away from the ends;
    the measured value is marked over the whole height, which is above all bars, with its three leading figures and the percentage of the trials below it. *)
Theorem C109_histogram : forall inset m0 m s,
  calculate_stats m0 m = Ok s -> (exists a b, In a m /\ In b m /\ a <> b) ->
  exists lo hi k mn sd p,
    plot_histogram inset (length m) m s = Ok p /\
    extent m lo hi /\ lo < hi /\ average m mn /\ deviation m mn sd /\ 0 < sd /\ Rabs (INR k - (sqrt (INR (length m)) + 5)) <= 1 / 2 /\
    bars_of m lo hi k (hp_bars p) /\ fold_right Rplus 0 (map snd (hp_bars p)) = INR (length m) /\
    hp_outline p = outline_of lo hi (hp_bars p) /\
    (exists ya yb, height_right (hp_bars p) (mn - sd) ya /\ height_left (hp_bars p) (mn + sd) yb /\
       hp_shade p = (mn - sd, 0) :: (mn - sd, ya) :: inside (mn - sd) (mn + sd) (hp_outline p) ++ [(mn + sd, yb); (mn + sd, 0)]) /\
    (exists l w h, In (l, w, h) (hp_bars p) /\ l <= mn < l + w /\ hp_mean p = (mn, h)) /\
    (let w := (hi - lo) / INR k in
     let left := Rmin lo m0 - w in
     let right := Rmax hi m0 + w in
     hp_x p = (if inset then left else left - 6 / 10 * (right - left), right)) /\
    (exists top, (exists b, In b (hp_bars p) /\ snd b = top) /\ (forall b, In b (hp_bars p) -> snd b <= top) /\ 0 < top /\
       hp_y p = (0, top * (if inset then 11 / 10 else 15 / 10))) /\
    hp_measured p = (m0, hp_y p) /\
    hp_text p = (fmt_g 3 m0 ++ nl :: percentile_sigfigs (percent_below m m0) 2 ++ L "%", (m0, snd (hp_y p))).
Proof.
  intros inset m0 m s E (u & v & U & V & UV). destruct (stats_average m0 m s E) as (M0 & AV & DV & NE). destruct (C50_percentile m0 m s E) as (PC & _).
  destruct m as [|x r]; [destruct U|]. set (mm := x :: r) in *. set (lo := list_min x r). set (hi := list_max x r). assert (EX : extent mm lo hi) by apply extent_of.
  assert (LH : lo < hi). { destruct EX as (_ & _ & B). assert (B1 := B u U). assert (B2 := B v V). lra. }
  set (k := bar_number (length mm)). assert (KN := bar_number_near (length mm)). fold k in KN. assert (SP := sqrt_pos (INR (length mm))).
  assert (KR : sqrt (INR (length mm)) < INR k) by (apply Rabs_le_inv in KN; lra). assert (K : (0 < k)%nat) by (apply INR_lt; cbn [INR]; lra).
  destruct (spread_bar mm (s_mn s) (s_sd s) lo hi (INR k) AV DV EX LH KR) as (SD & WB).
  assert (MN : lo <= s_mn s <= hi) by (apply (average_between mm); [exact NE|exact AV|apply EX]).
  assert (MH : s_mn s < hi).
  { destruct MN as (_ & [MN|MN]); [exact MN|]. exfalso. destruct EX as (EX1 & _ & EX3). unfold average in AV. rewrite MN in AV.
    assert (Q : forall l, In lo l -> (forall z, In z l -> z <= hi) -> fold_right Rplus 0 l < hi * INR (length l)).
    { clear -LH. induction l as [|y l IH]; intros I B; [destruct I|]. cbn [fold_right length]. rewrite S_INR. assert (BY := B y (or_introl eq_refl)).
      assert (BL : fold_right Rplus 0 l <= hi * INR (length l)). { clear -B. assert (B' : forall z, In z l -> z <= hi) by (intros z Z; apply B; now right). clear B. induction l as [|y' l IH]; [cbn; lra|]. cbn [fold_right length]. rewrite S_INR.
        specialize (IH ltac:(intros z Z; apply B'; now right)). specialize (B' y' (or_introl eq_refl)). lra. }
      destruct I as [->|I]; [lra|]. specialize (IH I ltac:(intros z Z; apply B; now right)). lra. }
    specialize (Q mm EX1 ltac:(intros z Z; apply EX3; exact Z)). lra. }
  destruct (edge_between lo hi k K (s_mn s) (s_sd s) MN SD WB) as (e0 & E0 & EB).
  destruct (shade_drawn mm lo hi k LH K (s_mn s - s_sd s) (s_mn s + s_sd s) (s_mn s) e0 E0 EB ltac:(lra) ltac:(lra)) as (ya & yb & h & band & LI & SH & IP & HR & HL & BD & l & LB & LV).
  assert (HE : hist_edges mm k = linspace lo hi (S k)). { cbn [hist_edges mm]. fold lo hi. destruct (Reqb_spec lo hi); [lra|reflexivity]. }
  assert (BR := bars_right mm lo hi k). assert (BT := bars_total mm lo hi k LH K EX). assert (BD' := bars_drawn mm lo hi k K).
  set (w := (hi - lo) / INR k) in *. set (bars := map (fun i => (lo + INR i * w, w, INR (if Nat.eqb (S i) k then between_closed (lo + INR i * w) hi mm else between (lo + INR i * w) (lo + INR (S i) * w) mm))) (seq 0 k)) in *.
  unfold plot_histogram. fold k. rewrite HE.
  assert (LE : In lo (linspace lo hi (S k)) /\ In hi (linspace lo hi (S k)) /\ forall z, In z (linspace lo hi (S k)) -> lo <= z <= hi).
  { rewrite (edges_seq lo hi k K). fold w. assert (KP : 0 < INR k) by now apply lt_0_INR. assert (WP : 0 < w) by (apply Rdiv_lt_0_compat; lra). assert (KW : INR k * w = hi - lo) by (unfold w; field; lra). split; [|split].
    - apply in_map_iff. exists 0%nat. split; [cbn; lra|apply in_seq; lia].
    - apply in_map_iff. exists k. split; [lra|apply in_seq; lia].
    - intros z Z. apply in_map_iff in Z as (i & <- & I). apply in_seq in I. assert (0 <= INR i) by apply pos_INR. assert (INR i <= INR k) by (apply le_INR; lia).
      assert (0 <= INR i * w) by (apply Rmult_le_pos; lra). assert (INR i * w <= INR k * w) by (apply Rmult_le_compat_r; lra). lra. }
  assert (DW := diffs_seq lo hi k K). assert (HS := heights_seq mm lo hi k K). fold w in DW, HS.
  remember (linspace lo hi (S k)) as be eqn:BE. destruct be as [|b0 br]; [exfalso; destruct LE as ([] & _)|].
  destruct (diff (b0 :: br)) as [|w0 wr] eqn:DE; [exfalso; destruct k; [lia|discriminate]|]. assert (W0 : w0 = w) by (destruct k; [lia|cbn [seq map] in DW; congruence]).
  destruct (histogram (b0 :: br) (map (fun v => (v, 1)) mm)) as [|h0 hr] eqn:HH; [exfalso; destruct k; [lia|discriminate]|].
  rewrite LI, SH. cbn [bind]. rewrite IP. cbn [bind]. rewrite BD'. rewrite (list_min_least (s_m0 s) (b0 :: br) lo), (list_max_greatest (s_m0 s) (b0 :: br) hi); try apply LE; try (intros z Z; now apply LE).
  rewrite M0, PC, W0.
  assert (MB : map snd bars = h0 :: hr). { rewrite HS. unfold bars. rewrite map_map. reflexivity. }
  eexists lo, hi, k, (s_mn s), (s_sd s), _. cbn [hp_bars hp_outline hp_measured hp_text hp_shade hp_mean hp_x hp_y fst snd]. split; [reflexivity|]. split; [exact EX|]. split; [exact LH|]. split; [exact AV|].
  split; [exact DV|]. split; [exact SD|]. split; [exact KN|]. split; [exact BR|]. split; [exact BT|]. split; [reflexivity|]. split; [exists ya, yb; auto|]. split; [exists l, w, h; auto|].
  split; [reflexivity|]. split.
  { exists (list_max h0 hr). split; [|split; [|split; [|reflexivity]]].
    - assert (Q := list_max_in h0 hr). rewrite <- MB in Q. apply in_map_iff in Q as (b & B1 & B2). now exists b.
    - intros b B. apply list_max_ge. rewrite <- MB. now apply in_map.
    - apply Rnot_le_lt. intros C. assert (Q : Rsum (h0 :: hr) <= 0).
      { clear -C. assert (D : forall z, In z (h0 :: hr) -> z <= 0) by (intros z Z; apply list_max_ge in Z; lra). clear C. induction (h0 :: hr) as [|z l IH]; [cbn; lra|]. cbn [Rsum]. specialize (IH ltac:(intros y Y; apply D; now right)).
        specialize (D z (or_introl eq_refl)). lra. }
      rewrite <- MB, BT in Q. apply lt_0_INR in NE. lra. }
  split; [reflexivity|]. cbn [hp_text hp_y fst snd]. apply f_equal2; [reflexivity|]. apply f_equal2; [reflexivity|]. lra.
Qed.
Print Assumptions C109_histogram.

(** Trials that are all the same have no histogram. *)
Theorem C109_no_spread_refuted : forall inset m0 m s, calculate_stats m0 m = Ok s -> (forall a b, In a m -> In b m -> a = b) -> plot_histogram inset (length m) m s = Err ValueError.
Proof.
  intros inset m0 m s E EQ. destruct (stats_average m0 m s E) as (M0 & AV & (DV1 & DV2) & NE). assert (NP : 0 < INR (length m)) by now apply lt_0_INR.
  destruct m as [|x r]; [cbn in NE; lia|]. set (mm := x :: r) in *.
  assert (EX := extent_of x r). fold mm in EX. set (lo := list_min x r) in *. set (hi := list_max x r) in *. assert (LH : lo = hi) by (apply EQ; apply EX).
  assert (MN : s_mn s = lo). { assert (lo <= s_mn s <= hi) by (apply (average_between mm); [exact NE|exact AV|apply EX]). lra. }
  assert (SD : s_sd s = 0).
  { assert (Z : fold_right Rplus 0 (map (fun v => (v - s_mn s) ^ 2) mm) = 0).
    { assert (A : forall v, In v mm -> v = s_mn s) by (intros v V; rewrite MN; apply EQ; [exact V|apply EX]). clear -A. induction mm as [|z l IH]; [reflexivity|]. cbn [map fold_right]. rewrite IH by (intros v V; apply A; now right).
      rewrite (A z) by now left. ring. }
    rewrite Z in DV2. apply Rmult_integral in DV2 as [Q|Q]; [|lra]. apply Rsqr_0_uniq. unfold Rsqr. rewrite <- Q. ring. }
  set (k := bar_number (length mm)). assert (K : (0 < k)%nat). { assert (KN := bar_number_near (length mm)). fold k in KN. assert (SP := sqrt_pos (INR (length mm))). apply Rabs_le_inv in KN. apply INR_lt. cbn [INR]. lra. }
  unfold plot_histogram. fold k. assert (HE : hist_edges mm k = linspace (lo - 1 / 2) (hi + 1 / 2) (S k)). { cbn [hist_edges mm]. fold lo hi. destruct (Reqb_spec lo hi); [reflexivity|lra]. }
  rewrite HE. assert (DW := diffs_seq (lo - 1 / 2) (hi + 1 / 2) k K). assert (HS := heights_seq mm (lo - 1 / 2) (hi + 1 / 2) k K). assert (ES := edges_seq (lo - 1 / 2) (hi + 1 / 2) k K).
  remember (linspace (lo - 1 / 2) (hi + 1 / 2) (S k)) as be eqn:BE. destruct be as [|b0 br]; [discriminate|].
  destruct (diff (b0 :: br)) as [|w0 wr]; [exfalso; destruct k; [lia|discriminate]|].
  destruct (histogram (b0 :: br) (map (fun v => (v, 1)) mm)) as [|h0 hr]; [exfalso; destruct k; [lia|discriminate]|].
  unfold shade. cbn [fst snd]. rewrite SD, filter_none; [reflexivity|]. intros p _. destruct (Rltb_spec (s_mn s - 0) (fst p)), (Rltb_spec (fst p) (s_mn s + 0)); try reflexivity. lra.
Qed.
Print Assumptions C109_no_spread_refuted.

(** The ticks are all multiples of a step of one, two or five times a power of ten strictly between the ends of the axis: one, two or three of them.  Each has its value to six figures, the last
    with the unit behind it and two spaces for each of its characters before it. *)
Theorem C109_ticks : forall m2cnd lo hi, lo < hi ->
  exists fuel first step n labels,
    (forall k, (fuel <= k)%nat -> histogram_ticks k m2cnd (lo, hi) = Some (Ok (multiples first step n, labels))) /\
    nice_number step /\ 0 < step /\ (1 <= n <= 3)%nat /\
    (forall z, lo < IZR z * step < hi <-> (first <= z < first + Z.of_nat n)%Z) /\
    length labels = n /\
    (forall i, (S i < n)%nat -> nth_error labels i = Some (fmt_g 6 (IZR (first + Z.of_nat i) * step))) /\
    exists t, t = fmt_g 6 (IZR (first + Z.of_nat n - 1) * step) /\
      nth_error labels (n - 1) = Some (repeat (ch " ") (2 * length t) ++ t ++ (if m2cnd then L " km" else L " km" ++ bytes [194; 178]%nat)).
Proof.
  intros m2cnd lo hi LH. destruct (C43_ticks [lo; hi] (Some 5%Z)) as (fuel & first & step & n & T & NI & SP & (N1 & N2) & N3 & IN & F1 & L1); [exists lo, hi; cbn; auto|left; cbn; lia|].
  change (wanted (Some 5%Z)) with 5%Z in *. assert (N4 : (3 <= n)%nat). { apply INR_le. destruct (le_lt_dec 3 n) as [Q|Q]; [now apply le_INR|]. exfalso. assert (n <= 2)%nat by lia. apply le_INR in H. cbn in H. lra. }
  assert (LO := IN lo ltac:(cbn; auto)). assert (HI := IN hi ltac:(cbn; auto)).
  assert (F2 : lo < IZR (first + 1) * step). { destruct F1 as (v & [<-|[<-|[]]] & Q); lra. }
  assert (L2 : IZR (first + Z.of_nat n - 2) * step < hi). { destruct L1 as (v & [<-|[<-|[]]] & Q); lra. }
  assert (MO : forall a b, (a <= b)%Z -> IZR a * step <= IZR b * step) by (intros a b H; apply Rmult_le_compat_r; [lra|now apply IZR_le]).
  assert (IFF : forall z, lo < IZR z * step < hi <-> (first + 1 <= z < first + 1 + Z.of_nat (n - 2))%Z).
  { intros z. split.
    - intros H. split.
      + destruct (Z_lt_le_dec z (first + 1)) as [C|C]; [|exact C]. assert (Q := MO z first ltac:(lia)). lra.
      + destruct (Z_lt_le_dec z (first + 1 + Z.of_nat (n - 2))) as [C|C]; [exact C|]. assert (Q := MO (first + Z.of_nat n - 1)%Z z ltac:(lia)). lra.
    - intros H. assert (Q1 := MO (first + 1)%Z z ltac:(lia)). assert (Q2 := MO z (first + Z.of_nat n - 2)%Z ltac:(lia)). lra. }
  assert (FL : filter (fun e => Rltb lo e && Rltb e hi) (multiples first step n) = multiples (first + 1) step (n - 2)).
  { unfold multiples. replace n with (1 + ((n - 2) + 1))%nat at 1 by lia. rewrite !seq_app, !map_app, !filter_app. cbn [seq map Nat.add].
    rewrite (filter_none _ [_]), (filter_every _ (map _ (seq 1 (n - 2)))), (filter_none _ [_]).
    - cbn [app]. rewrite app_nil_r. rewrite <- seq_shift, map_map. apply map_ext. intros j. f_equal. f_equal. lia.
    - intros x [<-|[]]. match goal with |- _ && Rltb ?y hi = false => replace y with (IZR (first + Z.of_nat n - 1) * step) by (do 2 f_equal; lia) end. rewrite (Rltb_false _ hi) by lra. apply andb_false_r.
    - intros x X. apply in_map_iff in X as (j & <- & J). apply in_seq in J. assert (Q : lo < IZR (first + Z.of_nat j) * step < hi) by (apply IFF; lia). now rewrite !Rltb_true by apply Q.
    - intros x [<-|[]]. replace (first + Z.of_nat 0)%Z with first by lia. now rewrite Rltb_false by lra. }
  assert (RE : exists r, rev (map (fmt_g 6) (multiples (first + 1) step (n - 2))) = fmt_g 6 (IZR (first + 1 + Z.of_nat (n - 2) - 1) * step) :: r /\ r = rev (map (fmt_g 6) (multiples (first + 1) step (n - 3)))).
  { unfold multiples. assert (SQ : seq 0 (n - 2) = seq 0 (n - 3) ++ [(n - 3)%nat]) by (replace (n - 2)%nat with (S (n - 3)) by lia; apply seq_S). rewrite SQ, !map_app, rev_app_distr. cbn [seq map rev app]. eexists. split; [|reflexivity]. f_equal. f_equal. f_equal. f_equal. lia. }
  destruct RE as (r & RE & RR). set (t := fmt_g 6 (IZR (first + 1 + Z.of_nat (n - 2) - 1) * step)) in *.
  assert (SPC : concat (repeat (L "  ") (length t)) = repeat (ch " ") (2 * length t)). { induction (length t) as [|q IH]; [reflexivity|]. replace (2 * S q)%nat with (S (S (2 * q))) by lia. cbn [repeat concat]. rewrite IH. reflexivity. }
  exists fuel, (first + 1)%Z, step, (n - 2)%nat, (map (fmt_g 6) (multiples (first + 1) step (n - 3)) ++ [repeat (ch " ") (2 * length t) ++ t ++ (if m2cnd then L " km" else L " km" ++ bytes [194; 178]%nat)]).
  assert (ML : length (map (fmt_g 6) (multiples (first + 1) step (n - 3))) = (n - 3)%nat) by (unfold multiples; now rewrite !map_length, seq_length).
  split.
  { intros k KF. unfold histogram_ticks. cbn [fst snd]. rewrite (T k KF), FL. unfold hist_labels. rewrite RE. cbn [bind]. rewrite SPC. cbn [rev]. rewrite RR, rev_involutive. reflexivity. }
  split; [exact NI|]. split; [exact SP|]. split; [lia|]. split; [exact IFF|]. split; [rewrite app_length, ML; cbn; lia|]. split.
  { intros i I. rewrite nth_error_app1 by (rewrite ML; lia). unfold multiples. rewrite map_map, nth_error_map, (nth_error_nth' _ 0%nat) by (rewrite seq_length; lia). rewrite seq_nth by lia. reflexivity. }
  exists t. split; [reflexivity|]. rewrite nth_error_app2 by (rewrite ML; lia). rewrite ML. replace (n - 2 - 1 - (n - 3))%nat with 0%nat by lia. reflexivity.
Qed.
Print Assumptions C109_ticks.
Example C109_hypotheses_met :
  (exists s, calculate_stats 3 [1; 2; 4; 2] = Ok s) /\ (exists a b, In a [1; 2; 4; 2] /\ In b [1; 2; 4; 2] /\ a <> b) /\
  (exists s, calculate_stats 3 [2; 2] = Ok s) /\ (forall a b, In a [2; 2] -> In b [2; 2] -> a = b).
Proof.
  split; [eexists; reflexivity|]. split; [exists 1, 2; cbn; repeat split; auto; lra|]. split; [eexists; reflexivity|]. cbn. intros a b [<-|[<-|[]]] [<-|[<-|[]]]; reflexivity.
Qed.
