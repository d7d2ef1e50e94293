(** Age distributions in order: more craters, or less area, never give a younger age. *)
From Coq Require Import String List ZArith Reals Lra Lia Bool Permutation Sorted.
From Verif Require Import Base NumModel NumLemmas BinModel InterpProofs ChronModel ChronSpec ChronProofs PdfModel PdfSpec PdfProofs PdfProps.
Import ListNotations.
Local Open Scope R_scope.

(** ** Sums of weights whose ratio grows *)
Section Ratio.
Variables (w v : nat -> R) (n : nat).
Hypothesis Hr : forall i j, (i <= j < n)%nat -> v i * w j <= v j * w i.
Lemma ratio_one m j : (m <= j)%nat -> (j < n)%nat -> sum_to v m * w j <= v j * sum_to w m.
Proof. intros A B. induction m as [|m IH]; [cbn; lra|]. cbn [sum_to]. specialize (IH ltac:(lia)). pose proof (Hr m j ltac:(lia)). lra. Qed.
Lemma ratio_tail m d : (m + d <= n)%nat -> sum_to v m * (sum_to w (m + d) - sum_to w m) <= sum_to w m * (sum_to v (m + d) - sum_to v m).
Proof.
  induction d as [|d IH]; intros A; [rewrite Nat.add_0_r; lra|]. rewrite Nat.add_succ_r. cbn [sum_to]. specialize (IH ltac:(lia)). pose proof (ratio_one m (m + d) ltac:(lia) ltac:(lia)). lra.
Qed.
Lemma ratio_order m : (m <= n)%nat -> sum_to w n = 1 -> sum_to v n = 1 -> sum_to v m <= sum_to w m.
Proof. intros A W V. pose proof (ratio_tail m (n - m) ltac:(lia)) as T. replace (m + (n - m))%nat with n in T by lia. rewrite W, V in T. lra. Qed.
End Ratio.

Lemma Forall2_len {A B} (P : A -> B -> Prop) l m : Forall2 P l m -> length l = length m.
Proof. induction 1; cbn; congruence. Qed.

(** ** Linear interpolation between the same values at smaller places *)
Lemma fraction_order a b a' b' f : a <= f -> f < b -> a' <= a -> b' <= b -> f < b' -> (f - a) / (b - a) <= (f - a') / (b' - a').
Proof.
  intros H1 H2 H3 H4 H5. apply Rle_trans with ((f - a') / (b - a')).
  - apply (Rmult_le_reg_r ((b - a) * (b - a'))); [apply Rmult_lt_0_compat; lra|]. replace ((f - a) / (b - a) * ((b - a) * (b - a'))) with ((f - a) * (b - a')) by (field; lra). replace ((f - a') / (b - a') * ((b - a) * (b - a'))) with ((f - a') * (b - a)) by (field; lra). nra.
  - unfold Rdiv. apply Rmult_le_compat_l; [lra|]. apply Rinv_le_contravar; lra.
Qed.
Lemma interp_from_ge x0 y0 r v : Forall (fun q => y0 <= snd q) r -> StronglySorted Rle (map snd r) -> StronglySorted Rle (x0 :: map fst r) -> x0 <= v -> y0 <= interp_from x0 y0 r v.
Proof.
  revert x0 y0. induction r as [|[x1 y1] r IH]; intros x0 y0 F SY X L0; cbn [interp_from]; [lra|]. inversion F as [|? ? F1 F2]; subst. cbn [snd fst map] in *. destruct (Rltb_spec v x1) as [A|A].
  - assert (0 <= (y1 - y0) / (x1 - x0) * (v - x0)); [|lra]. apply Rmult_le_pos; [|lra]. apply Rmult_le_pos; [lra|]. left. apply Rinv_0_lt_compat. lra.
  - apply StronglySorted_inv in SY. destruct SY as [S1 S2]. apply Rle_trans with y1; [exact F1|]. apply IH; [|exact S1| |lra].
    + apply Forall_forall. intros q I. apply (proj1 (Forall_forall _ _) S2). now apply in_map.
    + now apply StronglySorted_inv in X.
Qed.
(** [xs] are the larger places *)
Lemma interp_order ys : forall xs xs' v r r', StronglySorted Rle ys -> StronglySorted Rle xs -> StronglySorted Rle xs' -> Forall2 Rle xs' xs -> length ys = length xs ->
  interp v (combine xs ys) = Ok r -> interp v (combine xs' ys) = Ok r' -> r <= r'.
Proof.
  assert (Q : forall ys xs xs' x0 x0' y0 v, StronglySorted Rle (y0 :: ys) -> StronglySorted Rle (x0 :: xs) -> StronglySorted Rle (x0' :: xs') -> Forall2 Rle xs' xs -> length ys = length xs ->
    x0' <= x0 -> x0 <= v -> interp_from x0 y0 (combine xs ys) v <= interp_from x0' y0 (combine xs' ys) v).
  { clear ys. induction ys as [|y1 ys IH]; intros xs xs' x0 x0' y0 v SY SX SX' F Le L0 Lv.
    - destruct xs; [|discriminate]. inversion F; subst. cbn. lra.
    - destruct xs as [|x1 xs]; [discriminate|]. inversion F as [|x1' ? xs'' ? F1 F2]; subst. cbn [combine interp_from].
      pose proof SY as SY0. apply StronglySorted_inv in SY. destruct SY as [SY1 SY2]. inversion SY2 as [|? ? Y1 _]; subst. apply StronglySorted_inv in SX. destruct SX as [SX1 _]. apply StronglySorted_inv in SX'. destruct SX' as [SX1' _].
      destruct (Rltb_spec v x1) as [A|A].
      + destruct (Rltb_spec v x1') as [B|B].
        * pose proof (fraction_order x0 x1 x0' x1' v Lv A L0 F1 B) as FO. unfold Rdiv in *. nra.
        * apply Rle_trans with y1.
          -- pose proof (slope_bounds x0 y0 x1 y1 v ltac:(lra) ltac:(lra)). lra.
          -- apply interp_from_ge; [| |rewrite map_fst_combine'; [exact SX1'|]|lra].
             ++ apply Forall_forall. intros [a b] I. apply in_combine_r in I. cbn [snd]. apply StronglySorted_inv in SY1. destruct SY1 as [_ S2]. now apply (proj1 (Forall_forall _ _) S2).
             ++ rewrite map_snd_combine'; [now apply StronglySorted_inv in SY1|]. apply Forall2_len in F2. cbn in Le. lia.
             ++ apply Forall2_len in F2. cbn in Le. lia.
      + destruct (Rltb_spec v x1') as [B|B]; [lra|]. cbn [length] in Le. apply IH; auto; lra. }
  intros xs xs' v r r' SY SX SX' F Le E E'. destruct ys as [|y0 ys]; destruct xs as [|x0 xs]; try discriminate. inversion F as [|x0' ? xs'' ? F1 F2]; subst. cbn [combine interp] in E, E'.
  destruct (Rltb_spec v x0) as [A|A].
  - injection E as <-. destruct (Rltb_spec v x0') as [B|B]; injection E' as <-; [lra|]. apply StronglySorted_inv in SY. destruct SY as [SY1 SY2]. apply Forall2_len in F2. cbn in Le.
    apply interp_from_ge; [| |rewrite map_fst_combine' by lia; exact SX'|lra].
    + apply Forall_forall. intros [a b] I. apply in_combine_r in I. now apply (proj1 (Forall_forall _ _) SY2).
    + rewrite map_snd_combine' by lia. exact SY1.
  - destruct (Rltb_spec v x0') as [B|B]; [lra|]. injection E as <-. injection E' as <-. cbn [length] in Le. apply Q; auto; lra.
Qed.

(** larger values at the same places *)
Lemma interp_values xs : forall ys ys' v r r', StronglySorted Rle xs -> Forall2 Rle ys' ys -> length ys = length xs ->
  interp v (combine xs ys) = Ok r -> interp v (combine xs ys') = Ok r' -> r' <= r.
Proof.
  assert (Q : forall xs ys ys' x0 y0 y0' v, StronglySorted Rle (x0 :: xs) -> Forall2 Rle ys' ys -> y0' <= y0 -> x0 <= v -> length ys = length xs -> interp_from x0 y0' (combine xs ys') v <= interp_from x0 y0 (combine xs ys) v).
  { clear xs. induction xs as [|x1 xs IH]; intros ys ys' x0 y0 y0' v SX F L0 Lv Le; [cbn; lra|]. destruct ys as [|y1 ys]; [discriminate|]. inversion F as [|y1' ? ys'' ? F1 F2]; subst. cbn [combine interp_from]. apply StronglySorted_inv in SX. destruct SX as [SX1 SX2]. inversion SX2; subst.
    destruct (Rltb_spec v x1) as [B|B].
    - assert (Hx : 0 < x1 - x0) by lra. set (g := (v - x0) / (x1 - x0)). assert (0 <= g <= 1).
      { unfold g. split; [apply Rmult_le_pos; [lra|left; now apply Rinv_0_lt_compat]|]. apply (Rmult_le_reg_r (x1 - x0)); [exact Hx|]. unfold Rdiv. rewrite Rmult_assoc, Rinv_l by lra. lra. }
      replace ((y1' - y0') / (x1 - x0) * (v - x0)) with ((y1' - y0') * g) by (unfold g; field; lra). replace ((y1 - y0) / (x1 - x0) * (v - x0)) with ((y1 - y0) * g) by (unfold g; field; lra). nra.
    - cbn [length] in Le. apply IH; auto; lra. }
  intros ys ys' v r r' SX F Le E E'. destruct xs as [|x0 xs]; destruct ys as [|y0 ys]; try discriminate. inversion F as [|y0' ? ys'' ? F1 F2]; subst. cbn [combine interp] in E, E'. cbn [length] in Le.
  destruct (Rltb_spec v x0) as [B|B]; injection E as <-; injection E' as <-; [exact F1|]. apply Q; auto; lra.
Qed.
Lemma filter_perm {A} (f : A -> bool) l m : Permutation l m -> Permutation (filter f l) (filter f m).
Proof.
  induction 1 as [|x l m _ IH|x y l|l m o _ IH1 _ IH2]; cbn [filter]; [constructor| | |now transitivity (filter f m)].
  - destruct (f x); [now constructor|exact IH].
  - destruct (f y), (f x); try constructor; reflexivity.
Qed.
Lemma Forall2_of_nth (l m : list R) : length l = length m -> (forall i, (i < length l)%nat -> nth i l 0 <= nth i m 0) -> Forall2 Rle l m.
Proof.
  revert m. induction l as [|x l IH]; intros [|y m] E H; try discriminate; constructor.
  - apply (H 0%nat). cbn. lia.
  - apply IH; [cbn in E; lia|]. intros i Hi. apply (H (S i)). cbn. lia.
Qed.

(** ** Distributions over the same ages *)
Section Order.
Variables (p q : pdf) (n : nat).
Hypothesis (Hp : distribution p n) (Hq : distribution q n) (Hn : (2 <= n)%nat) (Ht : pdf_ts p = pdf_ts q).
Hypothesis Hc : forall i, (i < n)%nat -> nth i (pdf_cdf q) 0 <= nth i (pdf_cdf p) 0.
Lemma percentile_order f : pdf_t p f <= pdf_t q f.
Proof.
  destruct (d_lengths _ _ Hp) as (A1 & A2 & A3 & A4). destruct (d_lengths _ _ Hq) as (B1 & B2 & B3 & B4).
  pose proof (pdf_t_ok p n Hp Hn f) as E. pose proof (pdf_t_ok q n Hq Hn f) as E'. rewrite <- Ht in E'.
  apply (interp_order (pdf_ts p) (pdf_cdf p) (pdf_cdf q) f); [exact (ts_sorted' p n Hp Hn)|exact (cdf_sorted p n Hp Hn)|exact (cdf_sorted q n Hq Hn)| |lia|exact E|exact E'].
  apply Forall2_of_nth; [lia|]. intros i Hi. apply Hc. lia.
Qed.
Lemma sequence_order s : distribution s n -> sequence_probability s q <= sequence_probability s p.
Proof.
  intros Hs. rewrite (sequence_sum s q n), (sequence_sum s p n) by assumption. assert (G : forall m, (m <= n)%nat -> sum_to (fun i => weight s i * ((nth i (pdf_cdf q) 0 + cdf_before q i) / 2)) m <= sum_to (fun i => weight s i * ((nth i (pdf_cdf p) 0 + cdf_before p i) / 2)) m); [|apply G; lia].
  induction m as [|m IH]; intros L; [cbn; lra|]. cbn [sum_to]. specialize (IH ltac:(lia)). pose proof (weight_nonneg s n Hs Hn m ltac:(lia)) as W. pose proof (Hc m ltac:(lia)) as C1. assert (C2 : cdf_before q m <= cdf_before p m) by (destruct m as [|m]; cbn [cdf_before]; [lra|apply Hc; lia]). nra.
Qed.
Lemma older_half : 1 / 2 <= sequence_probability q p.
Proof.
  pose proof (sequence_order q Hq) as A. pose proof (sequence_complement q q n Hq Hq Hn) as B. pose proof (weight_nonneg q n Hq Hn 0 ltac:(lia)). lra.
Qed.
End Order.
