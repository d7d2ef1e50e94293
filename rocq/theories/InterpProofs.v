(** Facts about linear interpolation in a table, and about linspace. *)
From Coq Require Import List ZArith Reals Lra Lia Bool Sorted.
From Verif Require Import Base NumModel NumLemmas.
Import ListNotations.
Local Open Scope R_scope.

Lemma SS_of_nth {A} (P : A -> A -> Prop) d (l : list A) :
  (forall i j, (i < j < length l)%nat -> P (nth i l d) (nth j l d)) -> StronglySorted P l.
Proof.
  induction l as [|x l IH]; intros H; [constructor|]. constructor.
  - apply IH. intros i j Hij. apply (H (S i) (S j)). cbn. lia.
  - apply Forall_forall. intros y Hy. destruct (In_nth _ _ d Hy) as (k & Hk & <-).
    apply (H 0%nat (S k)). cbn. lia.
Qed.
Lemma SS_nth {A} (P : A -> A -> Prop) d (l : list A) :
  StronglySorted P l -> forall i j, (i < j < length l)%nat -> P (nth i l d) (nth j l d).
Proof.
  induction 1 as [|x l S IH F]; intros i j Hij; [cbn in Hij; lia|].
  destruct i as [|i], j as [|j]; cbn in *; try lia.
  - rewrite Forall_forall in F. apply F, nth_In. lia.
  - apply IH. lia.
Qed.
Lemma SS_nth_le d l : StronglySorted Rle l -> forall i j, (i <= j < length l)%nat -> nth i l d <= nth j l d.
Proof.
  intros S i j Hij. destruct (Nat.eq_dec i j) as [->|N]; [lra|].
  apply (SS_nth Rle d l S). lia.
Qed.
Lemma SS_lt_le l : StronglySorted Rlt l -> StronglySorted Rle l.
Proof.
  induction 1; constructor; auto. eapply Forall_impl; [|exact H0]. cbn. intros; lra.
Qed.
Lemma SS_map {A B} (P : A -> A -> Prop) (Q : B -> B -> Prop) (f : A -> B) l :
  (forall a b, P a b -> Q (f a) (f b)) -> StronglySorted P l -> StronglySorted Q (map f l).
Proof.
  intros H. induction 1; cbn; constructor; auto.
  apply Forall_map. eapply Forall_impl; [|exact H1]. intros; auto.
Qed.

Lemma map_fst_combine' {A B} (l : list A) (m : list B) : length l = length m -> map fst (combine l m) = l.
Proof. revert m. induction l as [|x l IH]; intros [|y m] H; cbn in *; try lia; auto. now rewrite IH by lia. Qed.
Lemma map_snd_combine' {A B} (l : list A) (m : list B) : length l = length m -> map snd (combine l m) = m.
Proof. revert m. induction l as [|x l IH]; intros [|y m] H; cbn in *; try lia; auto. now rewrite IH by lia. Qed.

(** the segment that is used *)
Lemma interp_from_segment x0 y0 r v :
  StronglySorted Rle (x0 :: map fst r) -> x0 <= v ->
  exists j, (j <= length r)%nat /\ fst (nth j ((x0, y0) :: r) (0, 0)) <= v /\
    ((j < length r)%nat ->
       v < fst (nth (S j) ((x0, y0) :: r) (0, 0)) /\
       interp_from x0 y0 r v =
         snd (nth j ((x0, y0) :: r) (0, 0)) +
         (snd (nth (S j) ((x0, y0) :: r) (0, 0)) - snd (nth j ((x0, y0) :: r) (0, 0))) /
         (fst (nth (S j) ((x0, y0) :: r) (0, 0)) - fst (nth j ((x0, y0) :: r) (0, 0))) *
         (v - fst (nth j ((x0, y0) :: r) (0, 0)))) /\
    (j = length r -> interp_from x0 y0 r v = snd (nth j ((x0, y0) :: r) (0, 0))).
Proof.
  revert x0 y0. induction r as [|[x1 y1] r IH]; intros x0 y0 S Hv.
  - exists 0%nat. cbn. repeat split; auto; try lia.
  - cbn [interp_from]. destruct (Rltb_spec v x1) as [L|L].
    + exists 0%nat. cbn. repeat split; auto; try lia; try lra.
    + inversion S as [|? ? S1 F]; subst. cbn [map fst] in S1.
      destruct (IH x1 y1 S1 ltac:(lra)) as (j & J1 & J2 & J3 & J4).
      exists (Datatypes.S j). cbn [length]. repeat split; try lia.
      * exact J2.
      * apply J3. lia.
      * apply J3. lia.
      * intros E. apply J4. lia.
Qed.

Lemma interp_segment tbl v :
  StronglySorted Rle (map fst tbl) -> tbl <> [] -> fst (nth 0 tbl (0, 0)) <= v ->
  exists j, (j < length tbl)%nat /\ fst (nth j tbl (0, 0)) <= v /\
    ((S j < length tbl)%nat ->
       v < fst (nth (S j) tbl (0, 0)) /\
       interp v tbl = Ok (snd (nth j tbl (0, 0)) +
         (snd (nth (S j) tbl (0, 0)) - snd (nth j tbl (0, 0))) /
         (fst (nth (S j) tbl (0, 0)) - fst (nth j tbl (0, 0))) * (v - fst (nth j tbl (0, 0))))) /\
    (S j = length tbl -> interp v tbl = Ok (snd (nth j tbl (0, 0)))).
Proof.
  destruct tbl as [|[x0 y0] r]; [congruence|]. intros S _ Hv. cbn [nth fst] in Hv. cbn [map fst] in S.
  destruct (interp_from_segment x0 y0 r v S Hv) as (j & J1 & J2 & J3 & J4).
  exists j. cbn [length]. unfold interp. rewrite (Rltb_false v x0) by lra.
  split; [lia|]. split; [exact J2|]. split.
  - intros L. destruct (J3 ltac:(lia)) as [A B]. split; [exact A|]. now rewrite B.
  - intros E. f_equal. apply J4. lia.
Qed.

(** the segment is determined by the abscissa *)
Lemma interp_at tbl v j :
  StronglySorted Rle (map fst tbl) -> (S j < length tbl)%nat ->
  fst (nth j tbl (0, 0)) <= v < fst (nth (S j) tbl (0, 0)) ->
  interp v tbl = Ok (snd (nth j tbl (0, 0)) +
         (snd (nth (S j) tbl (0, 0)) - snd (nth j tbl (0, 0))) /
         (fst (nth (S j) tbl (0, 0)) - fst (nth j tbl (0, 0))) * (v - fst (nth j tbl (0, 0)))).
Proof.
  intros S Hj Hv.
  assert (N : tbl <> []) by (intros ->; cbn in Hj; lia).
  assert (M : forall i k, (i <= k < length tbl)%nat -> fst (nth i tbl (0,0)) <= fst (nth k tbl (0,0))).
  { intros i k H. rewrite <- (map_nth fst), <- (map_nth fst tbl _ k).
    apply SS_nth_le; [exact S|now rewrite map_length]. }
  destruct (interp_segment tbl v S N) as (k & K1 & K2 & K3 & K4).
  { specialize (M 0%nat j ltac:(lia)). lra. }
  assert (k = j).
  { destruct (Nat.lt_trichotomy k j) as [L|[L|L]]; [|exact L|].
    - destruct (K3 ltac:(lia)) as [A _]. specialize (M (Datatypes.S k) j ltac:(lia)). lra.
    - specialize (M (Datatypes.S j) k ltac:(lia)). lra. }
  subst k. apply K3. lia.
Qed.
Lemma interp_beyond tbl v :
  StronglySorted Rle (map fst tbl) -> tbl <> [] -> fst (nth (length tbl - 1) tbl (0, 0)) <= v ->
  interp v tbl = Ok (snd (nth (length tbl - 1) tbl (0, 0))).
Proof.
  intros S N Hv.
  assert (0 < length tbl)%nat by (destruct tbl; cbn; [congruence|lia]).
  assert (M : forall i k, (i <= k < length tbl)%nat -> fst (nth i tbl (0,0)) <= fst (nth k tbl (0,0))).
  { intros i k H0. rewrite <- (map_nth fst), <- (map_nth fst tbl _ k).
    apply SS_nth_le; [exact S|now rewrite map_length]. }
  destruct (interp_segment tbl v S N) as (k & K1 & K2 & K3 & K4).
  { specialize (M 0%nat (length tbl - 1)%nat ltac:(lia)). lra. }
  destruct (Nat.eq_dec (Datatypes.S k) (length tbl)) as [E|E].
  - rewrite (K4 E). do 3 f_equal. lia.
  - destruct (K3 ltac:(lia)) as [A _]. specialize (M (Datatypes.S k) (length tbl - 1)%nat ltac:(lia)). lra.
Qed.
Lemma interp_below tbl v : tbl <> [] -> v < fst (nth 0 tbl (0, 0)) -> interp v tbl = Ok (snd (nth 0 tbl (0, 0))).
Proof.
  destruct tbl as [|[x0 y0] r]; [congruence|]. cbn. intros _ H. now rewrite (Rltb_true v x0 H).
Qed.

Lemma interp_total v tbl : tbl <> [] -> exists y, interp v tbl = Ok y.
Proof.
  destruct tbl as [|[x0 y0] r]; [congruence|]. intros _. cbn. destruct (Rltb v x0); eauto.
Qed.

Lemma slope_bounds x0 y0 x1 y1 v : x0 <= v < x1 -> y0 <= y1 ->
  y0 <= y0 + (y1 - y0) / (x1 - x0) * (v - x0) <= y1.
Proof.
  intros H1 H2.
  replace ((y1 - y0) / (x1 - x0) * (v - x0)) with ((y1 - y0) * ((v - x0) / (x1 - x0))) by (field; lra).
  assert (0 <= (v - x0) / (x1 - x0) <= 1).
  { split; [apply Rmult_le_pos; [lra|left; apply Rinv_0_lt_compat; lra]|].
    apply (Rmult_le_reg_r (x1 - x0)); [lra|]. replace ((v - x0) / (x1 - x0) * (x1 - x0)) with (v - x0) by (field; lra). lra. }
  nra.
Qed.
Lemma slope_lt x0 y0 x1 y1 v : x0 <= v < x1 -> y0 < y1 ->
  y0 + (y1 - y0) / (x1 - x0) * (v - x0) < y1.
Proof.
  intros H1 H2.
  replace ((y1 - y0) / (x1 - x0) * (v - x0)) with ((y1 - y0) * ((v - x0) / (x1 - x0))) by (field; lra).
  assert ((v - x0) / (x1 - x0) < 1).
  { apply (Rmult_lt_reg_r (x1 - x0)); [lra|]. replace ((v - x0) / (x1 - x0) * (x1 - x0)) with (v - x0) by (field; lra). lra. }
  nra.
Qed.

Lemma interp_from_range x0 y0 r v :
  StronglySorted Rle (x0 :: map fst r) -> StronglySorted Rle (y0 :: map snd r) -> x0 <= v ->
  y0 <= interp_from x0 y0 r v <= last (map snd r) y0.
Proof.
  revert x0 y0 v. induction r as [|[x1 y1] r IH]; intros x0 y0 v SX SY Hv; [cbn; lra|].
  inversion SX as [|? ? SX1 FX]; inversion SY as [|? ? SY1 FY]; subst. cbn [map fst snd] in *.
  assert (H01 : y0 <= y1) by (inversion FY; auto).
  assert (HL : last (y1 :: map snd r) y0 = last (map snd r) y1).
  { clear. revert y0 y1. induction (map snd r) as [|a l IH]; intros; [reflexivity|].
    transitivity (last (a :: l) y0); [reflexivity|]. rewrite IH. symmetry. rewrite IH. reflexivity. }
  cbn [map snd]. rewrite HL. cbn [interp_from].
  destruct (Rltb_spec v x1) as [L|L].
  - pose proof (slope_bounds x0 y0 x1 y1 v ltac:(lra) H01) as B.
    pose proof (IH x1 y1 x1 SX1 SY1 ltac:(lra)). lra.
  - pose proof (IH x1 y1 v SX1 SY1 ltac:(lra)). lra.
Qed.
Lemma interp_from_mono x0 y0 r v w :
  StronglySorted Rle (x0 :: map fst r) -> StronglySorted Rle (y0 :: map snd r) -> x0 <= v <= w ->
  interp_from x0 y0 r v <= interp_from x0 y0 r w.
Proof.
  revert x0 y0. induction r as [|[x1 y1] r IH]; intros x0 y0 SX SY Hv; [cbn; lra|].
  inversion SX as [|? ? SX1 FX]; inversion SY as [|? ? SY1 FY]; subst. cbn [map fst snd] in *.
  assert (H01 : y0 <= y1) by (inversion FY; auto).
  cbn [interp_from]. destruct (Rltb_spec v x1) as [L|L], (Rltb_spec w x1) as [M|M]; try lra.
  - apply Rplus_le_compat_l, Rmult_le_compat_l; [|lra].
    apply Rmult_le_pos; [lra|left; apply Rinv_0_lt_compat; lra].
  - pose proof (slope_bounds x0 y0 x1 y1 v ltac:(lra) H01) as B.
    pose proof (interp_from_range x1 y1 r w SX1 SY1 ltac:(lra)). lra.
  - apply IH; auto. lra.
Qed.
Lemma interp_from_lt x0 y0 r v w :
  StronglySorted Rlt (x0 :: map fst r) -> StronglySorted Rlt (y0 :: map snd r) -> x0 <= v < w ->
  v < last (map fst r) x0 ->
  interp_from x0 y0 r v < interp_from x0 y0 r w.
Proof.
  revert x0 y0. induction r as [|[x1 y1] r IH]; intros x0 y0 SX SY Hv HL; [cbn in HL; lra|].
  inversion SX as [|? ? SX1 FX]; inversion SY as [|? ? SY1 FY]; subst. cbn [map fst snd] in *.
  assert (H01 : y0 < y1) by (inversion FY; auto).
  assert (HE : last (x1 :: map fst r) x0 = last (map fst r) x1).
  { clear. revert x0 x1. induction (map fst r) as [|a l IH]; intros; [reflexivity|].
    transitivity (last (a :: l) x0); [reflexivity|]. rewrite IH. symmetry. rewrite IH. reflexivity. }
  cbn [interp_from]. destruct (Rltb_spec v x1) as [L|L], (Rltb_spec w x1) as [M|M]; try lra.
  - apply Rplus_lt_compat_l, Rmult_lt_compat_l; [|lra].
    apply Rmult_lt_0_compat; [lra|apply Rinv_0_lt_compat; lra].
  - pose proof (slope_lt x0 y0 x1 y1 v ltac:(lra) H01) as B.
    pose proof (interp_from_range x1 y1 r w (SS_lt_le _ SX1) (SS_lt_le _ SY1) ltac:(lra)). lra.
  - apply IH; auto; try lra.
Qed.

Lemma last_nth_R (l : list R) d : last l d = nth (length l - 1) l d.
Proof.
  induction l as [|x l IH]; [reflexivity|]. destruct l as [|y l]; [reflexivity|].
  transitivity (last (y :: l) d); [reflexivity|]. rewrite IH. cbn [length nth]. 
  replace (S (length l) - 1)%nat with (length l) by lia.
  replace (S (S (length l)) - 1)%nat with (S (length l)) by lia. reflexivity.
Qed.

Lemma interp_range tbl v y :
  StronglySorted Rle (map fst tbl) -> StronglySorted Rle (map snd tbl) -> interp v tbl = Ok y ->
  snd (nth 0 tbl (0, 0)) <= y <= snd (nth (length tbl - 1) tbl (0, 0)).
Proof.
  destruct tbl as [|[x0 y0] r]; [discriminate|]. intros SX SY. cbn [map fst snd] in *.
  assert (HL : snd (nth (length ((x0, y0) :: r) - 1) ((x0, y0) :: r) (0, 0)) = last (map snd r) y0).
  { rewrite <- (map_nth snd). cbn [map snd]. rewrite last_nth_R. cbn [length].
    rewrite Nat.sub_succ, Nat.sub_0_r, map_length.
    destruct r as [|p r]; [reflexivity|]. cbn [length]. cbn [nth].
    rewrite Nat.sub_succ, Nat.sub_0_r. apply nth_indep. cbn. rewrite map_length. lia. }
  rewrite HL. unfold interp. destruct (Rltb_spec v x0) as [L|L]; intros E; injection E as <-; cbn [nth snd].
  - split; [lra|]. rewrite <- HL.
    assert (M := SS_nth_le 0 (y0 :: map snd r) SY 0 (length r)). cbn [length nth] in M. rewrite map_length in M.
    specialize (M ltac:(lia)). rewrite <- (map_nth snd). cbn [map snd length]. rewrite Nat.sub_succ, Nat.sub_0_r. exact M.
  - apply interp_from_range; auto. lra.
Qed.
Lemma interp_mono tbl v w y z :
  StronglySorted Rle (map fst tbl) -> StronglySorted Rle (map snd tbl) -> v <= w ->
  interp v tbl = Ok y -> interp w tbl = Ok z -> y <= z.
Proof.
  intros SX SY H E F. pose proof (interp_range _ _ _ SX SY F) as B.
  destruct tbl as [|[x0 y0] r]; [discriminate|]. cbn [nth snd] in B. unfold interp in *.
  destruct (Rltb_spec v x0) as [L|L]; injection E as <-; [lra|].
  rewrite (Rltb_false w x0) in F by lra. injection F as <-. apply interp_from_mono; auto. lra.
Qed.
Lemma interp_lt tbl v w y z :
  StronglySorted Rlt (map fst tbl) -> StronglySorted Rlt (map snd tbl) -> v < w ->
  fst (nth 0 tbl (0, 0)) <= v -> v < fst (nth (length tbl - 1) tbl (0, 0)) ->
  interp v tbl = Ok y -> interp w tbl = Ok z -> y < z.
Proof.
  destruct tbl as [|[x0 y0] r]; [discriminate|]. intros SX SY H H0 HL. cbn [map fst snd] in SX, SY. cbn [nth fst] in H0.
  unfold interp. rewrite (Rltb_false v x0), (Rltb_false w x0) by lra. intros E F; injection E as <-; injection F as <-.
  apply interp_from_lt; auto.
  rewrite <- (map_nth fst) in HL. cbn [map fst length] in HL. rewrite Nat.sub_succ, Nat.sub_0_r in HL.
  rewrite last_nth_R, map_length. destruct r as [|p r]; [exact HL|].
  cbn [length] in *. rewrite Nat.sub_succ, Nat.sub_0_r. cbn [nth] in HL.
  erewrite nth_indep; [exact HL|]. cbn. rewrite map_length. lia.
Qed.

(** linspace *)
Lemma linspace_length a b n : length (linspace a b n) = n.
Proof. unfold linspace. now rewrite map_length, seq_length. Qed.
Lemma linspace_nth a b n i d : (i < n)%nat -> nth i (linspace a b n) d = a + INR i * ((b - a) / INR (n - 1)).
Proof. intros H. unfold linspace. now rewrite nth_map_seq. Qed.
Lemma linspace_first a b n d : (0 < n)%nat -> nth 0 (linspace a b n) d = a.
Proof. intros H. rewrite linspace_nth by exact H. cbn [INR]. lra. Qed.
Lemma linspace_last a b n d : (1 < n)%nat -> nth (n - 1) (linspace a b n) d = b.
Proof.
  intros H. rewrite linspace_nth by lia.
  assert (0 < INR (n - 1)) by (apply lt_0_INR; lia). field. lra.
Qed.
Lemma linspace_sorted a b n : a < b -> StronglySorted Rlt (linspace a b n).
Proof.
  intros H. apply (SS_of_nth Rlt 0). rewrite linspace_length. intros i j Hij.
  rewrite !linspace_nth by lia. apply Rplus_lt_compat_l.
  assert (0 < INR (n - 1)) by (apply lt_0_INR; lia).
  apply Rmult_lt_compat_r; [apply Rmult_lt_0_compat; [lra|now apply Rinv_0_lt_compat]|].
  apply lt_INR. lia.
Qed.
Lemma linspace_step a b n i d : (S i < n)%nat ->
  nth (S i) (linspace a b n) d - nth i (linspace a b n) d = (b - a) / INR (n - 1).
Proof. intros H. rewrite !linspace_nth by lia. rewrite S_INR. lra. Qed.
Lemma linspace_In a b n x : a < b -> In x (linspace a b n) -> a <= x <= b.
Proof.
  intros H Hx. destruct (In_nth _ _ 0 Hx) as (i & Hi & <-). rewrite linspace_length in Hi.
  pose proof (SS_nth_le 0 _ (SS_lt_le _ (linspace_sorted a b n H))) as M. rewrite linspace_length in M.
  destruct (Nat.eq_dec n 1) as [->|N].
  - replace i with 0%nat by lia. rewrite linspace_first by lia. lra.
  - rewrite <- (linspace_first a b n 0) at 1 by lia. rewrite <- (linspace_last a b n 0) at 4 by lia.
    split; apply M; lia.
Qed.
