From Coq Require Import String List ZArith Reals Lra Lia Bool Sorting.Sorted.
From Verif Require Import Base NumModel NumLemmas BinModel BinSpec BinProofs ApplyProofs ChronModel ChronSpec ChronProofs CountModel CountSpec CountProofs CountProofs2 CountProofs3.
From Verif Require Import ProdModel ProdSpec ProdProofs ProdProofs2 ProdProofs3 ProdProps PdfModel PdfSpec PdfProofs PdfProps AgeModel AgeSpec.
Import ListNotations.
Local Open Scope R_scope.

Lemma filter_map_comm {A B} (f : A -> B) (P : B -> bool) l : filter P (map f l) = map f (filter (fun x => P (f x)) l).
Proof. induction l as [|x l IH]; [reflexivity|]. cbn. destruct (P (f x)); cbn; now rewrite IH. Qed.

Lemma where_pos_from_sorted n s : StronglySorted lt (where_pos_from s n).
Proof.
  revert s. induction n as [|x n IH]; intros s; [constructor|]. cbn [where_pos_from].
  destruct (Rltb 0 x); [|apply IH]. constructor; [apply IH|]. apply Forall_forall. intros i Hi.
  apply where_pos_from_In in Hi. lia.
Qed.
Lemma filter_sorted {A} (R : A -> A -> Prop) P l : StronglySorted R l -> StronglySorted R (filter P l).
Proof.
  induction 1 as [|x l H IH F]; [constructor|]. cbn. destruct (P x); [|exact IH]. constructor; [exact IH|].
  rewrite Forall_forall in *. intros y Hy. apply filter_In in Hy. now apply F.
Qed.

Section FitPoints.
  Variables (craters : list (R * R)) (area : R) (b : string) (bd : binned) (ri : option (list nat)) (lo hi : R).
  Hypothesis Hb : In b real_binnings.
  Hypothesis Hne : craters <> [].
  Hypothesis Hpos : Forall (fun c => 0 < fst c) craters.
  Hypothesis Hfr : Forall (fun c => 0 < snd c) craters.
  Hypothesis Ha : 0 < area.
  Hypothesis HA : apply_binning craters b 0 = Ok (bd, ri).
  Hypothesis Hlo : In lo (b_dmin bd).
  Hypothesis Hhi : In hi (b_dmax bd).
  Hypothesis Hlt : lo < hi.

  Let edges (i : nat) := (nth i (b_dmin bd) 0, nth i (b_dmax bd) 0).
  Let q1 := select_range bd (where_pos (b_n bd)) lo (Fin hi).

  Lemma selected_bins : map edges q1 = bins_used craters lo hi (b_dmin bd) (b_dmax bd).
  Proof.
    pose proof (apply_binning_good _ _ _ _ _ Hb Hne Hpos HA) as G.
    pose proof (gb_len1 bd G) as L1. pose proof (gb_len3 bd G) as L3.
    unfold bins_used. rewrite <- (where_pos_edges craters b 0 bd ri Hb Hne Hpos HA).
    rewrite filter_map_comm. unfold edges. f_equal. unfold q1, select_range. apply filter_ext_in.
    intros k Hk. apply where_pos_In in Hk. cbn [fst snd].
    apply In_nth with (d := 0) in Hlo. destruct Hlo as (i & Hi & E1).
    apply In_nth with (d := 0) in Hhi. destruct Hhi as (j & Hj & E2). rewrite L1 in Hj.
    assert (Hij : (i <= j)%nat).
    { destruct (Nat.le_gt_cases i j); [assumption|]. pose proof (hi_lo bd G j i ltac:(lia)). lra. }
    pose proof (select_edges craters b 0 bd ri Hb Hne Hpos HA i j k ltac:(lia) ltac:(lia)) as S.
    rewrite E1, E2 in S. rewrite S.
    assert (M1 : (i <= k)%nat -> lo <= nth k (b_dmin bd) 0).
    { intros. rewrite <- E1. apply (lo_le bd G). lia. }
    assert (M2 : (k <= j)%nat -> nth k (b_dmax bd) 0 <= hi).
    { intros. rewrite <- E2. apply (hi_le bd G). lia. }
    assert (M3 : (k < i)%nat -> nth k (b_dmin bd) 0 < lo).
    { intros. pose proof (hi_lo bd G k i ltac:(lia)). pose proof (lo_hi bd G k ltac:(lia)). pose proof (lo_pos bd G k ltac:(lia)). lra. }
    assert (M4 : (j < k)%nat -> hi < nth k (b_dmax bd) 0).
    { intros. pose proof (hi_lt bd G j k ltac:(lia)). pose proof (lo_hi bd G j ltac:(lia)). pose proof (lo_pos bd G j ltac:(lia)). lra. }
    destruct (Nat.leb_spec i k) as [A|A]; [specialize (M1 A)|specialize (M3 A)];
    (destruct (Nat.leb_spec k j) as [B|B]; [specialize (M2 B)|specialize (M4 B)]); cbn [andb];
    destruct (Rle_dec lo (nth k (b_dmin bd) 0)); try destruct (Rle_dec (nth k (b_dmax bd) 0) hi); try reflexivity; lra.
  Qed.

  Lemma used_edges e : In e (bins_used craters lo hi (b_dmin bd) (b_dmax bd)) ->
    0 < fst e /\ fst e < snd e /\ lo <= fst e /\ snd e <= hi /\ 0 < fraction_between (fst e) (snd e) craters.
  Proof.
    intros H. unfold bins_used in H. apply filter_In in H. destruct H as [H K].
    destruct (populated_edges _ _ _ _ _ Hb Hne Hpos HA H) as (P1 & P2 & P3 & _).
    destruct (Rle_dec lo (fst e)); [|discriminate]. destruct (Rle_dec (snd e) hi); [|discriminate]. repeat split; assumption.
  Qed.

  Lemma fit_points pres pf : In pres data_presentations ->
    exists pd, fst (getplotdata (fresh craters area) pres b (Some (lo, Fin hi)) (Some 0%Z) false pf) = Ok pd /\
      pd_n pd = fraction_between lo hi craters /\ pd_nevent pd = INR (number_between lo hi craters) /\
      pd_bin_range pd = (lo, hi) /\
      pd_points pd = map (fun e => expected_point pres (pf_slope pf) craters area (fst e) (snd e))
                         (bins_used craters lo hi (b_dmin bd) (b_dmax bd)).
  Proof.
    intros Hp. destruct (fit_counts craters area b pres pf bd ri lo hi Hb Hne Hpos Hfr ltac:(lra) Hp HA Hlo Hhi Hlt)
      as (pd & E & E1 & E2 & E3). exists pd. repeat (split; [assumption|]).
    rewrite (getplotdata_unfold _ _ _ _ _ _ _ _ _ HA) in E. unfold plotdata_of in E.
    rewrite data_presentation_member in E by assumption. cbn [negb] in E. fold q1 in E.
    pose proof (apply_binning_good _ _ _ _ _ Hb Hne Hpos HA) as G. pose proof (gb_len3 bd G) as L3.
    rewrite (mapM_map _ (fun i => expected_point pres (pf_slope pf) craters area (nth i (b_dmin bd) 0) (nth i (b_dmax bd) 0))) in E.
    2:{ intros k Hk. apply plot_point_expected with (b := b) (off := 0) (ri := ri); try assumption; try lra.
        unfold q1, select_range in Hk. apply filter_In in Hk. destruct Hk as [Hk _]. apply where_pos_In in Hk. lia. }
    cbn [bind] in E. destruct (requested_bin_range bd (Some b) lo (Fin hi) (Some 0%Z)); [|discriminate]. cbn [bind] in E.
    injection E as <-. cbn [pd_points]. rewrite <- selected_bins. unfold edges. rewrite map_map. reflexivity.
  Qed.

  (** the first bin used is the first with craters from lo on *)
  Lemma first_bin e r : bins_used craters lo hi (b_dmin bd) (b_dmax bd) = e :: r ->
    number_from (fst e) craters = number_from lo craters /\ fraction_from (fst e) craters = fraction_from lo craters.
  Proof.
    intros E. pose proof (used_edges e ltac:(rewrite E; now left)) as (P1 & P2 & P3 & P4 & _).
    assert (Z : number_between lo (fst e) craters = 0%nat /\ fraction_between lo (fst e) craters = 0).
    2:{ clear -Z P3. destruct Z as [Z1 Z2]. revert Z1 Z2. generalize craters. intros cs. clear craters.
        assert (Q : forall cs : list (R * R), number_between lo (fst e) cs = 0%nat -> number_from (fst e) cs = number_from lo cs /\ fraction_from (fst e) cs = fraction_from lo cs).
        { induction cs0 as [|[d f] cs0 IH]; [split; reflexivity|]. cbn [number_between number_from fraction_from].
          destruct (Rle_dec lo d); destruct (Rle_dec (fst e) d); try lra; try (destruct (Rlt_dec d (fst e)); try lra);
          intros H; try discriminate H; destruct (IH ltac:(lia)) as [-> ->]; split; lra || lia || reflexivity. }
        intros Z1 _. now apply Q. }
    pose proof (apply_binning_good _ _ _ _ _ Hb Hne Hpos HA) as G. pose proof (gb_len1 bd G) as L1. pose proof (gb_len3 bd G) as L3.
    rewrite <- selected_bins in E. destruct q1 as [|k q] eqn:Eq; [discriminate|]. cbn [map] in E. injection E as E _.
    assert (Hk : In k q1) by (rewrite Eq; now left).
    assert (Hkl : (k < length (b_dmin bd))%nat).
    { unfold q1, select_range in Hk. apply filter_In in Hk. destruct Hk as [Hk _]. apply where_pos_In in Hk. lia. }
    assert (MIN : forall k', In k' q1 -> (k <= k')%nat).
    { intros k' Hk'. assert (SS : StronglySorted lt q1) by (apply filter_sorted, where_pos_from_sorted).
      rewrite Eq in SS, Hk'. inversion SS as [|? ? ? F]; subst. rewrite Forall_forall in F. destruct Hk' as [->|Hk']; [lia|].
      specialize (F _ Hk'). lia. }
    subst e. unfold edges in *. cbn [fst snd] in *.
    apply In_nth with (d := 0) in Hlo. destruct Hlo as (i & Hi & E1).
    destruct (Nat.le_gt_cases k i) as [C|C].
    { destruct (Nat.eq_dec k i) as [->|Ne].
      - rewrite E1. split; clear; induction craters as [|[d f] cs IH]; try reflexivity; cbn;
        rewrite IH; destruct (Rle_dec lo d); try destruct (Rlt_dec d lo); lra || lia || reflexivity.
      - pose proof (hi_lo bd G k i ltac:(lia)). lra. }
    assert (Hkm : nth (k - 1) (b_dmax bd) 0 = nth k (b_dmin bd) 0).
    { rewrite (gb_contig bd G) by lia. f_equal. lia. }
    destruct (selected_counts craters b 0 bd ri Hb Hne Hpos Hfr HA i (k - 1) ltac:(lia)) as [S1 S2].
    cbv zeta in S1, S2. rewrite Hkm, E1 in S1, S2.
    assert (NIL : select_range bd (where_pos (b_n bd)) lo (Fin (nth k (b_dmin bd) 0)) = []).
    { destruct (select_range bd (where_pos (b_n bd)) lo (Fin (nth k (b_dmin bd) 0))) as [|k' r'] eqn:E'; [reflexivity|exfalso].
      assert (Hin : In k' (select_range bd (where_pos (b_n bd)) lo (Fin (nth k (b_dmin bd) 0)))) by (rewrite E'; now left).
      unfold select_range in Hin. apply filter_In in Hin. destruct Hin as [Hin Hc]. pose proof Hin as Hw. apply where_pos_In in Hw.
      rewrite <- E1, <- Hkm in Hc. rewrite (select_edges craters b 0 bd ri Hb Hne Hpos HA i (k - 1) k' ltac:(lia) ltac:(lia)) in Hc.
      apply andb_prop in Hc. destruct Hc as [H1 H2]. apply Nat.leb_le in H1, H2.
      assert (In k' q1).
      { unfold q1, select_range. apply filter_In. split; [exact Hin|].
        pose proof (lo_le bd G i k' ltac:(lia)). destruct (mean_inside bd G k' ltac:(lia)) as [M1 M2].
        pose proof (hi_le bd G k' k ltac:(lia)). pose proof (lo_hi bd G k ltac:(lia)). pose proof (lo_pos bd G k ltac:(lia)).
        pose proof (hi_lo bd G k' k ltac:(lia)). pose proof (lo_pos bd G k' ltac:(lia)). pose proof (lo_hi bd G k' ltac:(lia)).
        apply andb_true_intro. split; [apply Rltb_true; lra|]. cbn [R_ltb_ext]. apply Rltb_true. lra. }
      specialize (MIN _ H). lia. }
    rewrite NIL in S1, S2. cbn [map Rsum fold_right] in S1, S2. split; [|congruence].
    apply INR_eq. rewrite <- S2. reflexivity.
  Qed.

  Lemma bins_nonempty : (0 < number_between lo hi craters)%nat -> bins_used craters lo hi (b_dmin bd) (b_dmax bd) <> [].
  Proof.
    intros H E. rewrite <- selected_bins in E. apply map_eq_nil in E.
    pose proof (apply_binning_good _ _ _ _ _ Hb Hne Hpos HA) as G. pose proof (gb_len1 bd G) as L1.
    apply In_nth with (d := 0) in Hlo. destruct Hlo as (i & Hi & E1).
    apply In_nth with (d := 0) in Hhi. destruct Hhi as (j & Hj & E2). rewrite L1 in Hj.
    assert (Hij : (i <= j)%nat).
    { destruct (Nat.le_gt_cases i j); [assumption|]. pose proof (hi_lo bd G j i ltac:(lia)). lra. }
    destruct (selected_counts craters b 0 bd ri Hb Hne Hpos Hfr HA i j ltac:(lia)) as [_ S2].
    cbv zeta in S2. rewrite E1, E2 in S2. fold q1 in S2. rewrite E in S2. cbn in S2.
    apply lt_INR in H. cbn in H. lra.
  Qed.
End FitPoints.
