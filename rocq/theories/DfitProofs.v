(** Lemmas on ages of differential fits. *)
From Coq Require Import String Ascii List ZArith Reals Lra Lia Bool Permutation Sorted.
From Verif Require Import Base NumModel NumLemmas BinModel BinSpec BinProofs ApplyProofs ChronModel ChronSpec ChronProofs InterpProofs BinProps CountModel CountSpec CountProofs CountProps CountProofs2 CountProofs3.
From Verif Require Import ProdModel ProdSpec ProdProofs ProdProofs2 ProdProofs3 ProdProps PdfModel PdfSpec AgeModel AgeSpec AgeProofs AgeProps EndModel EndSpec EndProofs DfitSpec.
Import ListNotations.
Local Open Scope R_scope.

(** ** the fit *)
Lemma misfit_over (model : R -> R -> R) (w d y s : Z -> R) zs : (forall z a, In z zs -> log10 (model (d z) a) = a + s z) ->
  exists K, forall a, log_misfit model (map w zs) (map d zs) (map y zs) a = Rsum (map w zs) * a ^ 2 - 2 * Rsum (map (fun z => w z * (log10 (y z) - s z)) zs) * a + K.
Proof.
  induction zs as [|z zs IH]; intros H.
  - exists 0. intros a. cbn [map log_misfit Rsum]. ring.
  - destruct IH as (K & E); [intros x a Hx; apply H; now right|]. exists (K + w z * (s z - log10 (y z)) ^ 2). intros a. cbn [map log_misfit Rsum]. rewrite E, H by now left. ring.
Qed.
Lemma isochron_scaled a0 a x c : poly_C (a0 :: a) x c = pow10 c * unit_isochron a x.
Proof. unfold poly_C, poly_C10, unit_isochron. cbn [tl]. rewrite <- pow10_plus. f_equal. rewrite poly_peval, peval_series. cbn [pow peval]. ring. Qed.
Lemma slope_scaled a0 a x c F : 0 < x -> derivable_pt_lim (unit_isochron a) x (- F) -> poly_F (a0 :: a) x c = pow10 c * F.
Proof.
  intros H D. pose proof (poly_C_deriv (a0 :: a) c x H) as D1. pose proof (derivable_pt_lim_scal (unit_isochron a) (pow10 c) x (- F) D) as D2.
  assert (D3 : derivable_pt_lim (fun d => poly_C (a0 :: a) d c) x (pow10 c * - F)).
  { intros e He. destruct (D2 e He) as (del & Hd). exists del. intros h Hh1 Hh2. rewrite !isochron_scaled. exact (Hd h Hh1 Hh2). }
  pose proof (uniqueness_limite _ _ _ _ D1 D3). lra.
Qed.
Lemma best_fit_differential a0 a lo hi (w d y : Z -> R) F zs best : zs <> [] -> (forall z, In z zs -> 0 < w z /\ 0 < d z /\ 0 < F (d z)) ->
  (forall x, 0 < x -> derivable_pt_lim (unit_isochron a) x (- F x)) ->
  best_fit (Poly (a0 :: a) lo hi) "differential" (map w zs) (map d zs) (map y zs) best ->
  best = mean_over w (fun z => log10 (y z) - log10 (F (d z))) zs.
Proof.
  intros NE P D B. set (model := fun x c => pow10 c * F x).
  assert (M : forall z c, In z zs -> log10 (model (d z) c) = c + log10 (F (d z))).
  { intros z c I. destruct (P z I) as (_ & _ & Q). unfold model. rewrite log10_mult, log10_pow10; [reflexivity|apply pow10_pos|exact Q]. }
  destruct (misfit_over model w d y (fun z => log10 (F (d z))) zs M) as (K & E).
  unfold best_fit in B. specialize (B model). assert (Mi : minimises (log_misfit model (map w zs) (map d zs) (map y zs)) best).
  { apply B. intros x c Hx. apply in_map_iff in Hx. destruct Hx as (z & <- & I). destruct (P z I) as (_ & Q1 & Q2). split.
    - unfold pf_value. cbn [String.eqb Ascii.eqb Bool.eqb]. unfold model. now rewrite (slope_scaled a0 a (d z) c (F (d z)) Q1 (D _ Q1)).
    - apply Rmult_lt_0_compat; [apply pow10_pos|exact Q2]. }
  unfold mean_over. apply (quadratic_minimum _ _ K).
  - apply Rsum_pos; [intros Q; apply map_eq_nil in Q; contradiction|]. rewrite Forall_map, Forall_forall. intros z I. now apply P.
  - intros b. rewrite <- !E. apply Mi.
Qed.
Lemma own_slope_exponent a0 a plo phi lo hi : own_slope (Poly (a0 :: a) plo phi) lo hi = bin_exponent (unit_isochron a) lo hi.
Proof.
  unfold own_slope, bin_exponent. rewrite (proj1 (C21_own_a0_when_omitted a0 a plo phi hi)), (proj1 (C21_own_a0_when_omitted a0 a plo phi lo)).
  assert (E : forall x, pow10 (series 0 (a0 :: a) (log10 x)) = pow10 a0 * unit_isochron a x) by (intros x; unfold unit_isochron; rewrite <- pow10_plus; f_equal; cbn [series pow]; ring).
  rewrite !E. do 2 f_equal. unfold unit_isochron. pose proof (pow10_pos a0). pose proof (pow10_pos (series 1 a (log10 lo))). field. split; lra.
Qed.
Lemma bias_mean q k : bin_bias_correction q k = mean_to_middle q k.
Proof. unfold bin_bias_correction, mean_to_middle. destruct (Rltb_spec (Rabs k) (1 / 100000)), (Rlt_dec (Rabs k) (1 / 100000)); try lra; reflexivity. Qed.

(** ** the order of craters *)
Lemma fraction_between_perm lo hi l m : Permutation l m -> fraction_between lo hi l = fraction_between lo hi m.
Proof. induction 1 as [|(d, f) l m P IH|(d, f) (e, g) l|l m k P1 I1 P2 I2]; cbn [fraction_between]; lra. Qed.
Lemma number_between_perm lo hi l m : Permutation l m -> number_between lo hi l = number_between lo hi m.
Proof. induction 1 as [|(d, f) l m P IH|(d, f) (e, g) l|l m k P1 I1 P2 I2]; cbn [number_between]; lia. Qed.

(** ** the bins *)
Lemma filter_map_comm {A B} (f : B -> bool) (h : A -> B) l : filter f (map h l) = map h (filter (fun x => f (h x)) l).
Proof. induction l as [|x l IH]; [reflexivity|]. cbn [map filter]. destruct (f (h x)); cbn [map]; now rewrite IH. Qed.
Lemma seq_sorted a n : StronglySorted lt (seq a n).
Proof. revert a. induction n as [|n IH]; intros a; [constructor|]. cbn [seq]. constructor; [apply IH|]. rewrite Forall_forall. intros x H. apply in_seq in H. lia. Qed.
Lemma used_numbers b craters z0 n lo hi : In b real_binnings -> Forall (fun c => 0 < snd c) craters ->
  (forall c, In c craters -> grid b 0 z0 <= fst c < grid b 0 (z0 + Z.of_nat (S n))) ->
  exists zs, bins_used craters lo hi (grid_points b 0 z0 (S n)) (grid_points b 0 (z0 + 1) (S n)) = map (fun z => (grid b 0 z, grid b 0 (z + 1))) zs /\ bins_fitted b lo hi craters zs.
Proof.
  intros I F C. unfold bins_used, populated_bins. rewrite combine_grid, !filter_map_comm.
  match goal with |- exists zs, map _ ?l = _ /\ _ => set (is := l) end. exists (map (fun i => (z0 + Z.of_nat i)%Z) is). split; [|split].
  - rewrite map_map. apply map_ext. intros i. do 2 f_equal. lia.
  - assert (SL : StronglySorted lt is) by (unfold is; apply sorted_filter, sorted_filter, seq_sorted). clearbody is. induction SL as [|i l S1 IH H]; cbn [map]; constructor; [exact IH|]. rewrite Forall_map. eapply Forall_impl; [|exact H]. intros j Hj. cbn beta. lia.
  - intros z. rewrite in_map_iff. split.
    + intros (i & <- & H). unfold is in H. apply filter_In in H. destruct H as (H & H2). apply filter_In in H. destruct H as (H & H1). cbn [fst snd] in *.
      replace (z0 + 1 + Z.of_nat i)%Z with (z0 + Z.of_nat i + 1)%Z in * by lia.
      destruct (Rlt_dec 0 _) as [P|] in H1; [|discriminate]. destruct (Rle_dec lo _) as [A|] in H2; [|discriminate]. destruct (Rle_dec _ hi) as [B|] in H2; [|discriminate].
      split; [exact A|]. split; [exact B|]. now apply fraction_between_pos in P.
    + intros (A & B & c & Ic & Cc). specialize (C c Ic). assert (Z1 : (z0 < z + 1)%Z) by (apply (grid_lt_inv b); [exact I|lra]). assert (Z2 : (z < z0 + Z.of_nat (S n))%Z) by (apply (grid_lt_inv b); [exact I|lra]).
      exists (Z.to_nat (z - z0)). rewrite Z2Nat.id by lia. split; [lia|]. unfold is. apply filter_In. cbn [fst snd]. rewrite Z2Nat.id by lia. replace (z0 + (z - z0))%Z with z by lia. replace (z0 + 1 + (z - z0))%Z with (z + 1)%Z by lia. split; [apply filter_In; cbn [fst snd]; rewrite Z2Nat.id by lia; replace (z0 + (z - z0))%Z with z by lia; replace (z0 + 1 + (z - z0))%Z with (z + 1)%Z by lia; split|].
      * apply in_seq. lia.
      * destruct (Rlt_dec 0 _) as [P|P]; [reflexivity|]. exfalso. apply P, fraction_between_pos; eauto.
      * destruct (Rle_dec lo _); [|lra]. destruct (Rle_dec _ hi); [reflexivity|lra].
Qed.
(** the range that is decoded, and the bins of the count in it *)
Lemma range_used craters area b x y lo hi :
  In b real_binnings -> craters <> [] -> Forall (fun c => 0 < fst c /\ 0 < snd c) craters -> 0 < x -> x <= y ->
  (exists c z, In c craters /\ grid b 0 z <= fst c /\ y <= grid b 0 (z + 1) - 1 / 10000000) ->
  lower_boundary b x lo -> upper_boundary b y hi -> (exists z, occupied b lo hi craters z) ->
  exists bd ri l zs, apply_binning craters b 0 = Ok (bd, Some ri) /\
    fst (decode_range (fresh craters area) (LNum (Fin x)) (LNum (Fin y)) b true) = Ok (Fin l, Fin hi) /\
    In l (b_dmin bd) /\ In hi (b_dmax bd) /\ l < hi /\ (0 < number_between l hi craters)%nat /\
    bins_used craters l hi (b_dmin bd) (b_dmax bd) = map (fun z => (grid b 0 z, grid b 0 (z + 1))) zs /\ bins_fitted b lo hi craters zs.
Proof.
  intros Ib NE F Hx Hxy (c & zc & Ic & Zc & Yc) LB UB (z & OZ).
  assert (F1 : Forall (fun c => 0 < fst c) craters) by (eapply Forall_impl; [|exact F]; intros ? (Q & _); exact Q).
  assert (F2 : Forall (fun c => 0 < snd c) craters) by (eapply Forall_impl; [|exact F]; intros ? (_ & Q); exact Q).
  destruct (C03_binning_total_and_exact craters b 0 Ib NE F1) as (z0 & n & bd & ri & HA & _ & E1 & E2 & CV & _).
  destruct (C08_snapping_extends_to_nearest_boundaries craters area b x y Ib NE F1 Hx Hxy) as (bd' & ri' & l & u & HA' & ED & Il & Ol & Ml & _ & Up).
  assert (BD : bd' = bd) by congruence. subst bd'. clear HA' ri'.
  assert (LA : last (b_dmax bd) 0 = grid b 0 (z0 + 1 + Z.of_nat n)) by (rewrite E2; apply grid_points_last).
  assert (Zl : (zc < z0 + 1 + Z.of_nat n)%Z). { apply (grid_lt_inv b); [exact Ib|]. destruct (CV c Ic) as (_ & Q). replace (z0 + 1 + Z.of_nat n)%Z with (z0 + Z.of_nat (Datatypes.S n))%Z by lia. lra. }
  assert (Yl : y <= last (b_dmax bd) 0 - 1 / 10000000). { rewrite LA. pose proof (grid_mono' b (zc + 1) (z0 + 1 + Z.of_nat n) Ib ltac:(lia)). lra. }
  destruct (Up Yl) as (Iu & Yu & Mu). clear Up.
  destruct OZ as (O1 & O2 & c' & Ic' & Oc). destruct (CV c' Ic') as (V1 & V2).
  assert (Z1 : (z0 <= z)%Z). { assert (z0 < z + 1)%Z; [|lia]. apply (grid_lt_inv b); [exact Ib|lra]. }
  assert (Z2 : (z <= z0 + Z.of_nat n)%Z). { assert (z < z0 + Z.of_nat (Datatypes.S n))%Z; [|lia]. apply (grid_lt_inv b); [exact Ib|lra]. }
  destruct LB as (zl & El & B1 & B2). destruct UB as (zu & Eu & B3 & B4).
  assert (Uz : u = hi).
  { rewrite E2 in Iu. apply in_grid_points in Iu. destruct Iu as (k & K & Ek).
    assert (K1 : (zu <= k)%Z). { assert (zu - 1 < k)%Z; [|lia]. apply (grid_lt_inv b); [exact Ib|lra]. }
    assert (K2 : (z + 1 <= zu)%Z). { destruct (Z_lt_le_dec zu (z + 1)) as [Q|Q]; [|exact Q]. exfalso. pose proof (grid_step b 0 zu Ib). pose proof (grid_mono' b (zu + 1) (z + 1) Ib ltac:(lia)). lra. }
    assert (Ih : In hi (b_dmax bd)). { rewrite E2. apply in_grid_points. exists zu. split; [lia|exact Eu]. }
    specialize (Mu hi Ih B4). pose proof (grid_mono' b zu k Ib K1). lra. }
  subst u.
  assert (Ll : lo <= l /\ l <= grid b 0 z /\ (forall c, In c craters -> lo <= fst c -> l <= fst c)).
  { assert (Zlz : (zl <= z)%Z). { destruct (Z_lt_le_dec z zl) as [Q|Q]; [|exact Q]. exfalso. pose proof (grid_step b 0 z Ib). pose proof (grid_mono' b (z + 1) zl Ib ltac:(lia)). lra. }
    destruct (Z_lt_le_dec zl z0) as [Q|Q].
    - assert (Hd : hd 0 (b_dmin bd) = grid b 0 z0) by (rewrite E1; unfold grid_points; cbn [seq map hd]; f_equal; lia).
      assert (E : l = grid b 0 z0). { destruct Ol as [Ol|Ol]; [|congruence]. exfalso. rewrite E1 in Il. apply in_grid_points in Il. destruct Il as (k & K & Ek). pose proof (grid_mono' b (zl + 1) k Ib ltac:(lia)). lra. }
      subst l. pose proof (grid_mono' b zl z0 Ib ltac:(lia)). pose proof (grid_mono' b z0 z Ib Z1). split; [lra|]. split; [lra|]. intros e Ie _. now apply CV.
    - assert (I0 : In lo (b_dmin bd)) by (rewrite E1; apply in_grid_points; exists zl; split; [lia|exact El]).
      specialize (Ml lo I0 B1). rewrite E1 in Il. apply in_grid_points in Il. destruct Il as (k & K & Ek).
      assert (l = lo).
      { destruct Ol as [Ol|Ol].
        - assert (k < zl + 1)%Z by (apply (grid_lt_inv b); [exact Ib|lra]). pose proof (grid_mono' b k zl Ib ltac:(lia)). lra.
        - rewrite E1 in Ol. unfold grid_points in Ol. cbn [seq map hd] in Ol. rewrite Z.add_0_r in Ol. pose proof (grid_mono' b z0 zl Ib Q). lra. }
      split; [lra|]. split; [lra|]. intros e Ie He. lra. }
  destruct Ll as (L1 & L2 & L3).
  assert (Hlt : l < hi) by (pose proof (grid_step b 0 z Ib); lra).
  assert (NB : (0 < number_between l hi craters)%nat) by (apply (number_between_pos l hi craters c' Ic'); lra).
  destruct (used_numbers b craters z0 n l hi Ib F2 CV) as (zs & EZ & SZ & MZ).
  exists bd, ri, l, zs. split; [exact HA|]. split; [exact ED|]. split; [exact Il|]. split; [exact Iu|]. split; [exact Hlt|]. split; [exact NB|]. split; [rewrite E1, E2; exact EZ|].
  split; [exact SZ|]. intros w. rewrite MZ. split; intros (P1 & P2 & e & Ie & P3); (split; [|split; [exact P2|exists e; auto]]); [lra|].
  destruct (Rle_dec l (grid b 0 w)) as [Q|Q]; [exact Q|]. exfalso.
  rewrite E1 in Il. apply in_grid_points in Il. destruct Il as (j & J & Ej). assert (w < j)%Z by (apply (grid_lt_inv b); [exact Ib|lra]).
  specialize (L3 e Ie ltac:(lra)). pose proof (grid_mono' b (w + 1) j Ib ltac:(lia)). lra.
Qed.
