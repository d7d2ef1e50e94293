From Coq Require Import String Ascii List ZArith Reals Lra Lia Bool Sorting.Sorted.
From Verif Require Import Base NumModel NumLemmas InterpProofs ChronModel ChronSpec ChronProofs ProdModel PdfModel StrModel FmtModel FmtProofs PlotModel AaModel AaSpec.
Import ListNotations.
Local Open Scope R_scope.

(** ** What the parameters of the axis are *)
Definition split_axis (a : time_axis) : Prop :=
  ta_crossover a = true /\ 0 < ta_min a < 1 /\ ta_switch a = 3 /\ 3 <= ta_max a /\ ta_log_min a = Some (log10 (ta_min a)) /\
  0 <= ta_linear a < 1 /\ (ta_max a = 3 <-> ta_linear a = 0).
Definition linear_axis (a : time_axis) : Prop :=
  ta_crossover a = false /\ ta_switch a = ta_min a /\ ta_linear a = 1 /\ 0 <= ta_min a < ta_max a /\ ta_log_min a = None.
Lemma axis_kinds fuel x0 x1 a : time_axis_params fuel x0 x1 = Some (Ok a) -> split_axis a \/ linear_axis a.
Proof.
  unfold time_axis_params. set (tmax := clip 3 (9 / 2) (Rmax x0 x1)). set (tmin := clip 0 (tmax - 1 / 10) (Rmin x0 x1)).
  assert (M : 3 <= tmax <= 9 / 2). { unfold tmax, clip. split; [apply Rmin_glb; [apply Rmax_r|lra]|apply Rmin_r]. }
  assert (m : 0 <= tmin <= tmax - 1 / 10). { unfold tmin, clip. split; [apply Rmin_glb; [apply Rmax_r|lra]|apply Rmin_r]. }
  destruct (Rltb_spec tmin 1) as [H1|H1]; destruct (Reqb_spec tmin 0) as [H0|H0]; cbn [andb negb].
  2: { destruct (time_labels _) as [labels|]; [|discriminate]. cbn [bind]. unfold divide_units.
    assert (T : 0 < ten (Rfloor (log10 tmin)) /\ ten (Rfloor (log10 tmin)) <= tmin).
    { assert (P : 0 < tmin) by lra. split; [apply powerRZ_lt; lra|]. pose proof (Rfloor_spec (log10 tmin)) as (F & _).
      assert (Q : ten (Rfloor (log10 tmin)) = pow10 (IZR (Rfloor (log10 tmin)))) by (unfold ten, pow10; rewrite powerRZ_Rpower by lra; reflexivity).
      rewrite Q. rewrite <- (pow10_log10 tmin P) at 2. now apply pow10_le. }
    set (q := ten (Rfloor (log10 tmin))) in *.
    assert (LG : log10 q < log10 3) by (apply log10_lt; lra).
    rewrite (Rmax_left (tmax - 3) 0) by lra.
    set (u := (tmax - 3) / (7 / 10)). assert (0 <= u) by (unfold u; apply Rmult_le_pos; [lra|left; apply Rinv_0_lt_compat; lra]).
    destruct (Reqb_spec (u + (log10 3 - log10 q)) 0); [lra|]. cbn [bind]. intros E. injection E as <-. left.
    unfold split_axis. cbn [ta_crossover ta_min ta_switch ta_max ta_log_min ta_linear].
    split; [reflexivity|]. split; [lra|]. split; [reflexivity|]. split; [lra|]. split; [reflexivity|]. split.
    - split; [apply Rmult_le_pos; [lra|left; apply Rinv_0_lt_compat; lra]|].
      apply (Rmult_lt_reg_r (u + (log10 3 - log10 q))); [lra|]. unfold Rdiv. rewrite Rmult_assoc, Rinv_l by lra. lra.
    - split; [intros E3; unfold u; rewrite E3; unfold Rdiv; ring|]. intros E0.
      assert (U : u = 0). { apply (Rmult_eq_compat_r (u + (log10 3 - log10 q))) in E0. unfold Rdiv in E0. rewrite Rmult_assoc, Rinv_l in E0 by lra. lra. }
      unfold u in U. apply (Rmult_eq_compat_r (7 / 10)) in U. unfold Rdiv in U. rewrite Rmult_assoc, Rinv_l in U by lra. lra. }
  all: destruct (ticks fuel [tmin; tmax] (Some 6%Z) (Some 12%Z)) as [[[t minor]|x]|]; try discriminate; cbn [bind];
    destruct minor as [k|]; try discriminate; cbn [bind]; destruct (time_labels _) as [labels|]; try discriminate; cbn [bind];
    unfold divide_units; destruct (Reqb_spec (1 + 0) 0); try lra; cbn [bind]; intros E; injection E as <-; right;
    unfold linear_axis; cbn [ta_crossover ta_min ta_switch ta_max ta_log_min ta_linear];
    (split; [reflexivity|]); (split; [reflexivity|]); (split; [field|]); (split; [lra|reflexivity]).
Qed.
Lemma linear_le1 a : split_axis a \/ linear_axis a -> 0 <= ta_linear a <= 1.
Proof. intros [(_ & _ & _ & _ & _ & H & _)|(_ & _ & -> & _)]; lra. Qed.
Lemma switch_lt a : split_axis a \/ linear_axis a -> 0 < ta_linear a -> ta_switch a < ta_max a.
Proof.
  intros [(_ & _ & -> & H & _ & _ & Q)|(_ & -> & _ & H & _)] P; [|lra]. destruct (Req_dec (ta_max a) 3) as [E|E]; [rewrite (proj1 Q E) in P; lra|lra].
Qed.

(** ** Columns *)
Lemma columns_ok a nsx : split_axis a \/ linear_axis a -> (0 <= nsx)%Z ->
  let z := round_even (IZR nsx * ta_linear a) in (0 <= z <= nsx)%Z /\ Rabs (IZR nsx * ta_linear a - IZR z) <= 1 / 2.
Proof.
  intros K H z. pose proof (linear_le1 a K) as L. assert (N : 0 <= IZR nsx) by now apply IZR_le.
  split; [split|].
  - apply round_even_ge. nra.
  - apply round_even_le. nra.
  - apply round_even_spec.
Qed.
Lemma log_age_ok a nsx : split_axis a \/ linear_axis a -> (0 <= nsx)%Z ->
  let z := round_even (IZR nsx * ta_linear a) in
  log_age a nsx = Ok (linspace (log10 (ta_min a)) (log10 (ta_switch a)) (Z.to_nat (nsx - z))
           ++ map log10 (tl (linspace (ta_switch a) (ta_max a) (Z.to_nat (z + 1))))).
Proof.
  intros K H z. destruct (columns_ok a nsx K H) as (Z1 & _). fold z in Z1. unfold log_age, columns. fold z.
  replace (Z.ltb (nsx - z) 0) with false by (symmetry; apply Z.ltb_ge; lia).
  replace (Z.ltb (z + 1) 0) with false by (symmetry; apply Z.ltb_ge; lia). reflexivity.
Qed.
Lemma tl_linspace_length a b k : length (tl (linspace a b (S k))) = k.
Proof. pose proof (linspace_length a b (S k)). destruct (linspace a b (S k)); cbn in *; lia. Qed.
Lemma tl_linspace_nth a b k j : (j < k)%nat -> nth j (tl (linspace a b (S k))) 0 = a + INR (S j) * ((b - a) / INR k).
Proof.
  intros H. assert (Q : nth j (tl (linspace a b (S k))) 0 = nth (S j) (linspace a b (S k)) 0).
  { destruct (linspace a b (S k)); [destruct j; reflexivity|reflexivity]. }
  rewrite Q, linspace_nth by lia. replace (S k - 1)%nat with k by lia. reflexivity.
Qed.
Section Columns.
  Context (a : time_axis) (K : split_axis a \/ linear_axis a) (nsx : nat) (Hn : (0 < nsx)%nat).
  Let zz := round_even (IZR (Z.of_nat nsx) * ta_linear a).
  Let z := Z.to_nat zz.
  Let m := (nsx - z)%nat.
  Let ages := linspace (log10 (ta_min a)) (log10 (ta_switch a)) m ++ map log10 (tl (linspace (ta_switch a) (ta_max a) (S z))).
  Lemma z_facts : (z <= nsx)%nat /\ Rabs (INR nsx * ta_linear a - INR z) <= 1 / 2.
  Proof.
    destruct (columns_ok a (Z.of_nat nsx) K ltac:(lia)) as (A & B). fold zz in A, B. unfold z. split; [lia|].
    rewrite !INR_IZR_INZ, Z2Nat.id by lia. exact B.
  Qed.
  Lemma ages_eq : log_age a (Z.of_nat nsx) = Ok ages.
  Proof.
    destruct (columns_ok a (Z.of_nat nsx) K ltac:(lia)) as (A & _). fold zz in A.
    rewrite (log_age_ok a (Z.of_nat nsx) K ltac:(lia)). fold zz. unfold ages, m, z. do 3 f_equal.
    - f_equal. lia.
    - f_equal. f_equal. lia.
  Qed.
  Lemma ages_length : length ages = nsx.
  Proof. unfold ages. rewrite app_length, linspace_length, map_length, tl_linspace_length. unfold m. pose proof z_facts. lia. Qed.
  (** the linear part *)
  Lemma z_switch : (0 < z)%nat -> ta_switch a < ta_max a.
  Proof.
    intros Hz. apply switch_lt; [exact K|]. destruct z_facts as (_ & B). pose proof (linear_le1 a K) as L.
    destruct (Rle_lt_or_eq_dec 0 (ta_linear a) (proj1 L)) as [Q|Q]; [exact Q|exfalso].
    rewrite <- Q, Rmult_0_r in B. apply Rabs_le_inv in B. assert (1 <= INR z) by (change 1 with (INR 1); apply le_INR; lia). lra.
  Qed.
  Lemma switch_nonneg : 0 <= ta_switch a.
  Proof. destruct K as [(_ & _ & -> & _)|(_ & -> & _ & H & _)]; lra. Qed.
  Lemma lin_nth j : (j < z)%nat -> nth (m + j) ages 0 = log10 (ta_switch a + INR (S j) * ((ta_max a - ta_switch a) / INR z)) /\
    ta_switch a < ta_switch a + INR (S j) * ((ta_max a - ta_switch a) / INR z) <= ta_max a.
  Proof.
    intros Hj. assert (Hs : ta_switch a < ta_max a) by (apply z_switch; lia). split.
    - unfold ages. rewrite app_nth2 by (rewrite linspace_length; lia). rewrite linspace_length. replace (m + j - m)%nat with j by lia.
      assert (Hj' : (j < length (tl (linspace (ta_switch a) (ta_max a) (S z))))%nat) by (rewrite tl_linspace_length; exact Hj).
      rewrite (nth_indep _ 0 (log10 0)) by now rewrite map_length. rewrite map_nth. now rewrite tl_linspace_nth.
    - assert (P : 0 < INR z) by (apply lt_0_INR; lia). assert (Q : 0 < INR (S j)) by (apply lt_0_INR; lia).
      assert (R : INR (S j) <= INR z) by (apply le_INR; lia).
      assert (S : 0 < (ta_max a - ta_switch a) / INR z) by (apply Rdiv_lt_0_compat; lra).
      assert (E : INR z * ((ta_max a - ta_switch a) / INR z) = ta_max a - ta_switch a) by (field; lra). nra.
  Qed.
  (** the logarithmic part is empty on a linear axis *)
  Lemma m_pos : (0 < m)%nat -> split_axis a.
  Proof.
    intros Hm. destruct K as [S|(_ & _ & E & _)]; [exact S|exfalso]. destruct z_facts as (A & B). rewrite E, Rmult_1_r in B.
    unfold m in Hm. apply Rabs_le_inv in B. assert (INR z + 1 <= INR nsx) by (rewrite <- S_INR; apply le_INR; lia). lra.
  Qed.
  Lemma log_nth i : (i < m)%nat -> nth i ages 0 = log10 (ta_min a) + INR i * ((log10 (ta_switch a) - log10 (ta_min a)) / INR (m - 1)).
  Proof. intros Hi. unfold ages. rewrite app_nth1 by (now rewrite linspace_length). now rewrite linspace_nth. Qed.
  Lemma log_part_bounds i : (i < m)%nat -> split_axis a /\ log10 (ta_min a) < log10 (ta_switch a) /\
    exists u, 0 <= u <= 1 /\ INR i = u * INR (m - 1) /\ nth i ages 0 = log10 (ta_min a) + u * (log10 (ta_switch a) - log10 (ta_min a)).
  Proof.
    intros Hi. assert (SP : split_axis a) by (apply m_pos; lia). split; [exact SP|]. destruct SP as (S1 & S2 & S3 & S4).
    assert (LL : log10 (ta_min a) < log10 (ta_switch a)) by (rewrite S3; apply log10_lt; lra). split; [exact LL|].
    rewrite log_nth by exact Hi. destruct (Nat.eq_dec m 1) as [E|E].
    - exists 0. assert (i = O) by lia. subst i. rewrite E. cbn [INR Nat.sub]. repeat split; try lra; ring.
    - assert (P : 0 < INR (m - 1)) by (apply lt_0_INR; lia). exists (INR i / INR (m - 1)).
      assert (INR i <= INR (m - 1)) by (apply le_INR; lia). pose proof (pos_INR i). split; [split|].
      + apply Rmult_le_pos; [lra|left; now apply Rinv_0_lt_compat].
      + apply (Rmult_le_reg_r (INR (m - 1))); [exact P|]. unfold Rdiv. rewrite Rmult_assoc, Rinv_l by lra. lra.
      + split; field; lra.
  Qed.
  Lemma ages_increasing i : (S i < nsx)%nat -> nth i ages 0 < nth (S i) ages 0.
  Proof.
    intros Hi. destruct z_facts as (Z1 & _). pose proof switch_nonneg as SN.
    destruct (Nat.lt_ge_cases (S i) m) as [H|H].
    - destruct (log_part_bounds (S i) H) as (_ & LL & _). rewrite !log_nth by lia. rewrite S_INR.
      assert (P : 0 < INR (m - 1)) by (apply lt_0_INR; lia).
      assert (0 < (log10 (ta_switch a) - log10 (ta_min a)) / INR (m - 1)) by (apply Rdiv_lt_0_compat; lra). lra.
    - destruct (Nat.lt_ge_cases i m) as [H'|H'].
      + destruct (log_part_bounds i H') as ((_ & _ & S3 & _) & LL & u & U & _ & ->). replace (S i) with (m + 0)%nat by lia.
        destruct (lin_nth 0) as (-> & Q); [unfold m in *; lia|].
        apply Rle_lt_trans with (log10 (ta_switch a)); [nra|]. apply log10_lt; lra.
      + replace i with (m + (i - m))%nat by lia. replace (S (m + (i - m))) with (m + S (i - m))%nat by lia.
        destruct (lin_nth (i - m)) as (-> & Q1); [unfold m in *; lia|]. destruct (lin_nth (S (i - m))) as (-> & Q2); [unfold m in *; lia|].
        assert (P : 0 < INR z) by (apply lt_0_INR; unfold m in *; lia).
        assert (ta_switch a < ta_max a) by (apply z_switch; unfold m in *; lia).
        assert (0 < (ta_max a - ta_switch a) / INR z) by (apply Rdiv_lt_0_compat; lra).
        apply log10_lt; [lra|]. rewrite (S_INR (S (i - m))). lra.
  Qed.
  Lemma ages_placed i : (i < nsx)%nat ->
    exists x, placed a (pow10 (nth i ages 0)) x /\ ta_min a <= pow10 (nth i ages 0) <= ta_max a /\
      INR nsx - INR i - 1 - 1 / 2 <= INR nsx * x <= INR nsx - INR i + 1 / 2.
  Proof.
    intros Hi. destruct z_facts as (Z1 & Z2). apply Rabs_le_inv in Z2. set (f := INR nsx * ta_linear a) in *.
    destruct (Nat.lt_ge_cases i m) as [H|H].
    - destruct (log_part_bounds i H) as (SP & LL & u & U & Ui & ->). destruct SP as (S1 & S2 & S3 & S4 & S5 & S6 & S7).
      assert (M : INR nsx - INR z = INR m). { unfold m. rewrite minus_INR by exact Z1. reflexivity. }
      assert (M1 : INR (m - 1) = INR m - 1). { rewrite minus_INR by lia. reflexivity. }
      assert (SW : 0 < ta_switch a) by lra.
      exists (ta_linear a + (1 - ta_linear a) * (1 - u)). split; [|split].
      + apply (placed_log a _ _ (mkPart (ta_linear a) 1 (ta_switch a) (pow10 (log10 (ta_min a))))).
        * unfold log_part. rewrite S5, S1. reflexivity.
        * cbn [t_right t_left]. split; [apply pow10_le; nra|]. apply Rle_trans with (pow10 (log10 (ta_switch a))); [apply pow10_le; nra|right; now apply pow10_log10].
        * unfold along. cbn [x_left x_right t_left t_right]. rewrite !log10_pow10. f_equal. f_equal. field. lra.
      + split.
        * rewrite <- (pow10_log10 (ta_min a)) at 1 by lra. apply pow10_le. nra.
        * apply Rle_trans with (ta_switch a); [|lra]. rewrite <- (pow10_log10 (ta_switch a) SW) at 2. apply pow10_le. nra.
      + replace (INR nsx * (ta_linear a + (1 - ta_linear a) * (1 - u))) with (INR nsx - (INR nsx - f) * u) by (unfold f; ring).
        assert (E : INR nsx - f = INR m + (INR z - f)) by lra. rewrite E, Ui, M1. nra.
    - pose proof switch_nonneg as SN. replace i with (m + (i - m))%nat by lia. set (j := (i - m)%nat) in *.
      assert (Hj : (j < z)%nat) by (unfold j, m in *; lia). destruct (lin_nth j Hj) as (-> & Q).
      assert (SL : ta_switch a < ta_max a) by (apply z_switch; lia).
      assert (P : 0 < INR z) by (apply lt_0_INR; lia). rewrite pow10_log10 by lra.
      set (t := ta_switch a + INR (S j) * ((ta_max a - ta_switch a) / INR z)) in *.
      assert (T : (ta_max a - t) / (ta_max a - ta_switch a) = 1 - INR (S j) / INR z) by (unfold t; field; lra).
      exists (ta_linear a * (1 - INR (S j) / INR z)). split; [|split].
      + apply placed_linear; unfold linear_part; destruct (Rltb_spec (ta_switch a) (ta_max a)); try lra; cbn [t_left t_right]; [lra|].
        unfold along. cbn [x_left x_right]. rewrite T. ring.
      + destruct K as [(_ & K1 & K2 & _)|(_ & K2 & _)]; lra.
      + replace (INR nsx * (ta_linear a * (1 - INR (S j) / INR z))) with (f * (1 - INR (S j) / INR z)) by (unfold f; ring).
        assert (I : INR (m + j) = INR nsx - INR z + INR (S j) - 1).
        { rewrite plus_INR, S_INR. unfold m. rewrite minus_INR by exact Z1. ring. }
        rewrite I. assert (V : 0 <= INR (S j) / INR z <= 1).
        { pose proof (pos_INR (S j)). assert (INR (S j) <= INR z) by (apply le_INR; lia). split.
          - apply Rmult_le_pos; [lra|left; now apply Rinv_0_lt_compat].
          - apply (Rmult_le_reg_r (INR z)); [exact P|]. unfold Rdiv. rewrite Rmult_assoc, Rinv_l by lra. lra. }
        set (v := INR (S j) / INR z) in *. assert (W : INR (S j) = v * INR z) by (unfold v; field; lra). rewrite W.
        clear - Z2 V. replace (INR nsx - (INR nsx - INR z + v * INR z - 1) - 1 - 1 / 2) with (INR z * (1 - v) - 1 / 2) by ring.
        replace (INR nsx - (INR nsx - INR z + v * INR z - 1) + 1 / 2) with (INR z * (1 - v) + 1 + 1 / 2) by ring. nra.
  Qed.
End Columns.
