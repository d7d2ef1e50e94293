(** Lemmas about scales and axes. *)
From Coq Require Import String Ascii List ZArith Reals Bool Lia Lra Psatz Sorted.
From Verif Require Import Base NumModel NumLemmas InterpProofs StrModel FmtModel FmtProofs PlotModel.
Import ListNotations.
Local Open Scope R_scope.

(** ** Ticks *)
Lemma nice_step_spec est : 0 < est ->
  exists e nice, nice_step est = Ok (e, nice) /\ (nice = 1 \/ nice = 2 \/ nice = 5 \/ nice = 10) /\ est <= nice * ten e < 5 / 2 * est.
Proof.
  intros P. unfold nice_step. set (e := Rfloor (log10 est)). destruct (ten_log est P) as [A B]. fold e in A, B. pose proof (ten_pos e) as T.
  rewrite ten_add in B. change (ten 1) with (10 * 1) in B. set (f := est / ten e).
  assert (E : est = f * ten e) by (unfold f; field; lra).
  assert (F : 1 <= f < 10). { split; [apply (Rmult_le_reg_r (ten e)); [exact T|]; lra|apply (Rmult_lt_reg_r (ten e)); [exact T|]; lra]. }
  clearbody f e.
  assert (C : f = 1 \/ 1 < f <= 2 \/ 2 < f <= 5 \/ 5 < f) by lra.
  destruct C as [C|[C|[C|C]]].
  - assert (S : searchsorted [0; 1; 2; 5] f = 1%nat) by (cbn [searchsorted]; rewrite (Rltb_true 0 f), (Rltb_false 1 f) by lra; reflexivity).
    exists e, 1. rewrite S. split; [reflexivity|]. split; [tauto|]. rewrite E. split; nra.
  - assert (S : searchsorted [0; 1; 2; 5] f = 2%nat) by (cbn [searchsorted]; rewrite (Rltb_true 0 f), (Rltb_true 1 f), (Rltb_false 2 f) by lra; reflexivity).
    exists e, 2. rewrite S. split; [reflexivity|]. split; [tauto|]. rewrite E. split; nra.
  - assert (S : searchsorted [0; 1; 2; 5] f = 3%nat) by (cbn [searchsorted]; rewrite (Rltb_true 0 f), (Rltb_true 1 f), (Rltb_true 2 f), (Rltb_false 5 f) by lra; reflexivity).
    exists e, 5. rewrite S. split; [reflexivity|]. split; [tauto|]. rewrite E. split; nra.
  - assert (S : searchsorted [0; 1; 2; 5] f = 4%nat) by (cbn [searchsorted]; rewrite (Rltb_true 0 f), (Rltb_true 1 f), (Rltb_true 2 f), (Rltb_true 5 f) by lra; reflexivity).
    exists e, 10. rewrite S. split; [reflexivity|]. split; [tauto|]. rewrite E. split; nra.
Qed.
(** the multiples of a step that cover an interval *)
Definition cover (lo hi step : R) : list R := map (fun i => IZR i * step) (zrange (Rfloor (lo / step)) (Rceil (hi / step) + 1)).
Lemma cover_length lo hi step : lo < hi -> 0 < step ->
  Z.of_nat (length (cover lo hi step)) = (Rceil (hi / step) - Rfloor (lo / step) + 1)%Z /\ (Rfloor (lo / step) < Rceil (hi / step))%Z.
Proof.
  intros H S. assert (D : lo / step < hi / step) by (apply Rmult_lt_compat_r; [now apply Rinv_0_lt_compat|exact H]).
  destruct (Rfloor_spec (lo / step)) as [A B]. destruct (Rceil_spec (hi / step)) as [C E].
  assert (K : (Rfloor (lo / step) < Rceil (hi / step))%Z) by (apply lt_IZR; lra).
  split; [|exact K]. unfold cover. rewrite map_length, zrange_length. lia.
Qed.
Lemma cover_few lo hi step : lo < hi -> 0 < step -> IZR (Z.of_nat (length (cover lo hi step))) < (hi - lo) / step + 3.
Proof.
  intros H S. destruct (cover_length lo hi step H S) as [-> _]. destruct (Rfloor_spec (lo / step)) as [A B]. destruct (Rceil_spec (hi / step)) as [C E].
  rewrite plus_IZR, minus_IZR. unfold Rdiv in *. lra.
Qed.
Lemma cover_many lo hi step : lo < hi -> 0 < step -> (hi - lo) / step <= IZR (Z.of_nat (length (cover lo hi step))) - 1.
Proof.
  intros H S. destruct (cover_length lo hi step H S) as [-> _]. destruct (Rfloor_spec (lo / step)) as [A B]. destruct (Rceil_spec (hi / step)) as [C E].
  rewrite plus_IZR, minus_IZR. unfold Rdiv in *. lra.
Qed.
Definition one_of_nice (nice : R) : Prop := nice = 1 \/ nice = 2 \/ nice = 5 \/ nice = 10.
Section Loop.
Variables (lo hi : R) (M : Z).
Hypothesis LH : lo < hi.
Hypothesis M2 : (2 <= M)%Z.
Let MR : 2 <= IZR M.
Proof. change 2 with (IZR 2). now apply IZR_le. Qed.
Definition estimate (m : R) : R := (hi - lo) / (IZR M * m).
Lemma estimate_pos m : 0 < m -> 0 < estimate m.
Proof. intros P. unfold estimate. apply Rdiv_lt_0_compat; [lra|]. apply Rmult_lt_0_compat; lra. Qed.
(** what a finished loop returns *)
Lemma loop_result fuel : forall m t nice, 0 < m -> 9 / 10 * (IZR M - 2) < IZR M * m -> ticks_loop fuel lo hi M m = Some (Ok (t, nice)) ->
  exists e, one_of_nice nice /\ t = cover lo hi (nice * ten e) /\ (Z.of_nat (length t) <= M)%Z /\ 36 / 100 * (IZR M - 2) < IZR (Z.of_nat (length t)) - 1.
Proof.
  induction fuel as [|fuel IH]; intros m t nice P Q H; cbn [ticks_loop] in H; [discriminate|].
  fold (estimate m) in H. destruct (nice_step_spec _ (estimate_pos m P)) as (e & n & E & N & S1 & S2). rewrite E in H.
  fold (cover lo hi (n * ten e)) in H. pose proof (estimate_pos m P) as EP.
  assert (SP : 0 < n * ten e) by lra.
  assert (MG : hi - lo = estimate m * (IZR M * m)) by (unfold estimate; field; split; lra).
  destruct (Z.leb_spec (Z.of_nat (length (cover lo hi (n * ten e)))) M) as [L|L].
  - injection H as <- <-. exists e. split; [exact N|]. split; [reflexivity|]. split; [exact L|].
    pose proof (cover_many lo hi (n * ten e) LH SP) as CM.
    apply Rlt_le_trans with ((hi - lo) / (n * ten e)); [|exact CM].
    apply (Rmult_lt_reg_r (n * ten e)); [exact SP|]. set (s := n * ten e) in *.
    replace ((hi - lo) / s * s) with (hi - lo) by (field; lra). rewrite MG. set (g := estimate m) in *. set (k := IZR M * m) in *. clearbody s g k. clear - S1 S2 EP Q MR. nra.
  - apply (IH _ _ _) in H; [exact H|lra|].
    pose proof (cover_few lo hi (n * ten e) LH SP) as CF. apply IZR_lt in L.
    assert (ML : (M + 1 <= Z.of_nat (length (cover lo hi (n * ten e))))%Z) by (apply lt_IZR in L; lia). apply IZR_le in ML. rewrite plus_IZR in ML.
    assert (D : IZR M - 2 < (hi - lo) / (n * ten e)) by lra.
    apply (Rmult_lt_compat_r (n * ten e)) in D; [|exact SP]. unfold Rdiv in D. rewrite Rmult_assoc, Rinv_l, Rmult_1_r in D by lra.
    rewrite MG in D. set (s := n * ten e) in *. set (g := estimate m) in *. assert (K : (IZR M - 2) < IZR M * m).
    { clearbody s g. set (k := IZR M * m) in *. clearbody k. clear - S1 S2 EP D MR. nra. }
    lra.
Qed.
Lemma loop_no_error fuel : forall m x, 0 < m -> ticks_loop fuel lo hi M m <> Some (Err x).
Proof.
  induction fuel as [|fuel IH]; intros m x P H; cbn [ticks_loop] in H; [discriminate|].
  fold (estimate m) in H. destruct (nice_step_spec _ (estimate_pos m P)) as (e & n & E & _). rewrite E in H.
  destruct (Z.leb _ M); [discriminate|]. apply IH in H; [exact H|lra].
Qed.
(** it ends as soon as all steps from [B] on have few enough multiples *)
Lemma loop_ends B : 0 < B -> (forall s, B <= s -> (Z.of_nat (length (cover lo hi s)) <= M)%Z) ->
  forall fuel m, 0 < m -> IZR M * m * (9 / 10) ^ fuel * B <= hi - lo -> exists r, ticks_loop (S fuel) lo hi M m = Some (Ok r).
Proof.
  intros BP HB. induction fuel as [|fuel IH]; intros m P Q; cbn [ticks_loop]; fold (estimate m);
    destruct (nice_step_spec _ (estimate_pos m P)) as (e & n & E & N & S1 & S2); rewrite E; fold (cover lo hi (n * ten e));
    pose proof (estimate_pos m P) as EP; (assert (K : 0 < IZR M * m) by (apply Rmult_lt_0_compat; lra));
    (assert (MG : hi - lo = estimate m * (IZR M * m)) by (unfold estimate; field; split; lra)).
  - cbn [pow] in Q. assert (G : B <= n * ten e).
    { apply Rle_trans with (estimate m); [|exact S1]. apply (Rmult_le_reg_r (IZR M * m)); [exact K|]. lra. }
    specialize (HB _ G). apply Z.leb_le in HB. rewrite HB. eexists. reflexivity.
  - destruct (Z.leb _ M); [eexists; reflexivity|]. change (S fuel) with (S fuel) in IH. apply IH; [lra|].
    cbn [pow] in Q. lra.
Qed.
Lemma loop_fuel fuel : forall m r, ticks_loop fuel lo hi M m = Some r -> forall k, (fuel <= k)%nat -> ticks_loop k lo hi M m = Some r.
Proof.
  induction fuel as [|fuel IH]; intros m r H k L; cbn [ticks_loop] in H; [discriminate|].
  destruct k as [|k]; [lia|]. cbn [ticks_loop]. destruct (nice_step _) as [[e n]|]; [|exact H].
  destruct (Z.leb _ M); [exact H|]. apply IH; [exact H|lia].
Qed.
Lemma enough_fuel B m : 0 < B -> 0 < m -> exists fuel, IZR M * m * (9 / 10) ^ fuel * B <= hi - lo.
Proof.
  intros BP P. assert (K : 0 < IZR M * m * B) by (repeat apply Rmult_lt_0_compat; lra).
  destruct (pow_lt_1_zero (9 / 10) ltac:(rewrite Rabs_right; lra) ((hi - lo) / (IZR M * m * B)) ltac:(apply Rdiv_lt_0_compat; lra)) as (f & H).
  exists f. specialize (H f (le_n f)). rewrite Rabs_right in H by (apply Rle_ge, pow_le; lra).
  apply (Rmult_lt_compat_r (IZR M * m * B)) in H; [|exact K]. unfold Rdiv in H. rewrite (Rmult_assoc (hi - lo)), Rinv_l, Rmult_1_r in H by lra. lra.
Qed.
(** for three ticks or more, or for data on one side of zero *)
Lemma few_wide : (3 <= M)%Z -> forall s, hi - lo <= s -> (Z.of_nat (length (cover lo hi s)) <= M)%Z.
Proof.
  intros M3 s H. pose proof (cover_few lo hi s LH ltac:(lra)) as C. assert (D : (hi - lo) / s <= 1).
  { apply (Rmult_le_reg_r s); [lra|]. unfold Rdiv. rewrite Rmult_assoc, Rinv_l by lra. lra. }
  assert (K : IZR (Z.of_nat (length (cover lo hi s))) < IZR 4) by lra. apply lt_IZR in K. lia.
Qed.
Lemma Rfloor_unique z x : IZR z <= x < IZR z + 1 -> Rfloor x = z.
Proof.
  intros [A B]. destruct (Rfloor_spec x) as [C D]. assert (K1 : (z < Rfloor x + 1)%Z) by (apply lt_IZR; rewrite plus_IZR; lra).
  assert (K2 : (Rfloor x < z + 1)%Z) by (apply lt_IZR; rewrite plus_IZR; lra). lia.
Qed.
Lemma few_positive : 0 <= lo -> forall s, hi <= s -> (Z.of_nat (length (cover lo hi s)) <= M)%Z.
Proof.
  intros P s H. assert (SP : 0 < s) by lra. destruct (cover_length lo hi s LH SP) as [-> _].
  assert (F : Rfloor (lo / s) = 0%Z). { apply Rfloor_unique. split; [apply Rmult_le_pos; [lra|left; now apply Rinv_0_lt_compat]|].
    apply (Rmult_lt_reg_r s); [exact SP|]. unfold Rdiv. rewrite Rmult_assoc, Rinv_l by lra. lra. }
  assert (C : (Rceil (hi / s) < 2)%Z). { destruct (Rceil_spec (hi / s)) as [C _]. apply lt_IZR.
    assert (hi / s <= 1). { apply (Rmult_le_reg_r s); [exact SP|]. unfold Rdiv. rewrite Rmult_assoc, Rinv_l by lra. lra. } lra. }
  lia.
Qed.
Lemma few_negative : hi <= 0 -> forall s, - lo <= s -> (Z.of_nat (length (cover lo hi s)) <= M)%Z.
Proof.
  intros P s H. assert (SP : 0 < s) by lra. destruct (cover_length lo hi s LH SP) as [-> _].
  assert (F : (-1 <= Rfloor (lo / s))%Z). { destruct (Rfloor_spec (lo / s)) as [_ B].
    assert (-1 <= lo / s). { apply (Rmult_le_reg_r s); [exact SP|]. unfold Rdiv. rewrite Rmult_assoc, Rinv_l by lra. lra. }
    assert (K : IZR (-2) < IZR (Rfloor (lo / s))) by (change (IZR (-2)) with (-2); lra). apply lt_IZR in K. lia. }
  assert (C : (Rceil (hi / s) < 1)%Z). { destruct (Rceil_spec (hi / s)) as [C _]. apply lt_IZR.
    assert (hi / s <= 0). { apply (Rmult_le_reg_r s); [exact SP|]. unfold Rdiv. rewrite Rmult_assoc, Rinv_l by lra. lra. } change (IZR 1) with 1. lra. }
  lia.
Qed.
Lemma loop_terminates : (3 <= M)%Z \/ 0 <= lo \/ hi <= 0 -> exists fuel r, forall k, (fuel <= k)%nat -> ticks_loop k lo hi M 1 = Some (Ok r).
Proof.
  intros C. assert (HB : exists B, 0 < B /\ forall s, B <= s -> (Z.of_nat (length (cover lo hi s)) <= M)%Z).
  { destruct C as [C|[C|C]]; [exists (hi - lo)|exists hi|exists (- lo)]; (split; [lra|]); [now apply few_wide|now apply few_positive|now apply few_negative]. }
  destruct HB as (B & BP & HB). destruct (enough_fuel B 1 BP ltac:(lra)) as (f & F).
  destruct (loop_ends B BP HB f 1 ltac:(lra) F) as (r & E). exists (S f), r. intros k. now apply loop_fuel.
Qed.
(** two ticks never suffice on both sides of zero *)
Lemma loop_diverges : M = 2%Z -> lo < 0 < hi -> forall fuel m, 0 < m -> ticks_loop fuel lo hi M m = None.
Proof.
  intros E2 [A B]. induction fuel as [|fuel IH]; intros m P; [reflexivity|]. cbn [ticks_loop]. fold (estimate m).
  destruct (nice_step_spec _ (estimate_pos m P)) as (e & n & E & _ & S1 & _). rewrite E. fold (cover lo hi (n * ten e)).
  pose proof (estimate_pos m P). assert (SP : 0 < n * ten e) by lra. destruct (cover_length lo hi _ LH SP) as [LN _].
  assert (F : (Rfloor (lo / (n * ten e)) < 0)%Z). { apply lt_IZR. destruct (Rfloor_spec (lo / (n * ten e))) as [F _].
    assert (lo / (n * ten e) < 0). { apply (Rmult_lt_reg_r (n * ten e)); [exact SP|]. unfold Rdiv. rewrite Rmult_assoc, Rinv_l by lra. lra. } lra. }
  assert (C : (0 < Rceil (hi / (n * ten e)))%Z). { apply lt_IZR. destruct (Rceil_spec (hi / (n * ten e))) as [_ C].
    assert (0 < hi / (n * ten e)) by (apply Rdiv_lt_0_compat; lra). lra. }
  destruct (Z.leb_spec (Z.of_nat (length (cover lo hi (n * ten e)))) M); [lia|]. apply IH. lra.
Qed.
End Loop.
