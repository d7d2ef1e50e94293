From Coq Require Import String Ascii List ZArith Reals Lra Lia Bool Arith.
From Verif Require Import Base NumLemmas StrModel StrProofs FmtModel FmtSpec.
Import ListNotations.
Local Open Scope R_scope.

(** ** Powers of ten *)
Lemma ten_pos e : 0 < ten e.
Proof. apply powerRZ_lt. lra. Qed.
Lemma ten_add a b : ten (a + b) = ten a * ten b.
Proof. apply powerRZ_add. lra. Qed.
Lemma ten_IZR k : (0 <= k)%Z -> ten k = IZR (10 ^ k).
Proof.
  intros H. unfold ten. rewrite <- (Z2Nat.id k H). rewrite <- pow_powerRZ. rewrite <- pow_IZR. reflexivity.
Qed.
Lemma ten_nat k : ten (Z.of_nat k) = 10 ^ k.
Proof. unfold ten. now rewrite <- pow_powerRZ. Qed.
Lemma ten_neg k : ten (- Z.of_nat k) = / 10 ^ k.
Proof.
  apply Rmult_eq_reg_r with (10 ^ k); [|apply pow_nonzero; lra]. rewrite Rinv_l by (apply pow_nonzero; lra).
  rewrite <- ten_nat, <- ten_add. replace (- Z.of_nat k + Z.of_nat k)%Z with 0%Z by lia. reflexivity.
Qed.
Lemma ten_log x : 0 < x -> ten (Rfloor (log10 x)) <= x < ten (Rfloor (log10 x) + 1).
Proof.
  intros H. assert (E : forall z, ten z = pow10 (IZR z)).
  { intros z. unfold ten, pow10. rewrite powerRZ_Rpower by lra. reflexivity. }
  rewrite !E. pose proof (Rfloor_spec (log10 x)) as (A & B). rewrite plus_IZR.
  assert (X : x = pow10 (log10 x)).
  { unfold pow10, log10. assert (0 < ln 10) by (rewrite <- ln_1; apply ln_increasing; lra). unfold Rdiv. rewrite Rmult_assoc, Rinv_l, Rmult_1_r by lra. now rewrite exp_ln. }
  rewrite X at 2 3. split; [|now apply pow10_lt]. destruct A as [A|A]; [left; now apply pow10_lt|right; now rewrite A].
Qed.
Lemma ten_lt a b : (a < b)%Z -> ten a < ten b.
Proof.
  intros H. replace b with (a + (b - a))%Z by lia. rewrite ten_add. pose proof (ten_pos a).
  rewrite (ten_IZR (b - a)) by lia. assert (1 < IZR (10 ^ (b - a))).
  { apply IZR_lt. apply Z.pow_gt_1; lia. } nra.
Qed.

(** ** Rounding *)
Lemma Rabs_le_inv a b : Rabs a <= b -> - b <= a <= b.
Proof. unfold Rabs. destruct (Rcase_abs a); lra. Qed.
Lemma round_even_spec x : Rabs (x - IZR (round_even x)) <= 1 / 2 /\ (Rabs (x - IZR (round_even x)) = 1 / 2 -> Z.Even (round_even x)).
Proof.
  unfold round_even. pose proof (Rfloor_spec x) as (A & B). set (f := Rfloor x) in *.
  destruct (Rltb_spec (x - IZR f) (1 / 2)). { rewrite Rabs_pos_eq by lra. split; [lra|intros; lra]. }
  destruct (Rltb_spec (1 / 2) (x - IZR f)). { rewrite plus_IZR. rewrite Rabs_left1 by lra. split; [lra|intros; lra]. }
  destruct (Z.even f) eqn:E.
  - rewrite Rabs_pos_eq by lra. split; [lra|]. intros _. now apply Z.even_spec.
  - rewrite plus_IZR. rewrite Rabs_left1 by lra. split; [lra|]. intros _. apply Z.even_spec. rewrite Z.even_add. now rewrite E.
Qed.
Lemma round_even_ge x z : IZR z <= x -> (z <= round_even x)%Z.
Proof.
  intros H. destruct (round_even_spec x) as (A & _). apply Rabs_le_inv in A. unfold round_even in *. pose proof (Rfloor_spec x) as (F1 & F2).
  assert (z <= Rfloor x)%Z by (apply Z.lt_succ_r, lt_IZR; unfold Z.succ; rewrite plus_IZR; lra).
  destruct (Rltb _ _); [lia|]. destruct (Rltb _ _); [lia|]. destruct (Z.even _); lia.
Qed.
Lemma round_even_le x z : x <= IZR z -> (round_even x <= z)%Z.
Proof.
  intros H. destruct (round_even_spec x) as (A & _). apply Rabs_le_inv in A.
  apply Z.lt_succ_r, lt_IZR. unfold Z.succ. rewrite plus_IZR. lra.
Qed.
Lemma round_even_IZR z : round_even (IZR z) = z.
Proof. apply Z.le_antisymm; [apply round_even_le|apply round_even_ge]; lra. Qed.
(** the scientific notation of a positive number *)
Lemma sci_spec d x : (1 <= d)%nat -> 0 < x ->
  let '(m, e) := sci d x in
  (10 ^ (Z.of_nat d - 1) <= m < 10 ^ Z.of_nat d)%Z /\ significant d x (IZR m * ten (e - Z.of_nat d + 1)) /\
  ten e <= x + ten (e - Z.of_nat d) / 2 /\ x < ten (e + 1).
Proof.
  intros D X. unfold sci. destruct (Reqb_spec x 0) as [->|_]; [lra|]. cbv zeta. set (e := Rfloor (log10 x)).
  pose proof (ten_log x X) as (L1 & L2). fold e in L1, L2. set (u := ten (e - Z.of_nat d + 1)).
  pose proof (ten_pos (e - Z.of_nat d + 1)) as U. fold u in U.
  assert (A : IZR (10 ^ (Z.of_nat d - 1)) <= x / u).
  { apply Rmult_le_reg_r with u; [exact U|]. unfold Rdiv. rewrite Rmult_assoc, Rinv_l, Rmult_1_r by lra.
    rewrite <- ten_IZR by lia. unfold u. rewrite <- ten_add. replace (_ + _)%Z with e by lia. exact L1. }
  assert (B : x / u <= IZR (10 ^ Z.of_nat d)).
  { apply Rmult_le_reg_r with u; [exact U|]. unfold Rdiv. rewrite Rmult_assoc, Rinv_l, Rmult_1_r by lra.
    rewrite <- ten_IZR by lia. unfold u. rewrite <- ten_add. replace (_ + _)%Z with (e + 1)%Z by lia. lra. }
  apply round_even_ge in A as A'. apply round_even_le in B as B'.
  destruct (round_even_spec (x / u)) as (R1 & R2). set (m := round_even (x / u)) in *.
  assert (M : rounded_to u x (IZR m * u)).
  { exists m. split; [reflexivity|]. replace (x - IZR m * u) with ((x / u - IZR m) * u) by (field; lra).
    rewrite Rabs_mult, (Rabs_pos_eq u) by lra. split; [nra|]. intros E. apply R2. apply Rmult_eq_reg_r with u; lra. }
  assert (S : significant d x (IZR m * u)).
  { right. exists e. rewrite (Rabs_pos_eq x) by lra. split; [split; assumption|exact M]. }
  destruct (Z.eqb_spec m (10 ^ Z.of_nat d)) as [E|N].
  - split; [split; [lia|apply Z.pow_lt_mono_r; lia]|]. rewrite E in S. 
    replace (IZR (10 ^ (Z.of_nat d - 1)) * ten (e + 1 - Z.of_nat d + 1)) with (IZR (10 ^ Z.of_nat d) * u).
    2: { rewrite <- !ten_IZR by lia. unfold u. rewrite <- !ten_add. f_equal. lia. }
    split; [exact S|]. split.
    + assert (ten (e + 1) - x <= u / 2).
      { apply Rabs_le_inv in R1. assert (ten (e + 1) = IZR m * u) by (rewrite E, <- ten_IZR by lia; unfold u; rewrite <- ten_add; f_equal; lia).
        assert (x = x / u * u) by (field; lra). assert (Q : IZR m - x / u <= 1 / 2) by lra.
        apply (Rmult_le_compat_r u) in Q; [|lra].
        replace ((IZR m - x / u) * u) with (IZR m * u - x) in Q by (field; lra). lra. }
      replace (ten (e + 1 - Z.of_nat d)) with u by (unfold u; f_equal; lia). lra.
    + assert (ten (e + 1) < ten (e + 1 + 1)) by (apply ten_lt; lia). lra.
  - split; [lia|]. split; [exact S|]. pose proof (ten_pos (e - Z.of_nat d)). split; lra.
Qed.

(** ** Digit strings *)
Lemma digits_value_acc s : forall a, fold_left (fun a c => (10 * a + digit_value c)%Z) s a = (a * 10 ^ Z.of_nat (length s) + digits_value s)%Z.
Proof.
  induction s as [|c s IH]; intros a; [cbn; lia|]. unfold digits_value. cbn [fold_left length]. rewrite !IH.
  rewrite Nat2Z.inj_succ, Z.pow_succ_r by lia. lia.
Qed.
Lemma digits_value_app a b : digits_value (a ++ b) = (digits_value a * 10 ^ Z.of_nat (length b) + digits_value b)%Z.
Proof. unfold digits_value at 1. rewrite fold_left_app. apply digits_value_acc. Qed.
Lemma digit_ok z : (0 <= z < 10)%Z -> digit_value (digit z) = z /\ is_digit (digit z) = true.
Proof.
  intros H. unfold digit_value, digit, is_digit, code_in. rewrite nat_ascii_embedding by lia. split; [lia|].
  apply andb_true_iff. split; apply Nat.leb_le; lia.
Qed.
Lemma all_digits_app a b : all_digits (a ++ b) <-> all_digits a /\ all_digits b.
Proof. apply Forall_app. Qed.
Lemma digits_spec k : forall m, length (digits k m) = k /\ all_digits (digits k m) /\ digits_value (digits k m) = (m mod 10 ^ Z.of_nat k)%Z.
Proof.
  induction k as [|k IH]; intros m.
  - cbn. rewrite Z.mod_1_r. repeat split. constructor.
  - cbn [digits]. destruct (IH (m / 10)%Z) as (A & B & C). pose proof (Z.mod_pos_bound m 10 ltac:(lia)) as MB.
    destruct (digit_ok _ MB) as (D1 & D2). rewrite app_length, A. split; [cbn; lia|]. split.
    + apply all_digits_app. split; [exact B|]. constructor; [exact D2|constructor].
    + rewrite digits_value_app, C. cbn [length]. unfold digits_value. cbn [fold_left]. rewrite D1.
      change (10 ^ Z.of_nat 1)%Z with 10%Z. rewrite Nat2Z.inj_succ, Z.pow_succ_r by lia. rewrite (Z.rem_mul_r m 10 (10 ^ Z.of_nat k)) by (try apply Z.pow_nonzero; lia). lia.
Qed.
Lemma zeros_spec k : length (zeros k) = k /\ all_digits (zeros k) /\ digits_value (zeros k) = 0%Z.
Proof.
  unfold zeros. rewrite repeat_length. split; [reflexivity|]. induction k as [|k IH]; [split; [constructor|reflexivity]|].
  destruct IH as (A & B). cbn [repeat]. split; [constructor; [reflexivity|exact A]|].
  change (ch "0" :: repeat (ch "0") k) with ([ch "0"] ++ repeat (ch "0") k). rewrite digits_value_app, B. reflexivity.
Qed.

(** ** Numerals *)
(** numerals without sign *)
Definition unum (s : str) (v : R) : Prop :=
  exists ip fp, ip <> [] /\ all_digits ip /\ all_digits fp /\
    s = ip ++ (match fp with [] => [] | _ => L "." ++ fp end) /\ v = IZR (digits_value (ip ++ fp)) * ten (- Z.of_nat (length fp)).
Lemma unum_intro ip fp x : ip <> [] -> all_digits ip -> all_digits fp ->
  x = IZR (digits_value (ip ++ fp)) * ten (- Z.of_nat (length fp)) ->
  unum (ip ++ (match fp with [] => [] | _ => L "." ++ fp end)) x.
Proof. intros H1 H2 H3 ->. exists ip, fp. repeat split; auto. Qed.
Lemma numeral_sign (neg : bool) s v : unum s v -> numeral ((if neg then L "-" else []) ++ s) ((if neg then -1 else 1) * v).
Proof.
  intros (ip & fp & H1 & H2 & H3 & -> & ->). exists neg, ip, fp. repeat split; auto. rewrite ten_neg. unfold Rdiv. ring.
Qed.
(** digits [sf] with the decimal point placed for exponent e *)
Definition placed (sf : str) (e : Z) : str :=
  if Z.ltb e 0 then L "0." ++ zeros (Z.to_nat (Z.abs e) - 1) ++ sf
  else if Z.ltb e (Z.of_nat (length sf) - 1) then firstn (Z.to_nat (e + 1)) sf ++ L "." ++ skipn (Z.to_nat (e + 1)) sf
  else sf ++ zeros (Z.to_nat (e - Z.of_nat (length sf) + 1)).
Lemma unum_placed sf e : sf <> [] -> all_digits sf ->
  unum (placed sf e) (IZR (digits_value sf) * ten (e - Z.of_nat (length sf) + 1)).
Proof.
  intros NE D. unfold placed. assert (LP : (0 < length sf)%nat) by (destruct sf; [congruence|cbn; lia]).
  destruct (Z.ltb_spec e 0) as [E|E].
  - destruct (zeros_spec (Z.to_nat (Z.abs e) - 1)) as (Z1 & Z2 & Z3). set (z := zeros _) in *.
    pose proof (unum_intro (L "0") (z ++ sf) (IZR (digits_value sf) * ten (e - Z.of_nat (length sf) + 1))) as N.
    destruct (z ++ sf) as [|c r] eqn:F; [apply app_eq_nil in F; destruct F; congruence|]. rewrite <- F in *. cbn [L list_ascii_of_string app] in *. apply N.
    + discriminate.
    + constructor; [reflexivity|constructor].
    + apply all_digits_app. split; assumption.
    + f_equal.
      * f_equal. change ("0"%char :: z ++ sf) with (["0"%char] ++ z ++ sf). rewrite !digits_value_app, Z3. change (digits_value ["0"%char]) with 0%Z. lia.
      * f_equal. rewrite app_length, Z1. lia.
  - destruct (Z.ltb_spec e (Z.of_nat (length sf) - 1)) as [E2|E2].
    + set (k := Z.to_nat (e + 1)). assert (K : (0 < k < length sf)%nat) by (unfold k; lia).
      pose proof (unum_intro (firstn k sf) (skipn k sf) (IZR (digits_value sf) * ten (e - Z.of_nat (length sf) + 1))) as N.
      assert (LS : length (skipn k sf) = (length sf - k)%nat) by apply skipn_length.
      destruct (skipn k sf) as [|c r] eqn:F; [cbn in LS; lia|]. rewrite <- F in *. rewrite firstn_skipn in N. apply N.
      * intros H. apply (f_equal (@length _)) in H. rewrite firstn_length in H. cbn in H. lia.
      * unfold all_digits in *. rewrite Forall_forall in *. intros x Hx. apply D. rewrite <- (firstn_skipn k sf). apply in_or_app. now left.
      * unfold all_digits in *. rewrite Forall_forall in *. intros x Hx. apply D. rewrite <- (firstn_skipn k sf). apply in_or_app. now right.
      * f_equal. f_equal. rewrite LS. unfold k. lia.
    + destruct (zeros_spec (Z.to_nat (e - Z.of_nat (length sf) + 1))) as (Z1 & Z2 & Z3). set (z := zeros _) in *.
      rewrite <- (app_nil_r (sf ++ z)). apply (unum_intro (sf ++ z) []).
      * destruct sf; [congruence|discriminate].
      * apply all_digits_app. split; assumption.
      * constructor.
      * rewrite app_nil_r. rewrite digits_value_app, Z1, Z3, Z.add_0_r. rewrite mult_IZR, <- ten_IZR by lia.
        rewrite Rmult_assoc, <- ten_add. do 2 f_equal. cbn [length]. lia.
Qed.
Lemma sign_neg x : sign x = if Rltb x 0 then L "-" else [].
Proof. reflexivity. Qed.
Lemma sign_abs x : (if Rltb x 0 then -1 else 1) * Rabs x = x.
Proof. destruct (Rltb_spec x 0); [rewrite Rabs_left by lra; lra|rewrite Rabs_pos_eq by lra; lra]. Qed.
Lemma significant_sign d x y : significant d (Rabs x) y -> significant d x ((if Rltb x 0 then -1 else 1) * y).
Proof.
  intros [(A & ->)|(e & H & m & -> & B & C)].
  - left. split; [|lra]. destruct (Req_dec x 0) as [|N]; [assumption|]. apply Rabs_no_R0 in N. contradiction.
  - rewrite Rabs_Rabsolu in H. right. exists e. split; [exact H|].
    destruct (Rltb_spec x 0) as [X|X].
    + rewrite (Rabs_left x X) in *. exists (- m)%Z. rewrite opp_IZR. split; [ring|].
      replace (x - -1 * (IZR m * powerRZ 10 (e - Z.of_nat d + 1))) with (- (- x - IZR m * powerRZ 10 (e - Z.of_nat d + 1))) by ring.
      rewrite Rabs_Ropp. split; [exact B|]. intros E. apply C in E. destruct E as (k & ->). exists (- k)%Z. lia.
    + rewrite (Rabs_pos_eq x) in * by lra. exists m. rewrite Rmult_1_l. split; [reflexivity|]. split; assumption.
Qed.
Lemma sci_zero d : sci d 0 = (0, 0)%Z.
Proof. unfold sci. destruct (Reqb_spec 0 0); [reflexivity|lra]. Qed.
Lemma sci_value d x : (1 <= d)%nat -> let '(m, e) := sci d (Rabs x) in
  (0 <= m < 10 ^ Z.of_nat d)%Z /\ (x <> 0 -> (10 ^ (Z.of_nat d - 1) <= m)%Z) /\
  significant d x ((if Rltb x 0 then -1 else 1) * (IZR m * ten (e - Z.of_nat d + 1))).
Proof.
  intros D. destruct (Req_dec x 0) as [->|N].
  - rewrite Rabs_R0, sci_zero. split; [split; [lia|apply Z.pow_pos_nonneg; lia]|]. split; [congruence|]. left. split; [reflexivity|]. lra.
  - pose proof (sci_spec d (Rabs x) D (Rabs_pos_lt x N)) as H. destruct (sci d (Rabs x)) as (m & e). destruct H as (A & B & _).
    assert (0 < 10 ^ (Z.of_nat d - 1))%Z by (apply Z.pow_pos_nonneg; lia).
    split; [lia|]. split; [intros; apply A|]. now apply significant_sign.
Qed.
Theorem sigfigs_spec n d : (1 <= d)%nat ->
  exists s y, sigfigs n d = Ok s /\ numeral s y /\ significant d n y.
Proof.
  intros D. pose proof (sci_value d n D) as H. unfold sigfigs. destruct d as [|d']; [lia|]. set (d := Datatypes.S d') in *.
  destruct (sci d (Rabs n)) as (m & e). destruct H as (M & _ & Sg). destruct (digits_spec d m) as (D1 & D2 & D3).
  eexists. eexists. split; [reflexivity|]. split; [|exact Sg].
  assert (NE : digits d m <> []) by (intros H; rewrite H in D1; discriminate).
  pose proof (numeral_sign (Rltb n 0) _ _ (unum_placed (digits d m) e NE D2)) as Q. rewrite D3, Z.mod_small in Q by exact M. unfold placed in Q.
  rewrite D1 in Q. exact Q.
Qed.

(** ** Integers *)
Lemma dec_fuel_spec f : forall m, (0 <= m < 2 ^ (Z.of_nat f + 1))%Z ->
  all_digits (dec_fuel f m) /\ dec_fuel f m <> [] /\ digits_value (dec_fuel f m) = m.
Proof.
  induction f as [|f IH]; intros m H; cbn [dec_fuel].
  - change (2 ^ (Z.of_nat 0 + 1))%Z with 2%Z in H. rewrite Z.mod_small by lia. destruct (digit_ok m ltac:(lia)) as (A & B).
    split; [constructor; [exact B|constructor]|]. split; [discriminate|]. unfold digits_value. cbn [fold_left]. lia.
  - destruct (Z.ltb_spec m 10) as [M|M].
    + destruct (digit_ok m ltac:(lia)) as (A & B).
      split; [constructor; [exact B|constructor]|]. split; [discriminate|]. unfold digits_value. cbn [fold_left]. lia.
    + destruct (IH (m / 10)%Z) as (A & B & C).
      { split; [apply Z.div_pos; lia|]. apply Z.div_lt_upper_bound; [lia|]. rewrite Nat2Z.inj_succ in H.
        replace (Z.succ (Z.of_nat f) + 1)%Z with (Z.succ (Z.of_nat f + 1)) in H by lia. rewrite Z.pow_succ_r in H by lia. lia. }
      destruct (digit_ok (m mod 10) (Z.mod_pos_bound m 10 ltac:(lia))) as (D1 & D2).
      split; [apply all_digits_app; split; [exact A|constructor; [exact D2|constructor]]|].
      split; [intros E; apply app_eq_nil in E; destruct E; discriminate|].
      rewrite digits_value_app, C. change (10 ^ Z.of_nat (length [digit (m mod 10)]))%Z with 10%Z.
      unfold digits_value. cbn [fold_left]. rewrite D1. pose proof (Z.div_mod m 10 ltac:(lia)). lia.
Qed.
Lemma dec_str_spec m : (0 <= m)%Z -> all_digits (dec_str m) /\ dec_str m <> [] /\ digits_value (dec_str m) = m.
Proof.
  intros H. unfold dec_str. apply dec_fuel_spec. pose proof (Z.log2_nonneg m). rewrite Z2Nat.id by lia. split; [lia|].
  destruct (Z.eq_dec m 0) as [->|N]; [cbn; lia|]. replace (Z.log2 m + 1)%Z with (Z.succ (Z.log2 m)) by lia. apply Z.log2_spec. lia.
Qed.
Lemma digit_not c d : is_digit c = true -> is_digit d = false -> c <> d.
Proof. intros A B ->. congruence. Qed.
Lemma int_str_spec z : integer_numeral (int_str z) z.
Proof.
  unfold int_str. assert (G : forall m, (0 <= m)%Z -> unum (dec_str m) (IZR m) /\ ~ In "."%char (dec_str m)).
  { intros m H. destruct (dec_str_spec m H) as (A & B & C). split.
    - rewrite <- (app_nil_r (dec_str m)). apply (unum_intro (dec_str m) []); auto; [constructor|]. rewrite app_nil_r, C. cbn. unfold ten. cbn. ring.
    - intros I. unfold all_digits in A. rewrite Forall_forall in A. apply A in I. discriminate. }
  destruct (Z.ltb_spec z 0) as [Z0|Z0].
  - destruct (G (- z)%Z ltac:(lia)) as (A & B). split.
    + pose proof (numeral_sign true _ _ A) as Q. rewrite opp_IZR in Q. replace (-1 * - IZR z) with (IZR z) in Q by ring. exact Q.
    + intros [K|I]; [discriminate|contradiction].
  - destruct (G z Z0) as (A & B). split; [|exact B]. pose proof (numeral_sign false _ _ A) as Q. rewrite Rmult_1_l in Q. exact Q.
Qed.

(** ** Format f *)
Theorem fmt_f_spec k x : exists y, numeral (fmt_f k x) y /\ rounded_to (/ 10 ^ k) x y.
Proof.
  unfold fmt_f. set (m := round_even _). cbv zeta.
  pose proof (ten_pos (Z.of_nat k)) as T. assert (P : 0 < 10 ^ k) by (rewrite <- ten_nat; exact T).
  assert (M0 : (0 <= m)%Z).
  { apply round_even_ge. apply Rmult_le_pos; [apply Rabs_pos|lra]. }
  assert (PK : (0 < 10 ^ Z.of_nat k)%Z) by (apply Z.pow_pos_nonneg; lia).
  destruct (dec_str_spec (m / 10 ^ Z.of_nat k)%Z) as (A & B & C); [apply Z.div_pos; lia|].
  destruct (digits_spec k (m mod 10 ^ Z.of_nat k)) as (D1 & D2 & D3). rewrite Z.mod_mod in D3 by lia.
  assert (V : unum (dec_str (m / 10 ^ Z.of_nat k) ++ (match digits k (m mod 10 ^ Z.of_nat k) with [] => [] | _ => L "." ++ digits k (m mod 10 ^ Z.of_nat k) end)) (IZR m * ten (- Z.of_nat k))).
  { apply unum_intro; auto. rewrite digits_value_app, C, D1, D3. f_equal. f_equal. pose proof (Z.div_mod m (10 ^ Z.of_nat k) ltac:(lia)). lia. }
  exists ((if Rltb x 0 then -1 else 1) * (IZR m * ten (- Z.of_nat k))). split.
  - pose proof (numeral_sign (Rltb x 0) _ _ V) as Q. rewrite sign_neg. destruct k as [|k']; [exact Q|]. set (k := S k') in *.
    destruct (digits k (m mod 10 ^ Z.of_nat k)) eqn:E; [cbn in D1; lia|]. rewrite <- E in *. exact Q.
  - destruct (round_even_spec (Rabs x * ten (Z.of_nat k))) as (R1 & R2). fold m in R1, R2. rewrite ten_nat in R1, R2. rewrite ten_neg.
    set (u := 10 ^ k) in *. exists (if Rltb x 0 then - m else m)%Z.
    assert (E : Rabs (Rabs x - IZR m * / u) = Rabs (Rabs x * u - IZR m) * / u).
    { rewrite <- (Rabs_pos_eq (/ u)) at 2 by (left; now apply Rinv_0_lt_compat). rewrite <- Rabs_mult. f_equal. field. lra. }
    assert (U : 0 < / u) by now apply Rinv_0_lt_compat.
    destruct (Rltb_spec x 0) as [X|X].
    + rewrite opp_IZR. split; [ring|]. rewrite (Rabs_left x X) in E at 1.
      replace (x - -1 * (IZR m * / u)) with (- (- x - IZR m * / u)) by ring. rewrite Rabs_Ropp, E. split; [nra|].
      intros K. assert (Z.Even m) as (j & ->) by (apply R2; apply Rmult_eq_reg_r with (/ u); lra). exists (- j)%Z. lia.
    + split; [ring|]. rewrite (Rabs_pos_eq x) in E at 1 by lra. replace (x - 1 * (IZR m * / u)) with (x - IZR m * / u) by ring. rewrite E. split; [nra|].
      intros K. apply R2. apply Rmult_eq_reg_r with (/ u); lra.
Qed.

(** ** Format g *)
Lemma rstrip_app p s t : Forall (fun c => p c = true) t -> match rev s with c :: _ => p c = false | [] => True end -> rstrip p (s ++ t) = s.
Proof.
  intros T S. unfold rstrip. rewrite rev_app_distr.
  assert (G : forall r, Forall (fun c => p c = true) r -> lstrip p (r ++ rev s) = rev s).
  { induction r as [|c r IH]; intros R; cbn [app].
    - destruct (rev s) as [|c r]; [reflexivity|]. cbn [lstrip]. now rewrite S.
    - inversion R; subst. cbn [lstrip]. rewrite H1. now apply IH. }
  rewrite G by now apply Forall_rev. apply rev_involutive.
Qed.
Lemma split_zeros fp : exists fp' k, fp = fp' ++ zeros k /\ match rev fp' with c :: _ => c <> "0"%char | [] => True end.
Proof.
  induction fp as [|c fp IH] using rev_ind; [exists [], 0%nat; split; [reflexivity|exact I]|].
  destruct (ascii_dec c "0"%char) as [->|N].
  - destruct IH as (fp' & k & -> & H). exists fp', (S k). split; [|exact H]. rewrite <- app_assoc. f_equal. unfold zeros. symmetry. apply (repeat_cons k (ch "0")).
  - exists (fp ++ [c]), 0%nat. split; [now rewrite app_nil_r|]. rewrite rev_app_distr. exact N.
Qed.
Lemma digits_no_dot s : all_digits s -> mem (ch ".") s = false.
Proof.
  intros H. destruct (mem (ch ".") s) eqn:E; [|reflexivity]. apply mem_In in E. unfold all_digits in H. rewrite Forall_forall in H. apply H in E. discriminate.
Qed.
Lemma strip_zeros_unum s v : unum s v -> unum (strip_zeros s) v.
Proof.
  intros (ip & fp & H1 & H2 & H3 & -> & ->). destruct fp as [|c fp0].
  - rewrite app_nil_r. unfold strip_zeros. rewrite digits_no_dot by assumption.
    exists ip, []. repeat split; auto; now rewrite !app_nil_r.
  - change (match c :: fp0 with [] => [] | _ :: _ => L "." ++ c :: fp0 end) with (L "." ++ c :: fp0).
    destruct (split_zeros (c :: fp0)) as (fp' & k & E & Hl). rewrite E in *. clear E.
    apply all_digits_app in H3. destruct H3 as (F1 & F2).
    assert (S : strip_zeros (ip ++ L "." ++ fp' ++ zeros k) = ip ++ (match fp' with [] => [] | _ => L "." ++ fp' end)).
    { unfold strip_zeros. replace (mem (ch ".") _) with true by (symmetry; apply mem_In; rewrite in_app_iff; right; now left).
      cbv zeta. replace (ip ++ L "." ++ fp' ++ zeros k) with ((ip ++ L "." ++ fp') ++ zeros k) by now rewrite <- !app_assoc.
      rewrite rstrip_app.
      2: { unfold zeros. clear. induction k; constructor; [reflexivity|assumption]. }
      2: { rewrite !rev_app_distr. destruct (rev fp') as [|d r]; [reflexivity|]. cbn [app]. destruct (aeqb_spec d (ch "0")); [contradiction|reflexivity]. }
      destruct fp' as [|d r].
      - rewrite app_nil_r. rewrite rstrip_app; [now rewrite app_nil_r|repeat constructor|].
        destruct (rev ip) as [|e r] eqn:R; [exact I|]. assert (I : In e ip) by (apply in_rev; rewrite R; now left).
        unfold all_digits in H2. rewrite Forall_forall in H2. apply H2 in I. destruct (aeqb_spec e (ch ".")) as [->|]; [discriminate|reflexivity].
      - rewrite <- (app_nil_r (ip ++ L "." ++ d :: r)) at 1. apply rstrip_app; [constructor|]. rewrite !rev_app_distr.
        destruct (rev (d :: r)) as [|e q] eqn:R; [apply (f_equal (@length _)) in R; rewrite rev_length in R; discriminate|]. cbn [app].
        assert (I : In e (d :: r)) by (apply in_rev; rewrite R; now left).
        unfold all_digits in F1. rewrite Forall_forall in F1. apply F1 in I. destruct (aeqb_spec e (ch ".")) as [->|]; [discriminate|reflexivity]. }
    rewrite S. destruct (zeros_spec k) as (Z1 & Z2 & Z3).
    exists ip, fp'. repeat split; auto. rewrite app_assoc, digits_value_app, Z1, Z3, Z.add_0_r, mult_IZR, <- ten_IZR by lia.
    rewrite app_length, Z1, Rmult_assoc, <- ten_add. do 2 f_equal. lia.
Qed.
Lemma point_placed sf e : (0 <= e < Z.of_nat (length sf))%Z -> point sf (Z.to_nat (e + 1)) = placed sf e.
Proof.
  intros H. unfold point, placed. destruct (Z.ltb_spec e 0); [lia|].
  pose proof (skipn_length (Z.to_nat (e + 1)) sf) as S. destruct (Z.ltb_spec e (Z.of_nat (length sf) - 1)) as [E|E].
  - destruct (skipn _ sf) as [|c r]; [cbn in S; lia|reflexivity].
  - destruct (skipn _ sf) as [|c r]; [|cbn in S; lia]. replace (Z.to_nat (e - Z.of_nat (length sf) + 1)) with 0%nat by lia.
    cbn. rewrite app_nil_r. apply firstn_all2. lia.
Qed.
Theorem fmt_g_spec p x : exists y, significant (Nat.max p 1) x y /\
  (numeral (fmt_g p x) y \/ exponent_numeral (fmt_g p x) y) /\
  (x = 0 \/ 1 / 10 ^ 4 <= Rabs x < 10 ^ Nat.max p 1 - 1 / 2 -> numeral (fmt_g p x) y).
Proof.
  unfold fmt_g. set (q := Nat.max p 1). assert (Q : (1 <= q)%nat) by (unfold q; lia). cbv zeta.
  pose proof (sci_value q x Q) as SV.
  assert (SR : x = 0 \/ 1 / 10 ^ 4 <= Rabs x < 10 ^ q - 1 / 2 -> (-4 <= snd (sci q (Rabs x)) < Z.of_nat q)%Z).
  { intros [->|H]; [rewrite Rabs_R0, sci_zero; cbn; lia|]. assert (X : 0 < Rabs x) by (assert (0 < 1 / 10 ^ 4) by (apply Rdiv_lt_0_compat; [lra|apply pow_lt; lra]); lra).
    pose proof (sci_spec q (Rabs x) Q X) as S. destruct (sci q (Rabs x)) as (m & e). cbn [snd]. destruct S as (_ & _ & S1 & S2). split.
    - destruct (Z_lt_le_dec e (-4)) as [Lt|]; [|assumption]. exfalso.
      assert (ten (e + 1) <= ten (-4)). { destruct (Z.eq_dec (e + 1) (-4)) as [->|]; [lra|]. left. apply ten_lt. lia. }
      change (ten (-4)) with (/ 10 ^ 4) in *. lra.
    - destruct (Z_lt_le_dec e (Z.of_nat q)) as [|Ge]; [assumption|]. exfalso.
      replace (ten e) with (ten (e - Z.of_nat q) * 10 ^ q) in S1 by (rewrite <- ten_nat, <- ten_add; f_equal; lia).
      assert (1 <= ten (e - Z.of_nat q)) by (rewrite ten_IZR by lia; apply IZR_le; assert (0 < 10 ^ (e - Z.of_nat q))%Z by (apply Z.pow_pos_nonneg; lia); lia).
      assert (1 <= 10 ^ q) by (apply pow_R1_Rle; lra). nra. }
  destruct (sci q (Rabs x)) as (m & e). cbn [snd] in SR. destruct SV as (M & _ & Sg).
  destruct (digits_spec q m) as (D1 & D2 & D3). rewrite Z.mod_small in D3 by exact M. set (sf := digits q m) in *.
  assert (NE : sf <> []) by (intros H; rewrite H in D1; cbn in D1; lia).
  eexists. split; [exact Sg|].
  assert (T : forall e', unum (placed sf e') (IZR m * ten (e' - Z.of_nat q + 1))).
  { intros e'. rewrite <- D3, <- D1. now apply unum_placed. }
  destruct (Z.ltb_spec e (-4)) as [E1|E1]; [|destruct (Z.leb_spec (Z.of_nat q) e) as [E2|E2]]; cbn [orb].
  1,2: split; [right|intros H; apply SR in H; lia];
    (exists (sign x ++ strip_zeros (point sf 1)), ((if Rltb x 0 then -1 else 1) * (IZR m * ten (0 - Z.of_nat q + 1))), (skipn 1 (exp_str e)), e;
     split; [|split; [now rewrite <- app_assoc|split]];
     [apply numeral_sign, strip_zeros_unum; change 1%nat with (Z.to_nat (0 + 1)); rewrite point_placed by lia; apply T
     |rewrite !Rmult_assoc; do 2 f_equal; fold (ten e); rewrite <- ten_add; f_equal; lia
     |]).
  1,2: destruct (dec_str_spec (Z.abs e) ltac:(lia)) as (A & B & C);
    exists ((if Z.ltb (Z.abs e) 10 then L "0" else []) ++ dec_str (Z.abs e));
    (split; [apply all_digits_app; split; [destruct (Z.ltb _ _); repeat constructor|exact A]|]);
    (split; [intros K; apply app_eq_nil in K; tauto|]);
    assert (V : digits_value ((if Z.ltb (Z.abs e) 10 then L "0" else []) ++ dec_str (Z.abs e)) = Z.abs e)
      by (rewrite digits_value_app, C; destruct (Z.ltb _ _); [change (digits_value (L "0")) with 0%Z|change (digits_value []) with 0%Z]; lia);
    rewrite V; unfold exp_str; destruct (Z.ltb_spec e 0); cbn [L list_ascii_of_string skipn app];
    [right; split; [reflexivity|lia]|left; split; [reflexivity|lia]].
  assert (N : numeral (sign x ++ (if Z.ltb e 0 then strip_zeros (L "0." ++ zeros (Z.to_nat (- e) - 1) ++ sf) else strip_zeros (point sf (Z.to_nat (e + 1)))))
     ((if Rltb x 0 then -1 else 1) * (IZR m * ten (e - Z.of_nat q + 1)))).
  { apply numeral_sign. destruct (Z.ltb_spec e 0) as [E0|E0]; apply strip_zeros_unum.
    - specialize (T e). unfold placed in T. rewrite (proj2 (Z.ltb_lt e 0) E0) in T. replace (Z.abs e) with (- e)%Z in T by lia. exact T.
    - rewrite point_placed by lia. apply T. }
  split; [left; exact N|intros _; exact N].
Qed.
