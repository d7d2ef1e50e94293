(** Properties C26, C27 and C62-C64: numbers, ages, scientific notation, diameter ranges and percentiles as text. *)
From Coq Require Import String Ascii List ZArith Reals Lra Lia Bool Arith.
From Verif Require Import Base NumLemmas StrModel StrProofs FmtModel FmtSpec FmtProofs.
Import ListNotations.
Local Open Scope R_scope.

Ltac ten_num := unfold ten in *; cbn in *; unfold Pos.to_nat in *; cbn in *; lra.

(** ** C26 *)
Theorem C26_correctly_rounded :
  forall n d, (1 <= d)%nat -> exists s y, sigfigs n d = Ok s /\ numeral s y /\ significant d n y.
Proof. exact sigfigs_spec. Qed.
Print Assumptions C26_correctly_rounded.
Lemma digits_of_app a b : digits_of (a ++ b) = digits_of a ++ digits_of b.
Proof. unfold digits_of. induction a as [|c a IH]; [reflexivity|]. cbn. destruct (is_digit c); cbn; now rewrite IH. Qed.
Lemma digits_of_all s : all_digits s -> digits_of s = s.
Proof. unfold digits_of. induction 1 as [|c s H _ IH]; [reflexivity|]. cbn. now rewrite H, IH. Qed.
Lemma digits_head d m : (1 <= d)%nat -> (10 ^ (Z.of_nat d - 1) <= m < 10 ^ Z.of_nat d)%Z -> hd zero (digits d m) <> "0"%char.
Proof.
  intros D M. destruct (digits_spec d m) as (D1 & D2 & D3). rewrite Z.mod_small in D3 by (assert (0 < 10 ^ (Z.of_nat d - 1))%Z by (apply Z.pow_pos_nonneg; lia); lia).
  destruct (digits d m) as [|c s] eqn:E; [cbn in D1; lia|]. cbn [hd]. intros ->.
  change ("0"%char :: s) with (["0"%char] ++ s) in D3. rewrite digits_value_app in D3. change (digits_value ["0"%char]) with 0%Z in D3.
  assert (V : forall s, all_digits s -> (0 <= digits_value s < 10 ^ Z.of_nat (length s))%Z).
  { clear. intros s. induction s as [|c s IH] using rev_ind; intros H; [cbn; lia|]. apply all_digits_app in H. destruct H as (H1 & H2).
    apply IH in H1. rewrite digits_value_app, app_length. cbn [length]. change (10 ^ Z.of_nat 1)%Z with 10%Z. inversion H2; subst.
    unfold is_digit, code_in in H3. apply andb_true_iff in H3. destruct H3 as (A & B). apply Nat.leb_le in A, B.
    assert (0 <= digits_value [c] < 10)%Z by (unfold digits_value, digit_value; cbn [fold_left]; lia).
    replace (Z.of_nat (length s + 1)) with (Z.succ (Z.of_nat (length s))) by lia. rewrite Z.pow_succ_r by lia. lia. }
  specialize (V s (Forall_inv_tail D2)). cbn [length] in D1. replace (Z.of_nat d - 1)%Z with (Z.of_nat (length s)) in M by lia. lia.
Qed.
(** all d figures are shown, and only zeros besides them; the first one is not zero *)
Theorem C26_shows_all_figures :
  forall n d s, (1 <= d)%nat -> sigfigs n d = Ok s ->
    exists a D b, digits_of s = repeat "0"%char a ++ D ++ repeat "0"%char b /\ length D = d /\ (n <> 0 -> hd zero D <> "0"%char).
Proof.
  intros n d s D E. pose proof (sci_value d n D) as SV. unfold sigfigs in E. destruct d as [|d']; [lia|]. set (d := S d') in *.
  destruct (sci d (Rabs n)) as (m & e). destruct SV as (M & M2 & _). destruct (digits_spec d m) as (D1 & D2 & D3). set (f := digits d m) in *.
  match type of E with Ok ?t = Ok s => assert (ES : s = t) by (injection E; intros; now subst s) end. rewrite ES. rewrite digits_of_app. assert (S0 : digits_of (sign n) = []) by (unfold sign; destruct (Rltb n 0); reflexivity).
  rewrite S0, app_nil_l.
  assert (G : forall k, digits_of (firstn k f) ++ digits_of (skipn k f) = f) by (intros k; rewrite <- digits_of_app, firstn_skipn; now apply digits_of_all).
  assert (H : n <> 0 -> hd zero f <> "0"%char) by (intros N; apply digits_head; [exact D|split; [now apply M2|apply M]]).
  destruct (Z.ltb e 0); [|destruct (Z.ltb e (Z.of_nat d - 1))].
  - exists (S (Z.to_nat (Z.abs e) - 1)), f, 0%nat. split; [|split; assumption].
    rewrite !digits_of_app.
    rewrite (digits_of_all f) by assumption. rewrite (digits_of_all (zeros _)) by apply zeros_spec. cbn [repeat]. rewrite app_nil_r. reflexivity.
  - exists 0%nat, f, 0%nat. split; [|split; assumption]. rewrite !digits_of_app. change (digits_of (L ".")) with (@nil ascii). cbn [app repeat]. rewrite G. now rewrite app_nil_r.
  - exists 0%nat, f, (Z.to_nat (e - Z.of_nat d + 1)). split; [|split; assumption]. rewrite digits_of_app. cbn [app repeat].
    rewrite (digits_of_all f) by assumption. rewrite (digits_of_all (zeros _)) by apply zeros_spec. reflexivity.
Qed.
Print Assumptions C26_shows_all_figures.
(** exact evaluation, for examples *)
Lemma sci_exact d x m e : (1 <= d)%nat -> 0 < x -> ten e <= x < ten (e + 1) -> x = IZR m * ten (e - Z.of_nat d + 1) ->
  (m < 10 ^ Z.of_nat d)%Z -> sci d x = (m, e).
Proof.
  intros D X (A & B) E M. unfold sci. destruct (Reqb_spec x 0); [lra|]. cbv zeta.
  assert (F : Rfloor (log10 x) = e).
  { pose proof (ten_log x X) as (A' & B'). destruct (Z.lt_trichotomy (Rfloor (log10 x)) e) as [K|[K|K]]; [|exact K|]; exfalso.
    - assert (ten (Rfloor (log10 x) + 1) <= ten e) by (destruct (Z.eq_dec (Rfloor (log10 x) + 1) e) as [->|]; [lra|left; apply ten_lt; lia]). lra.
    - assert (ten (e + 1) <= ten (Rfloor (log10 x))) by (destruct (Z.eq_dec (e + 1) (Rfloor (log10 x))) as [->|]; [lra|left; apply ten_lt; lia]). lra. }
  rewrite F. replace (x / ten (e - Z.of_nat d + 1)) with (IZR m) by (rewrite E; field; apply Rgt_not_eq, ten_pos).
  rewrite round_even_IZR. destruct (Z.eqb_spec m (10 ^ Z.of_nat d)); [lia|reflexivity].
Qed.
Example C26_hypotheses_met : sigfigs (- (314 / 100)) 3 = Ok (L "-3.14") /\ (1 <= 3)%nat.
Proof.
  split; [|lia]. unfold sigfigs. rewrite Rabs_left by lra.
  rewrite (sci_exact 3 (- - (314 / 100)) 314 0); [|lia|lra|ten_num|ten_num|reflexivity].
  unfold sign. rewrite Rltb_true by lra. vm_compute. reflexivity.
Qed.

(** ** C27 *)
Lemma choose_unit_spec age : exists f u, choose_unit age None = Ok (f, u) /\ best_unit age f u.
Proof.
  unfold choose_unit, units. cbn [find fst snd]. unfold best_unit, unit_table.
  assert (T : forall k : nat, 0 < 10 ^ k) by (intros; apply pow_lt; lra).
  replace (1 / 10 ^ 3) with (/ 10 ^ 3) by lra. replace (1 / 10 ^ 6) with (/ 10 ^ 6) by lra. replace (1 / 10 ^ 9) with (/ 10 ^ 9) by lra.
  assert (O : / 10 ^ 9 < / 10 ^ 6 < / 10 ^ 3 /\ / 10 ^ 3 < 1) by (cbn; lra).
  change (seqb (L "Ga") (L "a")) with false. change (seqb (L "Ma") (L "a")) with false. change (seqb (L "ka") (L "a")) with false.
  change (seqb (L "a") (L "a")) with true. rewrite !orb_false_r, orb_true_r.
  destruct (Rleb_spec 1 age); [|destruct (Rleb_spec (/ 10 ^ 3) age); [|destruct (Rleb_spec (/ 10 ^ 6) age)]].
  - exists 1, (L "Ga"). split; [reflexivity|]. split; [now left|]. split; [now left|].
    intros f' u' [E|[E|[E|[E|[]]]]] _; injection E as <- _; lra.
  - exists (/ 10 ^ 3), (L "Ma"). split; [reflexivity|]. split; [right; now left|]. split; [now left|].
    intros f' u' [E|[E|[E|[E|[]]]]] ?; injection E as <- _; lra.
  - exists (/ 10 ^ 6), (L "ka"). split; [reflexivity|]. split; [right; right; now left|]. split; [now left|].
    intros f' u' [E|[E|[E|[E|[]]]]] ?; injection E as <- _; lra.
  - exists (/ 10 ^ 9), (L "a"). split; [reflexivity|]. split; [right; right; right; now left|]. split; [now right|].
    intros f' u' [E|[E|[E|[E|[]]]]] ?; injection E as <- _; lra.
Qed.
Lemma unit_pos age f u : best_unit age f u -> 0 < f.
Proof. intros ([E|[E|[E|[E|[]]]]] & _); injection E as <- _; cbn; lra. Qed.
Theorem C27_value_and_unit :
  forall age d ne m, (1 <= d)%nat ->
    exists num y f u, best_unit age f u /\ numeral num y /\ significant d (age / f) y /\
      str_age age 0 0 {| sf := d; unit := None; simple := false; no_error := ne; mu := m; mathml := false |}
        = Ok (L "$" ++ (if m then mu_sign else []) ++ num ++ L "$ " ++ u).
Proof.
  intros age d ne m D. destruct (choose_unit_spec age) as (f & u & E & B). destruct (sigfigs_spec (age / f) d D) as (num & y & S & N & G).
  exists num, y, f, u. split; [exact B|]. split; [exact N|]. split; [exact G|].
  unfold str_age. cbn [FmtModel.unit FmtModel.simple FmtModel.sf FmtModel.no_error FmtModel.mu FmtModel.mathml]. rewrite E. cbn [bind fst snd]. rewrite S. cbn [bind].
  rewrite Rltb_false by lra. reflexivity.
Qed.
Print Assumptions C27_value_and_unit.
(** with errors: both are given in the same unit, with one figure less *)
Theorem C27_errors :
  forall age e1 e2 d m, (2 <= d)%nat -> 0 < e1 ->
    exists num y n1 y1 n2 y2 f u, best_unit age f u /\ numeral num y /\ significant d (age / f) y /\
      numeral n1 y1 /\ significant (d - 1) (e1 / f) y1 /\ numeral n2 y2 /\ significant (d - 1) (e2 / f) y2 /\
      str_age age e1 e2 {| sf := d; unit := None; simple := false; no_error := false; mu := m; mathml := false |}
        = Ok (L "$" ++ (if m then mu_sign else []) ++ (num ++ L "^{+" ++ n1 ++ L "}_{-" ++ n2 ++ L "}") ++ L "$ " ++ u).
Proof.
  intros age e1 e2 d m D P. destruct (choose_unit_spec age) as (f & u & E & B).
  destruct (sigfigs_spec (age / f) d ltac:(lia)) as (num & y & S & N & G).
  destruct (sigfigs_spec (e1 / f) (d - 1) ltac:(lia)) as (n1 & y1 & S1 & N1 & G1).
  destruct (sigfigs_spec (e2 / f) (d - 1) ltac:(lia)) as (n2 & y2 & S2 & N2 & G2).
  exists num, y, n1, y1, n2, y2, f, u. repeat (split; [assumption|]).
  unfold str_age. cbn [FmtModel.unit FmtModel.simple FmtModel.sf FmtModel.no_error FmtModel.mu FmtModel.mathml]. rewrite E. cbn [bind fst snd]. rewrite S. cbn [bind].
  rewrite Rltb_true by exact P. cbn [andb negb]. rewrite S1. cbn [bind]. rewrite S2. cbn [bind]. reflexivity.
Qed.
Print Assumptions C27_errors.
(** a forced unit is used as given *)
Theorem C27_forced_unit :
  forall age d f u, (1 <= d)%nat -> In (f, u) unit_table ->
    exists num y, numeral num y /\ significant d (age / f) y /\
      str_age age 0 0 {| sf := d; unit := Some u; simple := false; no_error := false; mu := false; mathml := false |} = Ok (L "$" ++ num ++ L "$ " ++ u).
Proof.
  intros age d f u D I.
  assert (C : choose_unit age (Some u) = Ok (f, u)).
  { destruct I as [E|[E|[E|[E|[]]]]]; injection E as <- <-; unfold choose_unit, units, Rdiv; cbn [find fst snd]; rewrite ?Rmult_1_l; reflexivity. }
  destruct (sigfigs_spec (age / f) d D) as (num & y & S & N & G). exists num, y. split; [exact N|]. split; [exact G|].
  unfold str_age. cbn [FmtModel.unit FmtModel.simple FmtModel.sf FmtModel.no_error FmtModel.mu FmtModel.mathml]. rewrite C. cbn [bind fst snd]. rewrite S. cbn [bind].
  rewrite Rltb_false by lra. reflexivity.
Qed.
Print Assumptions C27_forced_unit.
(** simple labels: at most six figures, no trailing zeros *)
Theorem C27_simple :
  forall age, age < 1000 -> / 10 ^ 9 <= age ->
    exists num y f u, best_unit age f u /\ numeral num y /\ significant 6 (age / f) y /\
      str_age age 0 0 {| sf := 3; unit := None; simple := true; no_error := false; mu := false; mathml := false |} = Ok (num ++ L " " ++ u).
Proof.
  intros age A1 A2. destruct (choose_unit_spec age) as (f & u & E & B). destruct (fmt_g_spec 6 (age / f)) as (y & G & _ & N).
  exists (fmt_g 6 (age / f)), y, f, u. split; [exact B|]. split.
  - apply N. right. pose proof (unit_pos _ _ _ B) as FP.
    assert (FA : f <= age). { destruct B as (I & [H| ->] & _); [exact H|]. destruct I as [K|[K|[K|[K|[]]]]]; injection K as <-; try discriminate. exact A2. }
    assert (0 < age) by lra. rewrite Rabs_pos_eq by (left; now apply Rdiv_lt_0_compat). split.
    + apply Rmult_le_reg_r with f; [exact FP|]. unfold Rdiv. rewrite (Rmult_assoc age), Rinv_l, Rmult_1_r by lra. cbn. lra.
    + apply Rmult_lt_reg_r with f; [exact FP|]. unfold Rdiv. rewrite (Rmult_assoc age), Rinv_l, Rmult_1_r by lra. change (Nat.max 6 1) with 6%nat.
      destruct B as (I & _ & Mx). destruct I as [K|[K|[K|[K|[]]]]]; injection K as <- <-; cbn; [lra| | |];
        match goal with |- age < _ => idtac end.
      * destruct (Rle_dec 1 age) as [W|W]; [apply (Mx 1 (L "Ga")) in W; [cbn in W; lra|now left]|lra].
      * destruct (Rle_dec (/ 10 ^ 3) age) as [W|W]; [apply (Mx (/ 10 ^ 3) (L "Ma")) in W; [cbn in W; lra|right; now left]|cbn in W; lra].
      * destruct (Rle_dec (/ 10 ^ 6) age) as [W|W]; [apply (Mx (/ 10 ^ 6) (L "ka")) in W; [cbn in W; lra|right; right; now left]|cbn in W; lra].
  - split; [exact G|].
    unfold str_age. cbn [FmtModel.unit FmtModel.simple FmtModel.sf FmtModel.no_error FmtModel.mu FmtModel.mathml]. rewrite E. cbn [bind fst snd].
    rewrite Rltb_false by lra. reflexivity.
Qed.
Print Assumptions C27_simple.
(** the printed number is at most 1000, and below 1000 unless it is rounded up *)
Lemma best_unit_below age f u : best_unit age f u -> age < 1000 -> age / f < 1000.
Proof.
  intros B A. pose proof (unit_pos _ _ _ B) as FP. apply Rmult_lt_reg_r with f; [exact FP|]. unfold Rdiv. rewrite (Rmult_assoc age), Rinv_l, Rmult_1_r by lra.
  destruct B as (I & _ & Mx). destruct I as [K|[K|[K|[K|[]]]]]; injection K as <- <-; cbn; [lra| | |].
  - destruct (Rle_dec 1 age) as [W|W]; [apply (Mx 1 (L "Ga")) in W; [cbn in W; lra|now left]|lra].
  - destruct (Rle_dec (/ 10 ^ 3) age) as [W|W]; [apply (Mx (/ 10 ^ 3) (L "Ma")) in W; [cbn in W; lra|right; now left]|cbn in W; lra].
  - destruct (Rle_dec (/ 10 ^ 6) age) as [W|W]; [apply (Mx (/ 10 ^ 6) (L "ka")) in W; [cbn in W; lra|right; right; now left]|cbn in W; lra].
Qed.
Theorem C27_at_most_1000 :
  forall age d f u y, (1 <= d)%nat -> 0 < age < 1000 -> best_unit age f u -> significant d (age / f) y ->
    y <= 1000 /\ (age / f < 1000 - powerRZ 10 (3 - Z.of_nat d) / 2 -> y < 1000).
Proof.
  intros age d f u y D A B S. pose proof (best_unit_below age f u B (proj2 A)) as V. pose proof (unit_pos _ _ _ B) as FP.
  assert (VP : 0 < age / f) by (apply Rdiv_lt_0_compat; lra). set (v := age / f) in *.
  destruct S as [(K & _)|(e & (E1 & E2) & m & -> & R & _)]; [lra|]. rewrite Rabs_pos_eq in E1, E2 by lra. fold (ten (e - Z.of_nat d + 1)) in *. fold (ten e) in *. fold (ten (e + 1)) in *.
  assert (E3 : (e <= 2)%Z). { destruct (Z_le_gt_dec e 2); [assumption|]. exfalso. assert (ten 3 <= ten e) by (destruct (Z.eq_dec 3 e) as [<-|]; [lra|left; apply ten_lt; lia]).
    change (ten 3) with (10 * (10 * (10 * 1))) in *. lra. }
  set (w := ten (e - Z.of_nat d + 1)) in *. pose proof (ten_pos (e - Z.of_nat d + 1)) as W. fold w in W.
  assert (Q : exists q, 1000 = IZR q * w).
  { exists (10 ^ (3 - (e - Z.of_nat d + 1)))%Z. rewrite <- ten_IZR by lia. unfold w. rewrite <- ten_add.
    replace (_ + _)%Z with 3%Z by lia. ten_num. }
  destruct Q as (q & Q). apply Rabs_le_inv in R.
  assert (M : (m <= q)%Z).
  { apply Z.lt_succ_r, lt_IZR. unfold Z.succ. rewrite plus_IZR. apply Rmult_lt_reg_r with w; [exact W|]. rewrite Rmult_plus_distr_r, <- Q. lra. }
  split.
  - rewrite Q. apply Rmult_le_compat_r; [lra|]. now apply IZR_le.
  - intros G. assert (w <= ten (3 - Z.of_nat d)) by (unfold w; destruct (Z.eq_dec (e - Z.of_nat d + 1) (3 - Z.of_nat d)) as [->|]; [lra|left; apply ten_lt; lia]).
    fold (ten (3 - Z.of_nat d)) in G. lra.
Qed.
Print Assumptions C27_at_most_1000.
Lemma sci_round_up d x e : (1 <= d)%nat -> 0 < x -> ten e <= x < ten (e + 1) ->
  round_even (x / ten (e - Z.of_nat d + 1)) = (10 ^ Z.of_nat d)%Z -> sci d x = (10 ^ (Z.of_nat d - 1), e + 1)%Z.
Proof.
  intros D X (A & B) E. unfold sci. destruct (Reqb_spec x 0); [lra|]. cbv zeta.
  assert (F : Rfloor (log10 x) = e).
  { pose proof (ten_log x X) as (A' & B'). destruct (Z.lt_trichotomy (Rfloor (log10 x)) e) as [K|[K|K]]; [|exact K|]; exfalso.
    - assert (ten (Rfloor (log10 x) + 1) <= ten e) by (destruct (Z.eq_dec (Rfloor (log10 x) + 1) e) as [->|]; [lra|left; apply ten_lt; lia]). lra.
    - assert (ten (e + 1) <= ten (Rfloor (log10 x))) by (destruct (Z.eq_dec (e + 1) (Rfloor (log10 x))) as [->|]; [lra|left; apply ten_lt; lia]). lra. }
  rewrite F, E, Z.eqb_refl. reflexivity.
Qed.
(** 999.9 Ma is printed as 1000 Ma *)
Theorem C27_below_1000_refuted :
  ~ (forall age, 0 < age < 1000 -> forall num u,
       str_age age 0 0 {| sf := 3; unit := None; simple := false; no_error := false; mu := false; mathml := false |} = Ok (L "$" ++ num ++ L "$ " ++ u) ->
       (u = L "Ga" \/ u = L "Ma" \/ u = L "ka" \/ u = L "a") -> forall y, numeral num y -> y < 1000).
Proof.
  intros H. specialize (H (9999 / 10000) ltac:(lra) (L "1000") (L "Ma")).
  assert (E : str_age (9999 / 10000) 0 0 {| sf := 3; unit := None; simple := false; no_error := false; mu := false; mathml := false |} = Ok (L "$1000$ Ma")).
  { unfold str_age, choose_unit, units. cbn [FmtModel.unit find fst snd].
    rewrite (Rleb_false 1) by lra. change (seqb (L "Ga") (L "a")) with false. cbn [orb]. rewrite Rleb_true by (cbn; lra). cbn [orb bind fst snd FmtModel.simple FmtModel.sf FmtModel.no_error FmtModel.mu FmtModel.mathml].
    replace (9999 / 10000 / (1 / 10 ^ 3)) with (9999 / 10) by (cbn; lra).
    unfold sigfigs. rewrite Rabs_pos_eq by lra. rewrite (sci_round_up 3 (9999 / 10) 2); [|lia|lra|ten_num|].
    2: { change (2 - Z.of_nat 3 + 1)%Z with 0%Z. unfold ten. cbn [powerRZ].
         apply Z.le_antisymm; [apply round_even_le; cbn; lra|]. replace (9999 / 10 / 1) with (9999 / 10) by lra.
         destruct (round_even_spec (9999 / 10)) as (R1 & _). apply Rabs_le_inv in R1. apply Z.lt_succ_r. apply lt_IZR. unfold Z.succ. rewrite plus_IZR. cbn. lra. }
    unfold sign. rewrite !Rltb_false by lra. vm_compute. reflexivity. }
  specialize (H E (or_intror (or_introl eq_refl)) 1000). assert (N : numeral (L "1000") 1000).
  { exists false, (L "1000"), []. repeat split; try discriminate; repeat constructor.
    replace (digits_value (L "1000" ++ [])) with 1000%Z by (vm_compute; reflexivity). cbn. lra. }
  specialize (H N). lra.
Qed.
Print Assumptions C27_below_1000_refuted.
(** one significant figure with errors is an exception *)
Theorem C27_one_figure_with_errors_fails :
  forall age e1 e2 u s m ml, 0 < e1 ->
    exists e, str_age age e1 e2 {| sf := 1; unit := u; simple := s; no_error := false; mu := m; mathml := ml |} = Err e.
Proof.
  intros age e1 e2 u s m ml P. unfold str_age. cbn [FmtModel.unit FmtModel.simple FmtModel.sf FmtModel.no_error FmtModel.mu FmtModel.mathml].
  destruct (choose_unit age u) as [a|e]; cbn [bind]; [|eauto]. destruct (if s then _ else _) as [st|e]; cbn [bind]; [|eauto].
  rewrite Rltb_true by exact P. cbn. eauto.
Qed.
Print Assumptions C27_one_figure_with_errors_fails.
Example C27_hypotheses_met : best_unit (314 / 1000) (/ 10 ^ 3) (L "Ma") /\ (2 <= 3)%nat /\ 0 < 314 / 1000 < 1000.
Proof.
  split; [|split; [lia|lra]]. split; [right; now left|]. split; [left; cbn; lra|].
  intros f' u' [E|[E|[E|[E|[]]]]]; injection E as <- _; cbn; lra.
Qed.

(** ** C62 *)
(** a value between 0.01 and 10000 is written as a plain numeral *)
Theorem C62_plain :
  forall v d ml u, (1 <= d)%nat -> v = 0 \/ 1 / 100 < Rabs v < 10000 ->
    exists num y, numeral num y /\ significant d v y /\
      scientific_notation v None d false ml u = Ok (if ml then math_open ++ num ++ [] ++ snd u ++ L "</math>" else L "$" ++ num ++ [] ++ fst u ++ L "$").
Proof.
  intros v d ml u D V. destruct (sigfigs_spec v d D) as (num & y & S & N & G). exists num, y. split; [exact N|]. split; [exact G|].
  unfold scientific_notation.
  assert (C : Reqb v 0 || (Rltb (-2) (log10 (Rabs v)) && Rltb (log10 (Rabs v)) 4 && negb false) = true).
  { destruct V as [->|(V1 & V2)]; [destruct (Reqb_spec 0 0); [reflexivity|lra]|]. destruct (Reqb v 0); [reflexivity|]. cbn [orb negb].
    assert (L1 : log10 (1 / 100) = -2).
    { replace (1 / 100) with (pow10 (-2)). 2: { unfold pow10. rewrite <- (Rpower_Ropp 10 2) || idtac. change (exp (-2 * ln 10)) with (Rpower 10 (-2)).
        replace (-2) with (- (2)) by ring. rewrite Rpower_Ropp. replace 2 with (INR 2) by (cbn; lra). rewrite Rpower_pow by lra. cbn. lra. }
      apply log10_pow10. }
    assert (L2 : log10 10000 = 4).
    { replace 10000 with (pow10 4). 2: { unfold pow10. change (exp (4 * ln 10)) with (Rpower 10 4). replace 4 with (INR 4) by (cbn; lra). rewrite Rpower_pow by lra. cbn. lra. }
      apply log10_pow10. }
    rewrite !Rltb_true; [reflexivity| |]; [rewrite <- L2|rewrite <- L1]; apply log10_lt; lra. }
  rewrite C. rewrite S. cbn [bind Z.eqb]. destruct ml; reflexivity.
Qed.
Print Assumptions C62_plain.
(** other values are written as a mantissa in [1,10) and a power of ten *)
Theorem C62_scientific :
  forall v d force u, (1 <= d)%nat -> v <> 0 -> force = true \/ Rabs v <= 1 / 100 \/ 10000 <= Rabs v ->
    exists num m e, numeral num m /\ 1 <= Rabs m < 10 /\ significant d v (m * powerRZ 10 e) /\
      scientific_notation v None d force false u =
        Ok (L "$" ++ num ++ (if Z.eqb e 0 then [] else L "\cdot10^{" ++ int_str e ++ L "}") ++ fst u ++ L "$").
Proof.
  intros v d force u D V F. unfold scientific_notation.
  assert (C : Reqb v 0 || (Rltb (-2) (log10 (Rabs v)) && Rltb (log10 (Rabs v)) 4 && negb force) = false).
  { destruct (Reqb_spec v 0); [contradiction|]. cbn [orb]. destruct F as [->|F]; [apply andb_false_r|].
    assert (P : 0 < Rabs v) by now apply Rabs_pos_lt.
    assert (L1 : log10 (1 / 100) = -2).
    { replace (1 / 100) with (pow10 (-2)). 2: { unfold pow10. change (exp (-2 * ln 10)) with (Rpower 10 (-2)).
        replace (-2) with (- (2)) by ring. rewrite Rpower_Ropp. replace 2 with (INR 2) by (cbn; lra). rewrite Rpower_pow by lra. cbn. lra. }
      apply log10_pow10. }
    assert (L2 : log10 10000 = 4).
    { replace 10000 with (pow10 4). 2: { unfold pow10. change (exp (4 * ln 10)) with (Rpower 10 4). replace 4 with (INR 4) by (cbn; lra). rewrite Rpower_pow by lra. cbn. lra. }
      apply log10_pow10. }
    destruct F as [F|F].
    - rewrite Rltb_false; [reflexivity|]. rewrite <- L1. destruct F as [F|F]; [left; apply log10_lt; lra|right; now rewrite F].
    - rewrite (Rltb_false _ 4); [now rewrite andb_false_r|]. rewrite <- L2. destruct F as [F|F]; [left; apply log10_lt; lra|right; now rewrite F]. }
  rewrite C. destruct d as [|d']; [lia|]. set (d := S d') in *. cbn [bind]. unfold fmt_e. pose proof (sci_value d v D) as SV.
  destruct (sci d (Rabs v)) as (m & e). destruct SV as (M & M2 & G). specialize (M2 V).
  destruct (digits_spec d m) as (D1 & D2 & D3). rewrite Z.mod_small in D3 by exact M. set (f := digits d m) in *.
  assert (NE : f <> []) by (intros K; rewrite K in D1; discriminate).
  exists (sign v ++ point f 1), ((if Rltb v 0 then -1 else 1) * (IZR m * ten (0 - Z.of_nat d + 1))), e. split; [|split; [|split]].
  - apply numeral_sign. change 1%nat with (Z.to_nat (0 + 1)). rewrite point_placed by (rewrite D1; lia). rewrite <- D3, <- D1. now apply unum_placed.
  - rewrite Rabs_mult. replace (Rabs (if Rltb v 0 then -1 else 1)) with 1 by (destruct (Rltb v 0); [rewrite Rabs_left by lra; lra|now rewrite Rabs_R1]).
    assert (0 < 10 ^ (Z.of_nat d - 1))%Z by (apply Z.pow_pos_nonneg; lia).
    pose proof (ten_pos (0 - Z.of_nat d + 1)) as T. assert (0 <= IZR m) by (apply IZR_le; lia). rewrite Rmult_1_l, Rabs_pos_eq by nra.
    assert (A : IZR (10 ^ (Z.of_nat d - 1)) <= IZR m) by (now apply IZR_le). assert (B : IZR m < IZR (10 ^ Z.of_nat d)) by (apply IZR_lt; apply M).
    rewrite <- ten_IZR in A, B by lia. split.
    + replace 1 with (ten (Z.of_nat d - 1) * ten (0 - Z.of_nat d + 1)); [apply Rmult_le_compat_r; lra|]. rewrite <- ten_add. replace (_ + _)%Z with 0%Z by lia. reflexivity.
    + replace 10 with (ten (Z.of_nat d) * ten (0 - Z.of_nat d + 1)); [apply Rmult_lt_compat_r; lra|]. rewrite <- ten_add. replace (_ + _)%Z with 1%Z by lia. ten_num.
  - fold (ten e). rewrite !Rmult_assoc, <- ten_add. replace (0 - Z.of_nat d + 1 + e)%Z with (e - Z.of_nat d + 1)%Z by lia. exact G.
  - reflexivity.
Qed.
Print Assumptions C62_scientific.
(** the exponent is written as an integer *)
Theorem C62_exponent : forall e, integer_numeral (int_str e) e.
Proof. exact int_str_spec. Qed.
Print Assumptions C62_exponent.
(** the errors are given in the same power of ten, with one figure less *)
Theorem C62_errors :
  forall v e1 e2 d force u, (2 <= d)%nat ->
    exists st e n1 y1 n2 y2,
      let power := if Z.eqb e 0 then [] else L "\cdot10^{" ++ int_str e ++ L "}" in
      scientific_notation v None d force false u = Ok (L "$" ++ st ++ power ++ fst u ++ L "$") /\
      numeral n1 y1 /\ significant (d - 1) ((e1 - v) / powerRZ 10 e) y1 /\
      numeral n2 y2 /\ significant (d - 1) ((v - e2) / powerRZ 10 e) y2 /\
      scientific_notation v (Some (e1, e2)) d force false u =
        Ok (L "$" ++ (st ++ L "^{+" ++ n1 ++ L "}_{-" ++ n2 ++ L "}") ++ power ++ fst u ++ L "$").
Proof.
  intros v e1 e2 d force u D. cbv zeta. unfold scientific_notation.
  assert (X : exists st e, (if Reqb v 0 || (Rltb (-2) (log10 (Rabs v)) && Rltb (log10 (Rabs v)) 4 && negb force) then
                    do! s <- sigfigs v d; Ok (s, 0%Z)
                  else match d with O => Err ValueError | _ => Ok (fmt_e d v) end) = Ok (st, e)).
  { destruct (Reqb v 0 || _).
    - destruct (sigfigs_spec v d ltac:(lia)) as (s & y & -> & _). eexists _, _. reflexivity.
    - destruct d; [lia|]. destruct (fmt_e (S d) v) as (s & e). eexists _, _. reflexivity. }
  destruct X as (st & e & X). rewrite X. cbn [bind].
  destruct (sigfigs_spec ((e1 - v) / ten e) (d - 1) ltac:(lia)) as (n1 & y1 & S1 & N1 & G1).
  destruct (sigfigs_spec ((v - e2) / ten e) (d - 1) ltac:(lia)) as (n2 & y2 & S2 & N2 & G2).
  exists st, e, n1, y1, n2, y2. split; [reflexivity|]. repeat (split; [assumption|]).
  rewrite S1. cbn [bind]. rewrite S2. cbn [bind]. reflexivity.
Qed.
Print Assumptions C62_errors.
Example C62_hypotheses_met : (314 / 10) <> 0 /\ 1 / 100 < Rabs (314 / 10) < 10000 /\ 10000 <= Rabs 31400.
Proof. rewrite !Rabs_pos_eq by lra. lra. Qed.

(** ** C63 *)
Theorem C63_range :
  forall lo hi d, (1 <= d)%nat ->
    exists a b ya yb, numeral a ya /\ numeral b yb /\
      ((1 <= hi /\ significant d lo ya /\ significant d hi yb /\ diameter_range lo (Some hi) d = Ok (a ++ en_dash ++ b ++ L " km")) \/
       (hi < 1 /\ significant d (1000 * lo) ya /\ significant d (1000 * hi) yb /\ diameter_range lo (Some hi) d = Ok (a ++ en_dash ++ b ++ L " m"))).
Proof.
  intros lo hi d D. unfold diameter_range. destruct (Rleb_spec 1 hi) as [H|H].
  - destruct (sigfigs_spec (lo * 1) d D) as (a & ya & E1 & N1 & G1). destruct (sigfigs_spec (hi * 1) d D) as (b & yb & E2 & N2 & G2).
    exists a, b, ya, yb. split; [exact N1|]. split; [exact N2|]. left. rewrite E1, E2. cbn [bind]. rewrite Rmult_1_r in G1, G2. auto.
  - destruct (sigfigs_spec (lo * 1000) d D) as (a & ya & E1 & N1 & G1). destruct (sigfigs_spec (hi * 1000) d D) as (b & yb & E2 & N2 & G2).
    exists a, b, ya, yb. split; [exact N1|]. split; [exact N2|]. right. rewrite E1, E2. cbn [bind]. rewrite (Rmult_comm 1000 lo), (Rmult_comm 1000 hi). split; [lra|auto].
Qed.
Print Assumptions C63_range.
Example C63_hypotheses_met : (1 <= 2)%nat /\ 95 / 100 < 1. Proof. split; [lia|lra]. Qed.

(** ** C64 *)
(** below 50 a percentile has the requested figures; from 50 on its distance from 100 has *)
Theorem C64_low :
  forall p d, (1 <= d)%nat -> 1 / 10 ^ 4 <= p < 10 ^ d - 1 / 2 -> p < 50 -> exists y, numeral (percentile_sigfigs p d) y /\ significant d p y.
Proof.
  intros p d D P P50. unfold percentile_sigfigs. rewrite Rltb_true by exact P50. destruct (fmt_g_spec d p) as (y & G & _ & N).
  replace (Nat.max d 1) with d in * by lia. exists y. split; [|exact G]. apply N. right. assert (0 < 1 / 10 ^ 4) by (cbn; lra). rewrite Rabs_pos_eq by lra. exact P.
Qed.
Print Assumptions C64_low.
Theorem C64_high :
  forall p d, (2 <= d)%nat -> 50 <= p -> (p = 100 \/ 1 / 10 ^ 4 <= 100 - p) ->
    exists y, numeral (percentile_sigfigs p d) y /\
      exists g, significant d (100 - p) g /\ Rabs (y - p) <= Rabs ((100 - g) - p).
Proof.
  intros p d D P50 P. unfold percentile_sigfigs. rewrite Rltb_false by exact P50.
  destruct (fmt_g_spec d (100 - p)) as (g & G & _ & N). replace (Nat.max d 1) with d in * by lia.
  assert (Ng : numeral (fmt_g d (100 - p)) g).
  { apply N. destruct P as [->|P]; [left; lra|]. right. assert (0 < 1 / 10 ^ 4) by (cbn; lra). rewrite Rabs_pos_eq by lra. split; [exact P|].
    assert (10 ^ 2 <= 10 ^ d) by (apply Rle_pow; [lra|lia]). replace (10 ^ 2) with 100 in H0 by ring. lra. }
  set (k := (length (fmt_g d (100 - p)) - 2)%nat). destruct (fmt_f_spec k p) as (y & Ny & my & Ey & By & _). exists y. split; [exact Ny|].
  exists g. split; [exact G|].
  destruct Ng as (neg & ip & fp & I1 & I2 & I3 & E & V).
  assert (K : (length fp <= k)%nat).
  { unfold k. rewrite E, !app_length. destruct fp as [|c fp]; [cbn; lia|]. destruct ip as [|c' ip]; [congruence|]. rewrite !app_length. cbn [length L list_ascii_of_string]. lia. }
  assert (PK : 0 < 10 ^ k) by (apply pow_lt; lra).
  assert (Q : exists q, 100 - g = IZR q * / 10 ^ k).
  { exists (100 * 10 ^ Z.of_nat k - (if neg then -1 else 1) * digits_value (ip ++ fp) * 10 ^ Z.of_nat (k - length fp))%Z.
    rewrite minus_IZR, !mult_IZR, <- !ten_IZR, !ten_nat by lia. rewrite V. replace (10 ^ k) with (10 ^ (k - length fp) * 10 ^ length fp) by (rewrite <- pow_add; f_equal; lia).
    replace (IZR (if neg then -1 else 1)%Z) with (if neg then -1 else 1) by (destruct neg; reflexivity).
    field. split; apply pow_nonzero; lra. }
  destruct Q as (q & Q). rewrite Q, Ey in *. set (w := / 10 ^ k) in *. assert (W : 0 < w) by (unfold w; now apply Rinv_0_lt_compat).
  rewrite (Rabs_minus_sym (IZR my * w)). destruct (Z.eq_dec q my) as [->|Nq]; [rewrite (Rabs_minus_sym p); lra|].
  apply Rle_trans with (w / 2); [exact By|].
  assert (1 <= Rabs (IZR q - IZR my)).
  { rewrite <- minus_IZR, <- abs_IZR. apply IZR_le. lia. }
  assert (Rabs (IZR q * w - IZR my * w) = Rabs (IZR q - IZR my) * w) by (rewrite <- Rmult_minus_distr_r, Rabs_mult, (Rabs_pos_eq w) by lra; reflexivity).
  assert (Rabs (IZR q * w - IZR my * w) <= Rabs (IZR q * w - p) + Rabs (p - IZR my * w)).
  { replace (IZR q * w - IZR my * w) with ((IZR q * w - p) + (p - IZR my * w)) by ring. apply Rabs_triang. }
  nra.
Qed.
Print Assumptions C64_high.
(** closer to 100 than 0.0001 the exponent notation of the distance confuses the number of decimals *)
Theorem C64_very_high_refuted :
  ~ (forall p, 50 <= p < 100 -> forall y, numeral (percentile_sigfigs p 2) y ->
       exists g, significant 2 (100 - p) g /\ Rabs (y - p) <= Rabs ((100 - g) - p)).
Proof.
  intros H. set (p := 100 - 5 / 100000). specialize (H p ltac:(unfold p; lra)).
  destruct (fmt_f_spec 3 p) as (y & Ny & m & Ey & B & _).
  assert (S : sci 2 (Rabs (100 - p)) = (50, -5)%Z).
  { unfold p. replace (100 - (100 - 5 / 100000)) with (5 / 100000) by lra. rewrite Rabs_pos_eq by lra.
    apply sci_exact; [lia|lra|ten_num|ten_num|reflexivity]. }
  assert (E : percentile_sigfigs p 2 = fmt_f 3 p).
  { unfold percentile_sigfigs. rewrite Rltb_false by (unfold p; lra). f_equal. unfold fmt_g. change (Nat.max 2 1) with 2%nat. rewrite S.
    unfold sign. rewrite Rltb_false by (unfold p; lra). vm_compute. reflexivity. }
  rewrite E in H. destruct (H y Ny) as (g & G & K).
  assert (g = 5 / 100000).
  { destruct G as [(G & _)|(e & (G1 & G2) & mg & -> & R & _)]; [unfold p in G; lra|]. unfold p in *. replace (100 - (100 - 5 / 100000)) with (5 / 100000) in * by lra.
    rewrite Rabs_pos_eq in G1, G2 by lra. fold (ten e) in G1. fold (ten (e + 1)) in G2.
    assert (Ee : e = (-5)%Z).
    { destruct (Z.lt_trichotomy e (-5)) as [W|[W|W]]; [|exact W|]; exfalso.
      - assert (ten (e + 1) <= ten (-5)) by (destruct (Z.eq_dec (e + 1) (-5)) as [->|]; [lra|left; apply ten_lt; lia]). clear - H0 G2. assert (T5 : ten (-5) = / 100000) by ten_num. lra.
      - assert (ten (-4) <= ten e) by (destruct (Z.eq_dec (-4) e) as [<-|]; [lra|left; apply ten_lt; lia]). clear - H0 G1. assert (T4 : ten (-4) = / 10000) by ten_num. lra. }
    subst e. change (-5 - Z.of_nat 2 + 1)%Z with (-6)%Z in *. apply Rabs_le_inv in R. replace (powerRZ 10 (-6)) with (/ 1000000) in * by (change (powerRZ 10 (-6)) with (ten (-6)); ten_num).
    assert (mg = 50)%Z; [|subst mg; lra]. assert (49 < mg < 51)%Z; [|lia]. split; apply lt_IZR; lra. }
  subst g. replace (100 - 5 / 100000 - p) with 0 in K by (unfold p; lra). rewrite Rabs_R0 in K. pose proof (Rabs_pos (y - p)) as K2.
  assert (Y : y = p). { assert (Z0 : Rabs (y - p) = 0) by lra. destruct (Req_dec (y - p) 0) as [|N]; [lra|]. apply Rabs_no_R0 in N. contradiction. }
  rewrite Y in Ey. unfold p in Ey. assert (Q : IZR m * 100 = 9999995). { replace (/ 10 ^ 3) with (/ 1000) in Ey by (cbn; lra). lra. }
  rewrite <- mult_IZR in Q. apply eq_IZR in Q. lia.
Qed.
Print Assumptions C64_very_high_refuted.
Example C64_hypotheses_met : (2 <= 2)%nat /\ 50 <= 9953 / 100 /\ 1 / 10 ^ 4 <= 100 - 9953 / 100 /\ 1 / 10 ^ 4 <= 43 < 10 ^ 2 - 1 / 2.
Proof. repeat split; try lia; cbn; lra. Qed.
