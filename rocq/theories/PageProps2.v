(** C115: the ratios of ages and the texts of the uncertainty plot. *)
From Coq Require Import String Ascii List ZArith Reals Lra Lia Bool.
From Verif Require Import Base NumModel NumLemmas StrModel StrProofs FmtModel FmtSpec FmtProofs IoSpec IoProofs PlotModel PlotProps PdfModel AaModel AaSpec AaProofs AaProofs2 PageModel.
Import ListNotations.
Local Open Scope R_scope.

Lemma l5_pos : 0 < log10 5.
Proof. rewrite <- log10_1. apply log10_lt; lra. Qed.
Lemma range_eq : ratio_range = (- log10 5, log10 5).
Proof. unfold ratio_range. f_equal. rewrite log10_div by lra. rewrite log10_1. lra. Qed.
Lemma log10_Rpower5 y : log10 (Rpower 5 y) = y * log10 5.
Proof. unfold log10, Rpower. rewrite ln_exp. unfold Rdiv. ring. Qed.
Lemma log10_iff x y : 0 < x -> 0 < y -> (log10 x < log10 y <-> x < y) /\ (log10 x <= log10 y <-> x <= y).
Proof.
  intros A B. split; split; intros H.
  - destruct (Rlt_le_dec x y) as [Q|Q]; [exact Q|]. apply log10_le in Q; lra.
  - now apply log10_lt.
  - destruct (Rle_lt_dec x y) as [Q|Q]; [exact Q|]. apply log10_lt in Q; lra.
  - now apply log10_le.
Qed.
Lemma shown_iff r : 0 < r -> (1 / 5 < r < 5 -> shown_ratio r = Some (log10 r)) /\ (~ 1 / 5 < r < 5 -> shown_ratio r = None).
Proof.
  intros P. unfold shown_ratio. destruct (Rleb_spec r 0); [lra|]. rewrite range_eq. cbn [fst snd].
  assert (E : - log10 5 = log10 (1 / 5)) by (rewrite log10_div, log10_1 by lra; lra). rewrite E.
  destruct (log10_iff (1 / 5) r ltac:(lra) P) as (A & _). destruct (log10_iff r 5 P ltac:(lra)) as (B & _).
  destruct (Rltb_spec (log10 (1 / 5)) (log10 r)) as [U|U]; destruct (Rltb_spec (log10 r) (log10 5)) as [V|V]; cbn [andb]; split; intros H; try reflexivity.
  - elim H. split; [now apply A|now apply B].
  - exfalso. apply V. now apply B.
  - exfalso. apply U. now apply A.
  - exfalso. apply U. now apply A.
Qed.

(** ** C115 *)
(** a cell is left blank exactly if its measured age is at least five times or at most a fifth of the actual one *)
Theorem C115_blank : forall r, 0 <= r -> (ratio_colour r = None <-> r <= 1 / 5 \/ 5 <= r).
Proof.
  intros r H. unfold ratio_colour. destruct (Rle_lt_or_eq_dec _ _ H) as [P| <-].
  - destruct (shown_iff r P) as (A & B). destruct (Rlt_le_dec (1 / 5) r) as [U|U]; [destruct (Rlt_le_dec r 5) as [V|V]|].
    + rewrite A by lra. split; [discriminate|lra].
    + rewrite B by lra. split; [lra|reflexivity].
    + rewrite B by lra. split; [lra|reflexivity].
  - unfold shown_ratio. destruct (Rleb_spec 0 0); [|lra]. split; [lra|reflexivity].
Qed.
(** the nine colours stand for equal factors between a fifth and five *)
Theorem C115_colours : forall r k, 1 / 5 < r < 5 -> (0 <= k <= 8)%Z ->
  (ratio_colour r = Some k <-> Rpower 5 ((2 * IZR k - 9) / 9) <= r < Rpower 5 ((2 * IZR k - 7) / 9)).
Proof.
  intros r k H K. assert (P : 0 < r) by lra. unfold ratio_colour. rewrite (proj1 (shown_iff r P) H). unfold colour_index. rewrite range_eq. cbn [fst snd].
  assert (L5 := l5_pos). destruct (Reqb_spec (- log10 5) (log10 5)); [lra|].
  set (q := (log10 r - - log10 5) / (log10 5 - - log10 5) * 9).
  assert (V : log10 r = (2 * q - 9) / 9 * log10 5) by (unfold q; field; lra).
  assert (Q : 0 < q < 9).
  { assert (A : log10 (1 / 5) < log10 r < log10 5) by (split; apply log10_lt; lra). rewrite log10_div, log10_1, V in A by lra.
    set (c := log10 5) in *. split; [|]; apply Rnot_le_lt; intros X; nra. }
  assert (E1 : Rpower 5 ((2 * IZR k - 9) / 9) <= r <-> IZR k <= q).
  { rewrite <- (proj2 (log10_iff (Rpower 5 ((2 * IZR k - 9) / 9)) r ltac:(apply exp_pos) P)), log10_Rpower5, V. set (c := log10 5) in *. clearbody c q.
    split; intros X; [apply Rnot_lt_le; intros Y; nra|nra]. }
  assert (E2 : r < Rpower 5 ((2 * IZR k - 7) / 9) <-> q < IZR k + 1).
  { rewrite <- (proj1 (log10_iff r (Rpower 5 ((2 * IZR k - 7) / 9)) P ltac:(apply exp_pos))), log10_Rpower5, V. set (c := log10 5) in *. clearbody c q.
    split; intros X; [apply Rnot_le_lt; intros Y; nra|nra]. }
  rewrite E1, E2. pose proof (Rfloor_spec q) as (F1 & F2).
  assert (B : (0 <= Rfloor q <= 8)%Z).
  { split; [apply Z.lt_succ_r; apply lt_IZR; rewrite succ_IZR; lra|apply Z.lt_succ_r; apply lt_IZR; cbn; lra]. }
  rewrite Z.min_r, Z.max_r by lia. split.
  - intros X. injection X as <-. lra.
  - intros X. f_equal. apply Rfloor_unique. exact X.
Qed.
(** a ratio and its inverse have colours at the same distance from the middle one *)
Theorem C115_mirrored : forall r k, 1 / 5 < r < 5 -> ratio_colour r = Some k -> r <> Rpower 5 ((2 * IZR k - 9) / 9) -> ratio_colour (1 / r) = Some (8 - k)%Z.
Proof.
  intros r k H E N. assert (P : 0 < r) by lra.
  assert (K : (0 <= k <= 8)%Z).
  { unfold ratio_colour in E. rewrite (proj1 (shown_iff r P) H) in E. unfold colour_index in E. destruct (Reqb _ _); injection E as <-; lia. }
  assert (I : 1 / 5 < 1 / r < 5).
  { unfold Rdiv. rewrite !Rmult_1_l. split; [apply Rinv_lt_contravar; [nra|lra]|]. replace 5 with (/ (1 / 5)) by lra. apply Rinv_lt_contravar; [nra|lra]. }
  apply C115_colours in E; [|exact H|exact K]. apply C115_colours; [exact I|lia|]. rewrite minus_IZR.
  assert (INV : forall y, Rpower 5 (- y) = / Rpower 5 y) by (intros y; apply Rpower_Ropp).
  replace ((2 * (8 - IZR k) - 9) / 9) with (- ((2 * IZR k - 7) / 9)) by lra. replace ((2 * (8 - IZR k) - 7) / 9) with (- ((2 * IZR k - 9) / 9)) by lra.
  rewrite !INV. replace (1 / r) with (/ r) by (field; lra). set (a := Rpower 5 ((2 * IZR k - 9) / 9)) in *. set (b := Rpower 5 ((2 * IZR k - 7) / 9)) in *.
  assert (A : 0 < a) by apply exp_pos. split; [left; apply Rinv_lt_contravar; [apply Rmult_lt_0_compat; lra|lra]|apply Rinv_lt_contravar; [apply Rmult_lt_0_compat; lra|]]. lra.
Qed.
(** the labels beside the colours are the ratios at their places, rounded to the figures written *)
Theorem C115_labels : forall l v, In (l, v) ratio_labels ->
  exists ip fp, all_digits ip /\ all_digits fp /\ l = ip ++ (match fp with [] => [] | _ => L "." ++ fp end) /\
    Rabs (pow10 v - IZR (digits_value (ip ++ fp)) / 10 ^ length fp) <= / 2 / 10 ^ length fp.
Proof.
  assert (G : forall l v ip fp d x, v = log10 x -> 0 < x -> all_digits ip -> all_digits fp -> l = ip ++ (match fp with [] => [] | _ => L "." ++ fp end) -> digits_value (ip ++ fp) = d ->
    Rabs (x - IZR d / 10 ^ length fp) <= / 2 / 10 ^ length fp ->
    exists ip fp, all_digits ip /\ all_digits fp /\ l = ip ++ (match fp with [] => [] | _ => L "." ++ fp end) /\
    Rabs (pow10 v - IZR (digits_value (ip ++ fp)) / 10 ^ length fp) <= / 2 / 10 ^ length fp).
  { intros l v ip fp d x -> P A B E D H. exists ip, fp. split; [exact A|]. split; [exact B|]. split; [exact E|]. now rewrite D, pow10_log10. }
  intros l v I. unfold ratio_labels in I. cbn [map combine] in I.
  destruct I as [I|[I|[I|[I|[I|[I|[I|[I|[I|[I|[I|[]]]]]]]]]]]]; apply pair_equal_spec in I; destruct I as (<- & <-);
    [apply (G _ _ (L "0") (L "1") 1%Z (1 / 10))|apply (G _ _ [] (L "2") 2%Z (2 / 10))|apply (G _ _ [] (L "33") 33%Z (1 / 3))|apply (G _ _ [] (L "5") 5%Z (5 / 10))
    |apply (G _ _ [] (L "7") 7%Z (1 / (14 / 10)))|apply (G _ _ (L "1") [] 1%Z 1)|apply (G _ _ (L "1") (L "4") 14%Z (14 / 10))|apply (G _ _ (L "2") [] 2%Z 2)
    |apply (G _ _ (L "3") [] 3%Z 3)|apply (G _ _ (L "5") [] 5%Z 5)|apply (G _ _ (L "10") [] 10%Z 10)];
    try reflexivity; try lra;
    match goal with
    | |- all_digits [] => apply Forall_nil
    | |- all_digits _ => repeat (apply Forall_cons; [reflexivity|]); apply Forall_nil
    | |- _ => cbn [length L list_ascii_of_string pow]; apply Rabs_le; lra
    end.
Qed.
(** the labels that are ratios with a colour, or limits of them: all but 0.1 and 10 *)
Theorem C115_labels_in_range : forall l v, In (l, v) ratio_labels -> (1 / 5 <= pow10 v <= 5 <-> l <> L "0.1" /\ l <> L "10").
Proof.
  intros l v I. unfold ratio_labels in I. cbn [map combine] in I.
  destruct I as [I|[I|[I|[I|[I|[I|[I|[I|[I|[I|[I|[]]]]]]]]]]]]; apply pair_equal_spec in I; destruct I as (<- & <-); rewrite pow10_log10 by lra;
    (split; [intros H; split; try discriminate; intros _; lra|intros (A & B); try congruence; lra]).
Qed.
(** the text of the globe is where its area is, and the text of saturation at the equilibrium age, unless this is at the border of the plot *)
Theorem C115_whole_globe : forall y0 y1 globe ef xe p, y0 < y1 -> 0 < globe ->
  let y := (log10 globe - y0) / (y1 - y0) in
  (In (L "whole globe", p) (border_texts ef (y_exceed y0 y1 globe) xe) <-> p = (82 / 100, y) /\ 0 < y < 98 / 100).
Proof.
  intros y0 y1 globe ef xe p H G y. assert (Y : log10 globe = y0 + y * (y1 - y0)) by (unfold y; field; lra).
  assert (NS : forall q, ~ In (L "whole globe", q) (if ef then match xe with Some x => if truth xe && Rltb (2 / 100) x then [(L "saturation", (x, 87 / 100))] else [] | None => [] end else [])).
  { intros q. destruct ef; [|tauto]. destruct xe as [x|]; [|tauto]. destruct (_ && _); [|tauto]. intros [Q|[]]. discriminate (f_equal fst Q). }
  unfold border_texts. rewrite in_app_iff. split.
  - intros [I|I]; [|now apply NS in I].
    destruct (Rle_lt_dec (log10 globe) y0) as [U|U]; [rewrite y_exceed_none in I by (auto; lra); contradiction|].
    destruct (Rle_lt_dec (log10 globe) y1) as [V|V]; [|rewrite y_exceed_none in I by (auto; lra); contradiction].
    rewrite y_exceed_ok in I by lra. fold y in I. destruct (truth (Some y)); [|contradiction]. cbn [andb] in I. destruct (Rltb_spec y (98 / 100)) as [W|W]; [|contradiction].
    destruct I as [I|[]]. apply pair_equal_spec in I. destruct I as (_ & <-). split; [reflexivity|]. split; [|exact W]. apply Rnot_le_lt. intros X. nra.
  - intros (-> & A). left. assert (B : y0 < log10 globe <= y1) by (rewrite Y; nra). rewrite y_exceed_ok by lra. fold y. unfold truth. destruct (Reqb_spec y 0); [lra|]. cbn [negb andb].
    destruct (Rltb_spec y (98 / 100)); [|lra]. now left.
Qed.
Theorem C115_saturation : forall fuel u0 u1 a ef ye T p, time_axis_params fuel u0 u1 = Some (Ok a) -> ta_min a < T <= ta_max a ->
  (In (L "saturation", p) (border_texts ef ye (x_exceed a T)) <-> ef = true /\ exists x, placed a T x /\ 2 / 100 < x /\ p = (x, 87 / 100)).
Proof.
  intros fuel u0 u1 a ef ye T p E H. assert (K := axis_kinds _ _ _ _ E). destruct (x_exceed_ok a T K H) as (x & EX & PX & BX). rewrite EX. unfold border_texts. rewrite in_app_iff. split.
  - intros [I|I].
    + exfalso. destruct ye as [y|]; [|contradiction]. destruct (_ && _); [|contradiction]. destruct I as [I|[]]. discriminate (f_equal fst I).
    + destruct ef; [|contradiction]. split; [reflexivity|]. destruct (truth (Some x)); [|contradiction]. cbn [andb] in I. destruct (Rltb_spec (2 / 100) x) as [W|W]; [|contradiction].
      destruct I as [I|[]]. apply pair_equal_spec in I. destruct I as (_ & <-). now exists x.
  - intros (-> & x' & PX' & W & ->). assert (Q : x' = x) by (apply (placed_unique a T x' x K); auto; lra). subst x'. right. unfold truth. destruct (Reqb_spec x 0); [lra|]. cbn [negb andb].
    destruct (Rltb_spec (2 / 100) x); [now left|lra].
Qed.
Example C115_hypotheses_met : ratio_colour 1 = Some 4%Z /\ ratio_colour 10 = None /\ (exists fuel a, time_axis_params fuel (1 / 100) 4 = Some (Ok a) /\ ta_min a < 4 <= ta_max a).
Proof.
  split.
  { apply C115_colours; [lra|lia|]. split.
    - replace 1 with (Rpower 5 0) by (apply Rpower_O; lra). apply Rle_Rpower; lra.
    - apply Rle_lt_trans with (Rpower 5 0); [rewrite Rpower_O; lra|]. apply Rpower_lt; lra. }
  split; [apply C115_blank; lra|].
  destruct (C60_time_axis (1 / 100) 4) as (f & ax & E & A & B & C & D & F & G & I & J & K). exists f, ax. split; [apply E; lia|].
  assert (M := J 4 ltac:(lra)). assert (X : 1 / 100 <= 4) by lra. rewrite Rmin_left, Rmax_right in M by exact X. specialize (M ltac:(lra)). split; [|lra].
  assert (M' := J 3 ltac:(lra)). rewrite Rmin_left, Rmax_right in M' by exact X. specialize (M' ltac:(lra)). lra.
Qed.
Print Assumptions C115_blank.
Print Assumptions C115_colours.
Print Assumptions C115_mirrored.
Print Assumptions C115_labels.
Print Assumptions C115_labels_in_range.
Print Assumptions C115_whole_globe.
Print Assumptions C115_saturation.
