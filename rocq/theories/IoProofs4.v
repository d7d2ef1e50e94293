(** Statistics files. *)
From Coq Require Import String Ascii List ZArith Reals Bool Lia Lra.
From Verif Require Import Base NumModel NumLemmas BinModel CountModel StrModel StrSpec StrProofs StrProofs2 CliModel FmtModel FmtSpec FmtProofs
  TsModel TsSpec TsProofs IoModel IoSpec IoProofs IoProofs2 IoProofs3.
Import ListNotations.
Local Open Scope R_scope.

(** ** Lengths of formatted numbers *)
Definition within (K : Z) (x : R) : Prop := ten (- K) <= x <= ten K.
Lemma within_pos K x : within K x -> 0 < x.
Proof. intros [H _]. pose proof (ten_pos (- K)). lra. Qed.
Lemma within_div K M x y : within K x -> within M y -> within (K + M) (x / y).
Proof.
  intros X Y. pose proof (within_pos K x X) as PX. pose proof (within_pos M y Y) as PY. destruct X as [X1 X2], Y as [Y1 Y2].
  pose proof (ten_pos K). pose proof (ten_pos M). pose proof (ten_pos (- K)). pose proof (ten_pos (- M)).
  assert (I : ten (- M) * ten M = 1) by (rewrite <- ten_add, Z.add_opp_diag_l; reflexivity).
  assert (Y3 : / y <= ten M). { apply Rmult_le_reg_r with y; [lra|]. rewrite Rinv_l by lra. rewrite <- I, Rmult_comm. now apply Rmult_le_compat_l; [lra|]. }
  assert (Y4 : ten (- M) <= / y). { apply Rmult_le_reg_r with y; [lra|]. rewrite Rinv_l by lra. rewrite <- I. now apply Rmult_le_compat_l; [lra|]. }
  assert (Y5 : 0 < / y) by (now apply Rinv_0_lt_compat).
  unfold within. replace (- (K + M))%Z with (- K + - M)%Z by lia. rewrite !ten_add. unfold Rdiv. split; apply Rmult_le_compat; lra.
Qed.
Lemma within_sqrt K x : within (2 * K) x -> within K (sqrt x).
Proof.
  intros X. pose proof (within_pos _ _ X) as P. destruct X as [X1 X2]. unfold within. split.
  - rewrite <- (sqrt_square (ten (- K))) by (left; apply ten_pos). apply sqrt_le_1; [apply Rle_0_sqr|lra|].
    rewrite <- ten_add. now replace (- K + - K)%Z with (- (2 * K))%Z by lia.
  - rewrite <- (sqrt_square (ten K)) by (left; apply ten_pos). apply sqrt_le_1; [lra|apply Rle_0_sqr|].
    rewrite <- ten_add. now replace (K + K)%Z with (2 * K)%Z by lia.
Qed.
Lemma within_le K M x : (K <= M)%Z -> within K x -> within M x.
Proof.
  intros L [A B]. assert (G : forall a b, (a <= b)%Z -> ten a <= ten b).
  { intros a b Q. destruct (Z.eq_dec a b) as [->|N]; [lra|]. left. apply ten_lt. lia. }
  split; [eapply Rle_trans; [|exact A]; apply G; lia|eapply Rle_trans; [exact B|]; apply G; lia].
Qed.
Lemma sci_bound d x K : (1 <= d)%nat -> within K x -> (- K - 1 <= snd (sci d x) <= K)%Z.
Proof.
  intros D W. pose proof (within_pos K x W) as P. pose proof (sci_spec d x D P) as S. destruct (sci d x) as [m e]. cbn [snd].
  destruct S as (_ & _ & A & B). destruct W as [W1 W2]. split.
  - apply Znot_gt_le. intros G. pose proof (ten_lt (e + 1) (- K) ltac:(lia)). lra.
  - apply Znot_gt_le. intros G. assert (Q : 10 * ten K <= ten e).
    { replace (10 * ten K) with (ten (1 + K)) by (rewrite ten_add; unfold ten at 1; cbn [powerRZ]; rewrite pow_1; ring).
      destruct (Z.eq_dec (1 + K) e) as [->|N]; [lra|]. left. apply ten_lt. lia. }
    assert (Q2 : ten (e - Z.of_nat d) <= ten e) by (left; apply ten_lt; lia). pose proof (ten_pos K). lra.
Qed.
Lemma lstrip_length p s : (length (lstrip p s) <= length s)%nat.
Proof. induction s as [|c s IH]; [reflexivity|]. cbn. destruct (p c); cbn; lia. Qed.
Lemma rstrip_length p s : (length (rstrip p s) <= length s)%nat.
Proof. unfold rstrip. rewrite rev_length. etransitivity; [apply lstrip_length|]. now rewrite rev_length. Qed.
Lemma strip_zeros_length s : (length (strip_zeros s) <= length s)%nat.
Proof. unfold strip_zeros. destruct (mem _ s); [|reflexivity]. etransitivity; apply rstrip_length. Qed.
Lemma point_length sf k : (length (point sf k) <= S (length sf))%nat.
Proof.
  unfold point. pose proof (f_equal (@length _) (firstn_skipn k sf)) as H. rewrite app_length in H. destruct (skipn k sf) as [|c r]; cbn [length] in *; [lia|].
  rewrite !app_length. cbn [length L list_ascii_of_string]. lia.
Qed.
Lemma dec_fuel_length f m : (0 <= m < 100)%Z -> (m < 2 ^ (Z.of_nat f + 1))%Z -> (length (dec_fuel f m) <= if Z.ltb m 10 then 1 else 2)%nat.
Proof.
  intros H B. destruct f as [|f]; cbn [dec_fuel].
  - change (2 ^ (Z.of_nat 0 + 1))%Z with 2%Z in B. cbn. destruct (Z.ltb m 10); lia.
  - destruct (Z.ltb_spec m 10); [reflexivity|]. rewrite app_length. cbn [length].
    assert (Q : (m / 10 < 10)%Z) by (apply Z.div_lt_upper_bound; lia).
    destruct f as [|f]; cbn [dec_fuel]; [cbn; lia|]. destruct (Z.ltb_spec (m / 10) 10); [cbn; lia|lia].
Qed.
Lemma dec_str_length m : (0 <= m < 100)%Z -> (length (dec_str m) <= if Z.ltb m 10 then 1 else 2)%nat.
Proof.
  intros H. apply dec_fuel_length; [lia|]. destruct (Z.eq_dec m 0) as [->|N]; [reflexivity|].
  rewrite Z2Nat.id by apply Z.log2_nonneg. pose proof (Z.log2_spec m ltac:(lia)). lia.
Qed.
Lemma exp_str_length e : (Z.abs e < 100)%Z -> (length (exp_str e) <= 4)%nat.
Proof.
  intros H. unfold exp_str. rewrite !app_length. pose proof (dec_str_length (Z.abs e) ltac:(lia)).
  destruct (Z.ltb e 0), (Z.ltb (Z.abs e) 10); cbn [length L list_ascii_of_string]; lia.
Qed.
Lemma sign_pos x : 0 < x -> sign x = [].
Proof. intros H. unfold sign. destruct (Rltb_spec x 0); [lra|reflexivity]. Qed.
Lemma fmt_g_length p x : (1 <= p)%nat -> within 90 x -> (length (fmt_g p x) <= p + 5)%nat.
Proof.
  intros P W. pose proof (within_pos _ _ W) as PX. pose proof (sci_bound p x 90 P W) as B.
  unfold fmt_g. rewrite (Nat.max_l p 1) by lia. rewrite Rabs_pos_eq by lra. rewrite sign_pos by exact PX. destruct (sci p x) as [m e]. cbn [snd] in B.
  destruct (digits_spec p m) as (DL & _). cbn [app].
  destruct (Z.ltb_spec e (-4)); [|destruct (Z.leb_spec (Z.of_nat p) e)]; cbn [orb].
  1, 2: rewrite app_length; pose proof (strip_zeros_length (point (digits p m) 1)); pose proof (point_length (digits p m) 1);
    pose proof (exp_str_length e ltac:(lia)); lia.
  destruct (Z.ltb_spec e 0).
  - etransitivity; [apply strip_zeros_length|]. rewrite !app_length, DL. destruct (zeros_spec (Z.to_nat (- e) - 1)) as [-> _]. cbn [length L list_ascii_of_string]. lia.
  - etransitivity; [apply strip_zeros_length|]. etransitivity; [apply point_length|]. lia.
Qed.
Lemma fmt_E_length d x : (1 <= d)%nat -> within 90 x -> (length (fmt_E d x) <= d + 5)%nat.
Proof.
  intros P W. pose proof (within_pos _ _ W) as PX. pose proof (sci_bound d x 90 P W) as B.
  unfold fmt_E, fmt_e. rewrite Rabs_pos_eq by lra. rewrite sign_pos by exact PX. destruct (sci d x) as [m e]. cbn [snd] in B.
  destruct (digits_spec d m) as (DL & _). cbn [app]. rewrite !app_length.
  pose proof (point_length (digits d m) 1). pose proof (exp_str_length e ltac:(lia)) as E.
  assert (T : (S (length (tl (exp_str e))) = length (exp_str e))%nat) by reflexivity. cbn [length L list_ascii_of_string] in *. lia.
Qed.
(** the text of format code E is a number *)
Lemma exp_str_text e : exponent_text (L "E" ++ tl (exp_str e)) e.
Proof.
  right. unfold exp_str. cbn [tl L list_ascii_of_string app].
  destruct (dec_str_spec (Z.abs e) ltac:(lia)) as (A & B & V).
  set (k := (if Z.ltb (Z.abs e) 10 then L "0" else []) ++ dec_str (Z.abs e)).
  assert (KD : all_digits k) by (apply all_digits_app; split; [destruct (Z.ltb _ _); repeat constructor|exact A]).
  assert (KV : digits_value k = Z.abs e).
  { unfold k. rewrite digits_value_app, V. destruct (Z.ltb _ _); [change (digits_value (L "0")) with 0%Z|change (digits_value []) with 0%Z]; lia. }
  assert (KN : k <> []) by (unfold k; destruct (Z.ltb _ _); [discriminate|exact B]).
  exists "E"%char, (if Z.ltb e 0 then L "-" else L "+"), (Z.ltb e 0), k.
  split; [now right|]. split; [destruct (Z.ltb e 0); [right|left]; auto|]. split; [exact KD|]. split; [exact KN|]. split; [reflexivity|].
  rewrite KV. destruct (Z.ltb_spec e 0); lia.
Qed.
Lemma decimal_exponent m y ex e : numeral m y -> exponent_text ex e -> decimal (m ++ ex) (y * powerRZ 10 e).
Proof.
  intros (neg & ip & fp & N & IP & FP & -> & ->) EX.
  exists [], (if neg then L "-" else []), neg, ip, (match fp with [] => false | _ => true end), fp, ex, e, [].
  split; [constructor|]. split; [constructor|]. split; [destruct neg; [right|left]; auto|]. split; [assumption|]. split; [assumption|].
  split; [intros K; apply app_eq_nil in K; intuition|]. split; [destruct fp; [reflexivity|discriminate]|].
  split; [exact EX|]. split; [|reflexivity]. cbn [app]. rewrite app_nil_r. destruct fp; cbn [app]; now rewrite <- ?app_assoc.
Qed.
Lemma fmt_E_decimal d x : (1 <= d)%nat -> exists y, significant d x y /\ decimal (fmt_E d x) y.
Proof.
  intros D. pose proof (sci_value d x D) as S. unfold fmt_E, fmt_e. destruct (sci d (Rabs x)) as [m e]. destruct S as (B & _ & S).
  exists ((if Rltb x 0 then -1 else 1) * (IZR m * ten (e - Z.of_nat d + 1))). split; [exact S|].
  destruct (digits_spec d m) as (DL & DA & DV). rewrite Z.mod_small in DV by lia.
  assert (U : unum (point (digits d m) 1) (IZR m * ten (0 - Z.of_nat d + 1))).
  { change 1%nat with (Z.to_nat (0 + 1)). rewrite point_placed by lia. rewrite <- DL at 2. rewrite <- DV at 2. apply unum_placed; [destruct (digits d m); [cbn in DL; lia|discriminate]|exact DA]. }
  rewrite sign_neg. pose proof (numeral_sign (Rltb x 0) _ _ U) as NS.
  replace ((if Rltb x 0 then -1 else 1) * (IZR m * ten (e - Z.of_nat d + 1))) with (((if Rltb x 0 then -1 else 1) * (IZR m * ten (0 - Z.of_nat d + 1))) * powerRZ 10 e).
  - apply (decimal_exponent _ _ _ _ NS). apply exp_str_text.
  - change (powerRZ 10 e) with (ten e). rewrite !Rmult_assoc, <- ten_add. do 3 f_equal. lia.
Qed.
(** ** The fields of a row *)
Definition word (w : str) : Prop := w <> [] /\ Forall (fun c => is_space c = false) w.
Lemma decimal_word s x : decimal s x -> Forall (fun c => is_space c = false) s -> word s.
Proof.
  intros (w1 & sg & neg & ip & dot & fp & ex & e & w2 & _ & _ & _ & _ & _ & NE & DOT & _ & -> & _) F. split; [|exact F].
  intros K. apply app_eq_nil in K. destruct K as [_ K]. apply app_eq_nil in K. destruct K as [_ K]. apply app_eq_nil in K. destruct K as [Ki K].
  apply app_eq_nil in K. destruct K as [K _]. destruct dot; [discriminate|]. apply NE. now rewrite Ki, DOT.
Qed.
Lemma fmt_g_word p x : word (fmt_g p x) /\ Forall (fun c => num_char c = true) (fmt_g p x).
Proof.
  destruct (fmt_g_number p x) as (y & _ & N). destruct (number_chars _ _ N) as [A B]. split; [|exact A].
  split; [exact B|]. eapply num_Forall; [|exact A]. intros c K. now apply num_char_facts.
Qed.
Definition field_char (c : ascii) : bool := num_char c || aeqb c "E"%char.
Lemma field_char_facts c : field_char c = true -> is_space c = false /\ is_break c = false.
Proof. destruct c as [[] [] [] [] [] [] [] []]; intros H; try (vm_compute in H; discriminate H); split; reflexivity. Qed.
Lemma fmt_E_chars d x : Forall (fun c => field_char c = true) (fmt_E d x).
Proof.
  unfold fmt_E, fmt_e. destruct (sci d (Rabs x)) as [m e].
  assert (D : forall s, all_digits s -> Forall (fun c => field_char c = true) s).
  { intros s H. eapply Forall_impl; [|exact H]. intros c K. unfold field_char, num_char. now rewrite K. }
  rewrite !Forall_app. split; [split|].
  - unfold sign. destruct (Rltb x 0); repeat constructor.
  - unfold point. destruct (digits_spec d m) as (_ & DA & _). rewrite <- (firstn_skipn 1 (digits d m)) in DA. apply all_digits_app in DA. destruct DA as [D1 D2].
    destruct (skipn 1 (digits d m)); [now apply D|]. rewrite !Forall_app. split; [now apply D|]. split; [repeat constructor|now apply D].
  - split; [repeat constructor|]. unfold exp_str. cbn [tl app L list_ascii_of_string]. rewrite !Forall_app.
    destruct (dec_str_spec (Z.abs e) ltac:(lia)) as (A & _ & _).
    split; [destruct (Z.ltb e 0); repeat constructor|]. split; [destruct (Z.ltb _ _); repeat constructor|now apply D].
Qed.
Lemma fmt_E_word d x : (1 <= d)%nat -> word (fmt_E d x).
Proof.
  intros D. destruct (fmt_E_decimal d x D) as (y & _ & H). eapply decimal_word; [exact H|].
  eapply Forall_impl; [|apply fmt_E_chars]. intros c K. now apply field_char_facts.
Qed.
Definition at_gap (s : str) : Prop := match s with [] => True | c :: _ => is_space c = true end.
Lemma split_word w : forall acc rest, Forall (fun c => is_space c = false) w -> at_gap rest -> (rev acc ++ w) <> [] ->
  split_from acc (w ++ rest) = (rev acc ++ w) :: split_from [] rest.
Proof.
  induction w as [|c w IH]; intros acc rest F G N.
  - rewrite app_nil_r in *. cbn [app]. destruct acc as [|a acc]; [now elim N|]. destruct rest as [|c rest]; [reflexivity|]. cbn in G. cbn [split_from]. rewrite G. reflexivity.
  - inversion F; subst. cbn [app split_from]. rewrite H1. rewrite IH; [cbn [rev]; now rewrite <- app_assoc|assumption|assumption|].
    cbn [rev]. rewrite <- app_assoc. exact N.
Qed.
Lemma split_blank k rest : split_from [] (repeat (ch " ") k ++ rest) = split_from [] rest.
Proof. induction k; [reflexivity|]. cbn. exact IHk. Qed.
Lemma split_pad k w rest : word w -> at_gap rest -> split_from [] (pad_left k w ++ rest) = w :: split_from [] rest.
Proof.
  intros [N F] G. unfold pad_left. rewrite <- app_assoc, split_blank. now rewrite split_word.
Qed.
Lemma pad_gap k w rest : (length w < k)%nat -> at_gap (pad_left k w ++ rest).
Proof. intros H. unfold pad_left. replace (k - length w)%nat with (S (k - length w - 1)) by lia. reflexivity. Qed.

(** ** A row *)
Definition row_of (a : R) (x : bin) : str := stat_row a (d_min x) (n_bin x) (n_cum x) (d_mean x) (width x) (n_event x).
Definition words_of (a : R) (x : bin) : list str :=
  [fmt_g 5 (d_min x); fmt_g 5 (n_bin x); fmt_E 4 (n_bin x / a); fmt_E 4 (n_bin x / a / sqrt (n_bin x)); fmt_g 5 (n_cum x);
   fmt_E 4 (n_cum x / a); fmt_E 4 (n_cum x / a / sqrt (n_cum x)); fmt_g 4 (d_mean x); fmt_E 4 (n_bin x / width x / a);
   fmt_E 4 (n_bin x / width x / a / sqrt (n_event x)); fmt_g 5 (n_event x)].
Lemma pad_right_word k w rest : word w -> at_gap rest -> split_from [] (pad_right k w ++ rest) = w :: split_from [] rest.
Proof.
  intros [N F] G. unfold pad_right. rewrite <- app_assoc.
  destruct (k - length w)%nat as [|n]; [cbn [repeat app]; now rewrite split_word|].
  rewrite split_word; [|exact F|reflexivity|exact N]. cbn [rev app]. f_equal. apply (split_blank (S n)).
Qed.
Lemma row_split a x : ordinary a -> ordinary_bin x -> py_split (row_of a x) = words_of a x.
Proof.
  intros A (B1 & B2 & B3 & B4 & B5 & B6). unfold ordinary in *.
  change (within 20 a) in A. change (within 20 (d_min x)) in B1. change (within 20 (n_bin x)) in B2. change (within 20 (n_cum x)) in B3.
  change (within 20 (d_mean x)) in B4. change (within 20 (width x)) in B5. change (within 20 (n_event x)) in B6.
  pose proof (within_sqrt 10 _ B2) as S2. pose proof (within_sqrt 10 _ B3) as S3. pose proof (within_sqrt 10 _ B6) as S6.
  pose proof (within_div _ _ _ _ B2 A) as Q1. pose proof (within_div _ _ _ _ Q1 S2) as Q2.
  pose proof (within_div _ _ _ _ B3 A) as Q3. pose proof (within_div _ _ _ _ Q3 S3) as Q4.
  pose proof (within_div _ _ _ _ B2 B5) as Q5. pose proof (within_div _ _ _ _ Q5 A) as Q6. pose proof (within_div _ _ _ _ Q6 S6) as Q7.
  assert (G : forall p y K, (1 <= p <= 5)%nat -> within K y -> (K <= 90)%Z -> (length (fmt_g p y) < 11)%nat).
  { intros p y K P W L. pose proof (fmt_g_length p y ltac:(lia) (within_le K 90 y L W)). lia. }
  assert (E : forall y K, within K y -> (K <= 90)%Z -> (length (fmt_E 4 y) < 11)%nat).
  { intros y K W L. pose proof (fmt_E_length 4 y ltac:(lia) (within_le K 90 y L W)). lia. }
  assert (WG : forall p y, word (fmt_g p y)) by (intros; apply fmt_g_word).
  assert (WE : forall y, word (fmt_E 4 y)) by (intros; apply fmt_E_word; lia).
  unfold row_of, stat_row, words_of, py_split.
  rewrite <- (app_nil_r (pad_left 12 (fmt_g 5 (n_event x)))).
  assert (G1 := G 5%nat _ _ ltac:(lia) B2 ltac:(lia)). assert (G2 := E _ _ Q1 ltac:(lia)). assert (G3 := E _ _ Q2 ltac:(lia)).
  assert (G4 := G 5%nat _ _ ltac:(lia) B3 ltac:(lia)). assert (G5 := E _ _ Q3 ltac:(lia)). assert (G6 := E _ _ Q4 ltac:(lia)).
  assert (G7 := G 4%nat _ _ ltac:(lia) B4 ltac:(lia)). assert (G8 := E _ _ Q6 ltac:(lia)). assert (G9 := E _ _ Q7 ltac:(lia)).
  assert (G10 := G 5%nat _ _ ltac:(lia) B6 ltac:(lia)).
  rewrite pad_right_word; [f_equal|apply WG|apply pad_gap; lia].
  rewrite split_pad; [f_equal|apply WG|apply pad_gap; lia].
  rewrite split_pad; [f_equal|apply WE|apply pad_gap; lia].
  rewrite split_pad; [f_equal|apply WE|apply pad_gap; lia].
  rewrite split_pad; [f_equal|apply WG|apply pad_gap; lia].
  rewrite split_pad; [f_equal|apply WE|apply pad_gap; lia].
  rewrite split_pad; [f_equal|apply WE|apply pad_gap; lia].
  rewrite split_pad; [f_equal|apply WG|apply pad_gap; lia].
  rewrite split_pad; [f_equal|apply WE|apply pad_gap; lia].
  rewrite split_pad; [f_equal|apply WE|apply pad_gap; lia].
  rewrite split_pad; [reflexivity|apply WG|exact I].
Qed.
Lemma aligned_rows a : forall lo hi n c m w e, length hi = length lo ->
  stat_rows a lo n c m w e = map (row_of a) (filter (fun x => if Rlt_dec 0 (n_bin x) then true else false) (bins_from lo hi n c m w e)).
Proof.
  induction lo as [|l lo IH]; intros [|h hi] n c m w e E; try discriminate; [reflexivity|]. injection E as E.
  cbn [stat_rows bins_from]. destruct n as [|x n], c as [|y c], m as [|z m], w as [|u w], e as [|v e]; try reflexivity.
  cbn [filter n_bin]. rewrite (IH hi) by exact E. unfold Rltb. destruct (Rlt_dec 0 x); reflexivity.
Qed.
Lemma stat_rows_populated a b : length (b_dmax b) = length (b_dmin b) ->
  stat_rows a (b_dmin b) (b_n b) (b_ncum b) (b_dmean b) (b_width b) (b_nevent b) = map (row_of a) (populated b).
Proof. intros E. exact (aligned_rows a _ _ _ _ _ _ _ E). Qed.

(** ** Reading the file *)
Lemma row_line a x : one_line (row_of a x) /\ seqb (row_of a x) [] = false /\ starts_with (L "#") (lstrip is_space (row_of a x)) = false.
Proof.
  unfold row_of, stat_row. destruct (fmt_g_word 5 (d_min x)) as [[N _] C]. split; [|split].
  - assert (SP : forall k, one_line (repeat (ch " ") k)) by (intros k; induction k; constructor; auto).
    assert (G : forall p y, one_line (fmt_g p y)).
    { intros p y. destruct (fmt_g_word p y) as [_ K]. eapply num_Forall; [|exact K]. intros c H. now apply num_char_facts. }
    assert (E : forall y, one_line (fmt_E 4 y)).
    { intros y. eapply Forall_impl; [|apply (fmt_E_chars 4 y)]. intros c H. now apply field_char_facts. }
    unfold one_line, pad_left, pad_right in *. repeat (apply Forall_app; split); auto.
  - destruct (fmt_g 5 (d_min x)); [congruence|]. cbn [pad_right app]. unfold pad_right. cbn [app]. 
    match goal with |- seqb ?a ?b = false => destruct (seqb_spec a b) as [Q|_]; [discriminate Q|reflexivity] end.
  - destruct (fmt_g 5 (d_min x)) as [|c g]; [congruence|]. inversion C; subst. destruct (num_char_facts c H1) as (S & _ & Q).
    unfold pad_right. cbn [app lstrip]. rewrite S. unfold starts_with. cbn [length L list_ascii_of_string firstn].
    match goal with |- seqb ?a ?b = false => destruct (seqb_spec a b) as [E|_]; [|reflexivity] end.
    exfalso. apply Q. injection E as <-. cbn. tauto.
Qed.
Lemma header_comment source binning a : Forall (fun e => starts_with (L "#") (lstrip is_space e) = true) (stat_header source binning a).
Proof. unfold stat_header. repeat (apply Forall_cons; [reflexivity|]). constructor. Qed.
Lemma header_one_line source binning a : one_line source -> one_line binning -> Forall one_line (stat_header source binning a).
Proof.
  intros S B. unfold stat_header.
  assert (G : one_line (fmt_g 6 a)).
  { destruct (fmt_g_word 6 a) as [_ K]. eapply num_Forall; [|exact K]. intros c H. now apply num_char_facts. }
  assert (CK : forall s, clean_b s = true -> one_line s) by (intros s H; now apply clean_one_line, clean_check).
  apply Forall_cons; [now apply CK|]. apply Forall_cons; [now apply CK|]. apply Forall_cons; [now apply CK|].
  apply Forall_cons; [apply Forall_app; split; [now apply CK|exact S]|]. apply Forall_cons; [apply Forall_app; split; [now apply CK|exact B]|].
  apply Forall_cons; [now apply CK|]. apply Forall_cons; [apply Forall_app; split; [now apply CK|exact G]|].
  repeat (apply Forall_cons; [apply CK; vm_compute; reflexivity|]). constructor.
Qed.
Lemma filter_none {A} (f : A -> bool) l : Forall (fun e => f e = false) l -> filter f l = [].
Proof. induction 1; [reflexivity|]. cbn. now rewrite H. Qed.
Lemma filter_all {A} (f : A -> bool) l : Forall (fun e => f e = true) l -> filter f l = l.
Proof. induction 1; [reflexivity|]. cbn. now rewrite H, IHForall. Qed.
Lemma read_stat_lines fs name source binning a rows : one_line source -> one_line binning ->
  Forall (fun r => one_line r /\ seqb r [] = false /\ starts_with (L "#") (lstrip is_space r) = false) rows ->
  read_textfile (write_textfile fs name (stat_header source binning a ++ rows ++ [L "#" ++ repeat (ch "-") 126]) false) name true true false = Ok rows.
Proof.
  intros S B F. unfold read_textfile, write_textfile. rewrite file_get_set. cbn match. f_equal.
  rewrite read_text_join.
  - cbv zeta. rewrite !filter_app.
    assert (N : forall e, starts_with (L "#") (lstrip is_space e) = true -> seqb e [] = false).
    { intros e H. destruct (seqb_spec e []) as [->|_]; [discriminate H|reflexivity]. }
    pose proof (header_comment source binning a) as H.
    assert (X1 : filter (fun e : str => negb (seqb e [])) (stat_header source binning a) = stat_header source binning a).
    { apply filter_all. eapply Forall_impl; [|exact H]. intros e K. apply N in K. cbv beta. now rewrite K. }
    assert (X2 : filter (fun e : str => negb (starts_with (L "#") (lstrip is_space e))) (stat_header source binning a) = []).
    { apply filter_none. eapply Forall_impl; [|exact H]. intros e K. cbv beta. now rewrite K. }
    assert (X3 : filter (fun e : str => negb (seqb e [])) rows = rows).
    { apply filter_all. eapply Forall_impl; [|exact F]. intros e (_ & K & _). cbv beta. now rewrite K. }
    assert (X4 : filter (fun e : str => negb (starts_with (L "#") (lstrip is_space e))) rows = rows).
    { apply filter_all. eapply Forall_impl; [|exact F]. intros e (_ & _ & K). cbv beta. now rewrite K. }
    rewrite X1, X2, X3, X4. cbn [app].
    match goal with |- rows ++ ?Y = rows => assert (X5 : Y = []) by reflexivity; rewrite X5 end. apply app_nil_r.
  - discriminate.
  - apply Forall_app. split; [now apply header_one_line|]. apply Forall_app. split; [eapply Forall_impl; [|exact F]; intros r (K & _); exact K|].
    apply Forall_cons; [apply clean_one_line, clean_check; vm_compute; reflexivity|constructor].
Qed.
Lemma column_words a (l : list bin) i (f : bin -> R) (p : nat) (g : nat -> R -> str) :
  Forall ordinary_bin l -> ordinary a ->
  (forall x, nth_error (words_of a x) i = Some (g p (f x))) -> (forall y, exists z, significant p y z /\ decimal (g p y) z) ->
  exists zs, column (map py_split (map (row_of a) l)) i = Ok zs /\ Forall2 (significant p) (map f l) zs.
Proof.
  intros OB OA W D. induction OB as [|x l Ox _ (zs & C & F)]; [exists []; split; [reflexivity|constructor]|].
  destruct (D (f x)) as (z & S & DZ). exists (z :: zs). split; [|now constructor].
  unfold column in *. cbn [map mapM]. rewrite row_split by assumption. rewrite W, (py_float_decimal _ _ DZ). cbn [bind]. now rewrite C.
Qed.
Lemma significant_pos d x y : (1 <= d)%nat -> 0 < x -> significant d x y -> 0 < y.
Proof.
  intros D X [[-> _]|(e & [A B] & (m & -> & H & _))]; [lra|]. rewrite Rabs_pos_eq in A, B by lra.
  set (u := powerRZ 10 (e - Z.of_nat d + 1)) in *. assert (U : 0 < u) by (apply powerRZ_lt; lra).
  assert (L : u <= powerRZ 10 e). { destruct (Z.eq_dec (e - Z.of_nat d + 1) e) as [E|N]; [unfold u; rewrite E; lra|]. left. apply ten_lt. lia. }
  apply Rabs_le_inv in H. lra.
Qed.
Theorem stat_round_trip fs name source binning a b :
  one_line source -> one_line binning -> length (b_dmax b) = length (b_dmin b) -> ordinary a -> Forall ordinary_bin (populated b) ->
  let fs' := write_textfile fs name (stat_lines source binning a b) false in
  exists lo n c e dens, Forall2 (significant 5) (map d_min (populated b)) lo /\ Forall2 (significant 5) (map n_bin (populated b)) n /\
    Forall2 (significant 5) (map n_cum (populated b)) c /\ Forall2 (significant 5) (map n_event (populated b)) e /\
    Forall2 (significant 4) (map (fun x => n_cum x / a) (populated b)) dens /\
    read_stat fs' name =
      match populated b with
      | [] => Err IndexError
      | _ =>
        do! hi <- upper_edges lo;
        Ok (mkCount (mkCC [] (hd 0 c / hd 0 dens) (Some "pseudo-log"%string) true
             (mkBinned lo hi (map (fun p => snd p - fst p) (combine lo hi)) (map (fun p => sqrt (fst p * snd p)) (combine lo hi)) n e c c) None) None false)
      end.
Proof.
  intros S B E A OB fs'.
  assert (G : forall y, exists z, significant 5 y z /\ decimal (fmt_g 5 y) z) by (intros y; exact (fmt_g_decimal 5 y)).
  assert (G4 : forall y, exists z, significant 4 y z /\ decimal (fmt_E 4 y) z) by (intros y; apply fmt_E_decimal; lia).
  destruct (column_words a (populated b) 0 d_min 5 fmt_g OB A ltac:(reflexivity) G) as (lo & C0 & F0).
  destruct (column_words a (populated b) 1 n_bin 5 fmt_g OB A ltac:(reflexivity) G) as (n & C1 & F1).
  destruct (column_words a (populated b) 4 n_cum 5 fmt_g OB A ltac:(reflexivity) G) as (c & C4 & F4).
  destruct (column_words a (populated b) 10 n_event 5 fmt_g OB A ltac:(reflexivity) G) as (e & C10 & F10).
  destruct (column_words a (populated b) 5 (fun x => n_cum x / a) 4 fmt_E OB A ltac:(reflexivity) G4) as (dens & C5 & F5).
  exists lo, n, c, e, dens. split; [exact F0|]. split; [exact F1|]. split; [exact F4|]. split; [exact F10|]. split; [exact F5|].
  unfold read_stat, fs', stat_lines. rewrite stat_rows_populated by exact E.
  rewrite read_stat_lines; [|assumption|assumption|rewrite Forall_map; apply Forall_forall; intros x _; apply row_line].
  cbn [bind]. destruct (populated b) as [|x l] eqn:P; [reflexivity|]. cbn [map] in *.
  rewrite C0, C1, C4, C5. cbn [bind]. inversion F5; subst. inversion F4; subst. cbn [hd].
  assert (NZ : 0 < y).
  { eapply significant_pos; [|  |eassumption]; [lia|]. inversion OB; subst. destruct H4 as (_ & _ & O & _). apply Rdiv_lt_0_compat; [exact (within_pos 20 _ O)|exact (within_pos 20 _ A)]. }
  unfold divide at 1. destruct (Reqb_spec y 0); [lra|]. cbn [bind].
  assert (LN : length (py_split (row_of a x)) = 11%nat) by (rewrite row_split by (try assumption; now inversion OB); reflexivity).
  rewrite LN. cbn [Nat.eqb]. rewrite C10. cbn [bind]. reflexivity.
Qed.

Lemma Forall2_len {A B} (P : A -> B -> Prop) l r : Forall2 P l r -> length r = length l.
Proof. induction 1; cbn; congruence. Qed.
Lemma Forall2_map_l {A B C} (P : B -> C -> Prop) (f : A -> B) l r : Forall2 P (map f l) r -> Forall2 (fun a c => P (f a) c) l r.
Proof. revert r. induction l as [|x l IH]; intros r H; inversion H; subst; constructor; auto. Qed.
