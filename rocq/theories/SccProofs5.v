(** Cratercount.ReadSCCfile of the text that writeSCCfile writes. *)
From Coq Require Import String Ascii List ZArith Reals Bool Lia Lra Permutation Sorted.
From Verif Require Import Base NumModel NumLemmas BinModel CountModel StrModel StrSpec StrProofs StrProofs2 CliModel CliProofs FmtModel FmtSpec FmtProofs
  TsModel TsSpec TsProofs TsProofs5 IoModel IoSpec IoProofs IoProofs2 IoProofs3 IoProofs4 SccModel SccProofs SccProofs2 SccProofs3 SccProofs4.
Import ListNotations.
Local Open Scope R_scope.

(** without the substitution the line "a-axis radius = ..." belongs to the text of the definition before it *)
Lemma only_break a b u s : ~ In nl a -> ~ In nl b -> a ++ nl :: b = u ++ nl :: s -> s = b.
Proof.
  intros A B. revert u. induction a as [|c a IH]; intros [|d u] E; cbn [app] in E.
  - now injection E as ->.
  - injection E as _ E. exfalso. apply B. rewrite E. apply in_or_app. right. now left.
  - injection E as E _. exfalso. apply A. now left.
  - injection E as _ E. apply (IH (fun K => A (or_intror K)) u E).
Qed.
Lemma km_one_line x : ~ In nl (km x).
Proof.
  unfold km. intros K. apply in_app_or in K as [K|K].
  - apply (proj1 (Forall_forall _ _) (fmt_g_chars 6 x)) in K. vm_compute in K. discriminate K.
  - cbn in K. intuition discriminate.
Qed.
Definition perimeter_text (p r : R) : str := km p ++ nl :: L "a-axis radius = " ++ km r.
Lemma perimeter_word p r : flat_ok false (Word (perimeter_text p r)).
Proof.
  destruct (word_km p (L " <km>") (or_introl eq_refl)) as (_ & H1 & _ & H2 & H3 & _).
  destruct (word_km r (L " <km>") (or_introl eq_refl)) as (_ & _ & Q & _ & _ & _).
  pose proof (fmt_g_chars 6 p) as A. destruct (fmt_g_word 6 p) as [[B _] _].
  assert (NR : ~ In nl (L "a-axis radius = " ++ km r)).
  { intros K. apply in_app_or in K as [K|K]; [cbn in K; intuition discriminate|]. exact (km_one_line r K). }
  assert (HD : forall t, hd " "%char (km p ++ t) = hd " "%char (fmt_g 6 p ++ L " <km>")).
  { intros t. unfold km. destruct (fmt_g 6 p); [congruence|reflexivity]. }
  unfold perimeter_text. cbn [flat_ok]. rewrite HD.
  split; [|split; [exact H1|split; [|split; [exact H2|split; [|discriminate]]]]].
  - intros _. split; [reflexivity|]. intros u s E. apply (only_break _ _ _ _ (km_one_line p) NR) in E. subst s.
    exists (L "a"), "-"%char, (L "axis radius = " ++ km r). split; [reflexivity|]. split; [|split; [reflexivity|cbn; intuition discriminate]].
    split; [discriminate|]. apply Forall_cons; [left; reflexivity|constructor].
  - assert (LS : forall a c b, b <> [] -> last (a ++ c :: b) " "%char = last b " "%char).
    { intros a c b NB. destruct (exists_last NB) as (x & y & ->). change (c :: x ++ [y]) with ((c :: x) ++ [y]). rewrite app_assoc, !last_last. reflexivity. }
    rewrite LS by discriminate. unfold km at 1.
    destruct (exists_last (l := fmt_g 6 r ++ L " <km>")) as (x & y & E). { destruct (fmt_g 6 r); discriminate. }
    rewrite E in *. rewrite app_assoc, last_last. rewrite last_last in Q. exact Q.
  - intros q u Hq E. unfold km in E. destruct (fmt_g 6 p) as [|c s] eqn:EF; [congruence|]. cbn [app] in E. injection E as E _. subst c.
    inversion A as [|? ? A1 _]; subst. destruct Hq; subst q; vm_compute in A1; discriminate A1.
Qed.

Section Read.
Variables (version : str) (from : str * str) (radius area perimeter : R) (l : list (bool * ring)) (n : Z) (craters : list crater).
Hypothesis VW : row_word version.
Hypothesis FW : one_line (fst from) /\ one_line (snd from).
Notation v := (numbered 1 l).
Definition count_doc : list entry :=
  [line_entry (L "craterstats_version") (Word version); line_entry (L "a_axis_radius") (Word (km radius));
   line_entry (L "Total_area") (Word (km2 area)); line_entry (L "Total_perimeter") (Word (perimeter_text perimeter radius));
   line_entry (L "unit_boundary") (boundary_value v); line_entry (L "crater") (crater_value craters)].
Lemma count_doc_text : join [nl] (scc_kept version radius area perimeter v craters) = document count_doc [].
Proof.
  rewrite kept_text. unfold document, count_doc. cbn [map]. rewrite !join_cons. cbn [join]. rewrite app_nil_r.
  unfold line_entry, boundary_value, crater_value. cbn [entry_text value_text app map]. rewrite !app_nil_r.
  unfold boundary_table, crater_table, boundary_rows. rewrite !map_map. cbn [snd].
  change (perimeter_text perimeter radius) with (km perimeter ++ [nl] ++ L "a-axis radius" ++ L " = " ++ km radius).
  unfold km, km2. rewrite <- !app_assoc. rewrite <- ?app_comm_cons, <- ?app_assoc. reflexivity.
Qed.
Lemma count_doc_ok : Forall entry_ok count_doc /\ repeats_ok count_doc.
Proof.
  destruct (doc_ok version radius area perimeter v craters VW (numbered_row_word l 1)) as [A _].
  unfold scc_doc in A. apply Forall_cons_iff in A as [A1 A]. apply Forall_cons_iff in A as [A2 A]. apply Forall_cons_iff in A as [A3 A].
  apply Forall_cons_iff in A as [_ A]. apply Forall_cons_iff in A as [_ A]. apply Forall_cons_iff in A as [A4 A]. apply Forall_cons_iff in A as [A5 _].
  split.
  - unfold count_doc. apply Forall_cons; [exact A1|]. apply Forall_cons; [exact A2|]. apply Forall_cons; [exact A3|].
    apply Forall_cons; [split; [apply line_frame; split; [discriminate|repeat constructor]|apply perimeter_word]|].
    apply Forall_cons; [exact A4|]. apply Forall_cons; [exact A5|]. constructor.
  - intros l1 e l2 E (x & y & z & V). exfalso. unfold count_doc in E.
    destruct l1 as [|? [|? [|? [|? [|? [|? [|? ?]]]]]]]; cbn in E; injection E; intros; subst; cbn in V; try discriminate V; try discriminate.
Qed.
Lemma count_doc_sole i e : nth_error count_doc i = Some e -> sole count_doc e.
Proof.
  clear VW FW. intros H. destruct (nth_error_split _ _ H) as (l1 & l2 & E & LN). exists l1, l2. split; [exact E|].
  assert (ND : NoDup (map key_of count_doc)). { unfold count_doc. cbn [map key_of line_entry app]. repeat constructor; cbn; intuition discriminate. }
  rewrite E in ND. rewrite map_app in ND. cbn [map] in ND. apply NoDup_remove_2 in ND.
  apply Forall_forall. intros e' K Q. apply ND. rewrite <- Q, <- map_app. now apply in_map.
Qed.
Lemma count_file fs name : structure_file (write_textfile fs name (scc_lines version from radius area perimeter v n craters) false) name count_doc.
Proof.
  exists (scc_kept version radius area perimeter v craters), []. split; [apply (scc_read version from radius area perimeter v n craters VW FW (numbered_row_word l 1))|].
  split; [apply count_doc_text|]. split; [discriminate|]. destruct count_doc_ok. split; [assumption|]. split; [assumption|]. now left.
Qed.
Notation tags2 := [L "diam"; L "fraction"; L "lon"; L "lat"; L "topo_scale_factor"].
Lemma tags2_nd : NoDup tags2. Proof. repeat constructor; cbn; intuition discriminate. Qed.
Lemma count_crater_entry : table_entry count_doc (L "crater") tags2 (crater_table craters).
Proof. clear VW FW. eexists _, _, _. split; [apply count_doc_sole with (i := 5%nat); reflexivity|]. repeat split. Qed.
Lemma count_area_entry : text_entry count_doc (L "Total_area") (km2 area).
Proof. clear VW FW. eexists. split; [apply count_doc_sole with (i := 2%nat); reflexivity|]. split; [reflexivity|now left]. Qed.
Lemma count_perimeter_entry : text_entry count_doc (L "Total_perimeter") (perimeter_text perimeter radius).
Proof. clear VW FW. eexists. split; [apply count_doc_sole with (i := 3%nat); reflexivity|]. split; [reflexivity|now left]. Qed.
(** a pair (diameter, fraction) as it is read back *)
Definition pair_read (c : crater) : R * R := (read_g 7 (c_diam c), read_g 3 (c_frac c)).
Theorem read_scc_written fs name a p :
  leading_number (TStr (km2 area)) = Ok a -> leading_number (TStr (perimeter_text perimeter radius)) = Ok p ->
  read_scc (write_textfile fs name (scc_lines version from radius area perimeter v n craters) false) name =
  Ok (mkCount (crater_list (sort by_diam (map pair_read craters)) a) (Some p) false).
Proof.
  intros LA LP. pose proof (count_file fs name) as SF. destruct (structure_lookup _ _ _ SF) as (d & ts & S & M & H).
  unfold read_scc. rewrite S. cbn [bind]. clear S.
  unfold dict_get. rewrite (lookup_table d _ ts (L "crater") tags2 (crater_table craters) H M count_crater_entry). cbn [bind].
  rewrite (crater_cells from craters FW (fun c => read_g 7 (c_diam c)) 0 (L "diam") (fun c => fmt_g 7 (c_diam c)) eq_refl (fun c => eq_refl) (fun c => proj1 (read_g_spec 7 _))).
  cbn [bind]. rewrite table_has. destruct (in_dec (list_eq_dec ascii_dec) (L "fraction") tags2) as [_|Q]; [|exfalso; apply Q; right; now left].
  rewrite (crater_cells from craters FW (fun c => read_g 3 (c_frac c)) 1 (L "fraction") (fun c => fmt_g 3 (c_frac c)) eq_refl (fun c => eq_refl) (fun c => proj1 (read_g_spec 3 _))).
  cbn [bind]. rewrite (lookup_text d _ ts _ _ H M count_area_entry). cbn [bind]. rewrite LA. cbn [bind].
  rewrite (lookup_absent d _ ts (L "Perimeter") H). 2:{ unfold count_doc. cbn [key_of line_entry]. repeat (apply Forall_cons; [discriminate|]). constructor. }
  cbn [bind]. rewrite (lookup_text d _ ts _ _ H M count_perimeter_entry). rewrite LP. cbn [bind].
  destruct (take_sorted (map (fun c => read_g 7 (c_diam c)) craters) (map (fun c => read_g 3 (c_frac c)) craters)) as (d' & f' & -> & -> & E).
  { now rewrite !map_length. }
  cbn [bind]. rewrite E, combine_maps. reflexivity.
Qed.
End Read.

(** ** The leading number of a length or an area *)
Lemma fmt_g_leading x rest : (exists c r, rest = c :: r /\ is_digit c = false /\ c <> "."%char) -> 0 <= x -> (x = 0 \/ 1 / 10 ^ 4 <= x < 10 ^ 6 - 1 / 2) ->
  exists y, significant 6 x y /\ leading_number (TStr (fmt_g 6 x ++ rest)) = Ok y.
Proof.
  intros (c & r & -> & D & P) X B. destruct (fmt_g_spec 6 x) as (y & S & _ & N). cbn [Nat.max] in *.
  rewrite (Rabs_right x) in N by lra. specialize (N B). exists y. split; [exact S|].
  rewrite <- (app_nil_l (fmt_g 6 x ++ c :: r)). apply leading_text; [constructor|exact N| |auto].
  intros K. unfold fmt_g in *. destruct (sci (Nat.max 6 1) (Rabs x)) as [m e].
  replace (sign x) with (@nil ascii) in *. 2:{ rewrite sign_neg. destruct (Rltb_spec x 0); [lra|reflexivity]. }
  destruct N as (neg & ip & fp & NE & IP & FP & E & _). rewrite E in K. destruct neg.
  - (* a numeral that starts with - has the sign of x *)
    clear K. cbn [app] in E. 
    assert (U : forall s v, unum s v -> hd " "%char (strip_zeros s) <> "-"%char).
    { intros s w Q. apply strip_zeros_unum in Q. destruct Q as (ip' & fp' & N' & I' & _ & -> & _). destruct ip' as [|c' ip']; [congruence|].
      inversion I' as [|? ? I1 _]; subst. cbn [app hd]. apply digit_not; [exact I1|reflexivity]. }
    destruct (digits_spec (Nat.max 6 1) m) as (LN & AD & _).
    assert (SN : digits (Nat.max 6 1) m <> []) by (intros Z; rewrite Z in LN; discriminate LN).
    destruct (Z.ltb e (-4) || Z.leb (Z.of_nat (Nat.max 6 1)) e) eqn:C1.
    + pose proof (unum_placed (digits (Nat.max 6 1) m) 0 SN AD) as Q. rewrite <- point_placed in Q by (rewrite LN; cbn; lia). change (Z.to_nat (0 + 1)) with 1%nat in Q.
      pose proof (U _ _ Q) as H. apply strip_zeros_unum in Q. destruct Q as (ip' & fp' & N' & I' & _ & E' & _). rewrite E' in E, H. destruct ip'; [congruence|]. apply H. injection E as E _. now rewrite E.
    + apply Bool.orb_false_elim in C1 as [C1 C1']. apply Z.ltb_ge in C1. apply Z.leb_gt in C1'.
      destruct (Z.ltb e 0) eqn:C2.
      * pose proof (unum_placed (digits (Nat.max 6 1) m) e SN AD) as Q. unfold placed in Q. rewrite C2 in Q. apply Z.ltb_lt in C2. replace (Z.abs e) with (- e)%Z in Q by lia.
        pose proof (U _ _ Q) as H. rewrite E in H. apply H. reflexivity.
      * apply Z.ltb_ge in C2. pose proof (unum_placed (digits (Nat.max 6 1) m) e SN AD) as Q. rewrite <- point_placed in Q by (rewrite LN; cbn in *; lia).
        pose proof (U _ _ Q) as H. rewrite E in H. apply H. reflexivity.
  - cbn [app] in K. apply in_app_or in K as [K|K].
    + apply (proj1 (Forall_forall _ _) IP) in K. vm_compute in K. discriminate K.
    + destruct fp as [|f fp]; [destruct K|]. apply in_app_or in K as [K|K]; [cbn in K; intuition discriminate|].
      apply (proj1 (Forall_forall _ _) FP) in K. vm_compute in K. discriminate K.
Qed.
(** a million or more is written with an exponent, and the leading number is only the mantissa *)
Lemma fmt_g_mantissa x rest : 10 ^ 6 <= x -> exists y, y < 10 /\ leading_number (TStr (fmt_g 6 x ++ rest)) = Ok y.
Proof.
  intros X. assert (P0 : 0 < x) by lra. pose proof (sci_spec 6 x ltac:(lia) P0) as SP. unfold fmt_g. cbn [Nat.max].
  rewrite (Rabs_right x) by lra. destruct (sci 6 x) as [m e]. destruct SP as (MB & _ & _ & UP).
  assert (E6 : (6 <= e)%Z). { destruct (Z_le_gt_dec 6 e) as [|G]; [assumption|]. exfalso. assert (T : ten (e + 1) <= ten 6). { destruct (Z.eq_dec (e + 1) 6) as [->|]; [lra|left; apply ten_lt; lia]. }
    change 6%Z with (Z.of_nat 6) in T. rewrite ten_nat in T. lra. }
  replace (sign x) with (@nil ascii). 2:{ rewrite sign_neg. destruct (Rltb_spec x 0); [lra|reflexivity]. }
  replace (Z.ltb e (-4) || Z.leb (Z.of_nat 6) e)%bool with true. 2:{ symmetry. apply orb_true_intro. right. apply Z.leb_le. exact E6. }
  cbn [app]. destruct (digits_spec 6 m) as (LN & AD & DV). assert (SN : digits 6 m <> []) by (intros Z; rewrite Z in LN; discriminate LN).
  pose proof (unum_placed (digits 6 m) 0 SN AD) as Q. rewrite <- point_placed in Q by (rewrite LN; lia). change (Z.to_nat (0 + 1)) with 1%nat in Q.
  apply strip_zeros_unum in Q. rewrite LN, DV, Z.mod_small in Q by lia. set (y := IZR m * ten (0 - Z.of_nat 6 + 1)) in *.
  exists y. split.
  - unfold y. change (0 - Z.of_nat 6 + 1)%Z with (- Z.of_nat 5)%Z. rewrite ten_neg. assert (IZR m < 10 ^ 6). { replace (10 ^ 6) with (IZR (10 ^ Z.of_nat 6)). apply IZR_lt; lia. rewrite pow_IZR. reflexivity. }
    apply (Rmult_lt_reg_r (10 ^ 5)); [lra|]. rewrite Rmult_assoc, Rinv_l by lra. lra.
  - rewrite <- app_assoc. rewrite <- (app_nil_l (strip_zeros _ ++ _)).
    pose proof (numeral_sign false _ _ Q) as NN. cbn [app] in NN. rewrite Rmult_1_l in NN.
    apply leading_text; [constructor|exact NN| |split; [reflexivity|discriminate]].
    destruct Q as (ip' & fp' & N' & I' & F' & E' & _). rewrite E'. intros K. apply in_app_or in K as [K|K].
    + apply (proj1 (Forall_forall _ _) I') in K. vm_compute in K. discriminate K.
    + destruct fp' as [|f fp']; [destruct K|]. apply in_app_or in K as [K|K]; [cbn in K; intuition discriminate|].
      apply (proj1 (Forall_forall _ _) F') in K. vm_compute in K. discriminate K.
Qed.
