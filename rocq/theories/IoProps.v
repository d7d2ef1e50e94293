(** Theorems about crater count files: C31, C32, C55. *)
From Coq Require Import String Ascii List ZArith Reals Bool Lia Lra Permutation Sorted.
From Verif Require Import Base NumModel NumLemmas BinModel ApplyProofs CountModel StrModel StrSpec StrProofs StrProofs2 CliModel FmtModel FmtSpec FmtProofs
  TsModel TsSpec TsProofs IoModel IoSpec IoProofs IoProofs2 IoProofs3 IoProofs4.
Import ListNotations.
Local Open Scope R_scope.

(** * C55: readers keep diameter and fraction together *)
Definition descending (p q : R * R) : Prop := fst q < fst p \/ fst p = fst q /\ snd q <= snd p.
Lemma sort_descending l : StronglySorted descending (sort (fun p q => pair_leb q p) l).
Proof.
  assert (T : forall a b, pair_leb a b = true <-> descending b a).
  { intros a b. unfold pair_leb, descending. destruct (Rltb_spec (fst a) (fst b)), (Reqb_spec (fst a) (fst b)), (Rleb_spec (snd a) (snd b)); cbn; split; intros; try tauto; try discriminate; try (left; lra); try (right; lra); exfalso; lra. }
  assert (K : StronglySorted (fun a b => pair_leb b a = true) (sort (fun p q => pair_leb q p) l)).
  { apply (sort_sorted (fun p q => pair_leb q p)).
    - intros a b. unfold pair_leb. destruct (Rltb_spec (fst b) (fst a)), (Rltb_spec (fst a) (fst b)), (Reqb_spec (fst a) (fst b)), (Reqb_spec (fst b) (fst a)), (Rleb_spec (snd a) (snd b)), (Rleb_spec (snd b) (snd a)); cbn; auto; lra.
    - intros a b c. rewrite !T. unfold descending. lra. }
  induction K; constructor; [assumption|]. eapply Forall_impl; [|exact H]. intros b. apply T.
Qed.
(** A .diam file with a table of diameters and (perhaps) fractions and an area: the crater list holds every row once, diameter with
    its own fraction, largest first; a missing fraction column means 1. *)
Theorem C55_diam :
  forall fs name l tags rows ds frs w a,
    structure_file fs name l -> table_entry l (L "crater") tags rows -> rows <> [] ->
    numbers_in tags rows (L "diameter") ds ->
    (numbers_in tags rows (L "fraction") frs \/ ~ In (L "fraction") tags /\ frs = map (fun _ => 1) ds) ->
    ~ In (L "reference_area") tags -> text_entry l (L "area") w -> decimal w a ->
    exists c, read_diam fs name = Ok c /\ Permutation (combine ds frs) (cc_craters (ct c)) /\ StronglySorted descending (cc_craters (ct c)) /\
      length (cc_craters (ct c)) = length rows /\ cc_area (ct c) = a /\ ct_buffered c = false.
Proof.
  intros fs name l tags rows ds frs w a SF TE NR D F NA TX DA. eexists. split; [eapply read_diam_normal; eassumption|]. cbn.
  split; [apply sort_perm|]. split; [apply sort_descending|]. split; [|auto].
  rewrite sort_length, combine_length. pose proof (numbers_length _ _ _ _ D). pose proof (fractions_length tags rows ds frs H F). lia.
Qed.
Print Assumptions C55_diam.
(** Buffered counts: each crater has its own reference area; its weight is 1/area, for a nominal area of 1. *)
Theorem C55_buffered :
  forall fs name l tags rows ds refs,
    structure_file fs name l -> table_entry l (L "crater") tags rows -> rows <> [] ->
    numbers_in tags rows (L "diameter") ds -> numbers_in tags rows (L "reference_area") refs -> Forall (fun x => x <> 0) refs ->
    exists c, read_diam fs name = Ok c /\ Permutation (combine ds (map (fun x => 1 / x) refs)) (cc_craters (ct c)) /\
      StronglySorted descending (cc_craters (ct c)) /\ length (cc_craters (ct c)) = length rows /\ cc_area (ct c) = 1 /\ ct_buffered c = true.
Proof.
  intros fs name l tags rows ds refs SF TE NR D F NZ. eexists. split; [eapply read_diam_buffered; eassumption|]. cbn.
  split; [apply sort_perm|]. split; [apply sort_descending|]. split; [|auto].
  rewrite sort_length, combine_length, map_length. pose proof (numbers_length _ _ _ _ D). pose proof (numbers_length _ _ _ _ F). lia.
Qed.
Print Assumptions C55_buffered.
(** .scc: smallest first, craters of equal diameter in the order of the file *)
Theorem C55_scc :
  forall fs name l tags rows ds frs ws n a rest,
    structure_file fs name l -> table_entry l (L "crater") tags rows ->
    numbers_in tags rows (L "diam") ds ->
    (numbers_in tags rows (L "fraction") frs \/ ~ In (L "fraction") tags /\ frs = map (fun _ => 1) ds) ->
    text_entry l (L "Total_area") (ws ++ n ++ rest) ->
    white ws -> numeral n a -> ~ In "-"%char n -> (rest = [] \/ exists c r, rest = c :: r /\ is_digit c = false /\ c <> "."%char) ->
    Forall (fun e => key_of e <> L "Perimeter" /\ key_of e <> L "Total_perimeter") l ->
    exists c, read_scc fs name = Ok c /\ Permutation (combine ds frs) (cc_craters (ct c)) /\
      StronglySorted (fun p q => fst p <= fst q) (cc_craters (ct c)) /\
      (forall d, filter (fun p => if Req_EM_T (fst p) d then true else false) (cc_craters (ct c)) =
                 filter (fun p => if Req_EM_T (fst p) d then true else false) (combine ds frs)) /\
      length (cc_craters (ct c)) = length rows /\ cc_area (ct c) = a.
Proof.
  intros fs name l tags rows ds frs ws n a rest SF TE D F TX W N NM R NP. eexists. split.
  - eapply read_scc_ok; try eassumption. exists ws, n, rest. split; [exact W|]. split; [exact N|]. split; [exact NM|]. split; [|reflexivity].
    destruct R as [->|(c & r & -> & R)]; [exact I|exact R].
  - cbn. split; [apply sort_perm|]. split; [apply sort_ascending|]. split; [intros d; apply sort_stable|]. split; [|reflexivity].
    rewrite sort_length, combine_length. pose proof (numbers_length _ _ _ _ D). pose proof (fractions_length tags rows ds frs H F). lia.
Qed.
Print Assumptions C55_scc.
(** an example: two craters in a .diam file and in an .scc file *)
Definition row (a b : str) : list token * str := ([Bare a; Bare b], a ++ L " " ++ b).
Definition diam_example : str :=
  L "# counts" ++ [nl] ++ L "area = 12.5" ++ [nl] ++ L "crater = {diameter,fraction" ++ [nl] ++ L "1.5 1" ++ [nl] ++ L "2 0.5" ++ [nl] ++ L "}".
Definition diam_entries : list entry :=
  [Entry [] (L "area") false (L " ") (L " ") (Word (L "12.5")) [];
   Entry [] (L "crater") false (L " ") (L " ")
     (Table [Item [] None (L "diameter") []; Item [] None (L "fraction") []] [row (L "1.5") (L "1"); row (L "2") (L "0.5")] []) []].
Lemma positive_numeral s x ip fp z : ip <> [] -> all_digits ip -> all_digits fp ->
  s = ip ++ (match fp with [] => [] | _ => L "." ++ fp end) -> digits_value (ip ++ fp) = z -> x = IZR z / 10 ^ length fp -> numeral s x.
Proof. intros A B C E V X. exists false, ip, fp. rewrite V. repeat split; auto. rewrite X. field. apply pow_nonzero. lra. Qed.
Ltac numeral_tac ip fp z := apply (positive_numeral _ _ ip fp z); [discriminate|repeat constructor|repeat constructor|reflexivity|reflexivity|cbn [length L list_ascii_of_string]; cbn [pow]; lra].
Lemma row_ok_numbers a b x y : number_text a x -> number_text b y -> row_ok (row a b).
Proof.
  intros N1 N2. destruct (number_chars _ _ N1) as [A1 B1]. destruct (number_chars _ _ N2) as [A2 B2].
  unfold row_ok, row. cbn [fst snd]. split; [|split; [discriminate|split; [apply Forall_cons; [exact (bare_number _ _ N1)|apply Forall_cons; [exact (bare_number _ _ N2)|constructor]]|split]]].
  - apply (layout_cons is_space [] (Bare a) [Bare b] (L " " ++ b)); [constructor|apply layout_last; repeat constructor|eexists _, _; split; reflexivity].
  - apply clean_one_line. rewrite !clean_app. split; [now apply clean_num|]. split; [now apply clean_check|now apply clean_num].
  - unfold without. rewrite !Forall_app. split; [apply (without_num (L "={}")); [exact A1|repeat constructor; cbn; tauto]|].
    split; [repeat constructor; cbn; intuition discriminate|apply (without_num (L "={}")); [exact A2|repeat constructor; cbn; tauto]].
Qed.
Lemma num_15 : numeral (L "1.5") (15/10).
Proof. numeral_tac (L "1") (L "5") 15%Z. Qed.
Lemma num_1 : numeral (L "1") 1.
Proof. numeral_tac (L "1") (@nil ascii) 1%Z. Qed.
Lemma num_2 : numeral (L "2") 2.
Proof. numeral_tac (L "2") (@nil ascii) 2%Z. Qed.
Lemma num_05 : numeral (L "0.5") (5/10).
Proof. numeral_tac (L "0") (L "5") 5%Z. Qed.
Lemma num_125 : numeral (L "12.5") (125/10).
Proof. numeral_tac (L "12") (L "5") 125%Z. Qed.
Lemma plain_frame k v : Forall (fun c => is_word c = true) k -> k <> [] -> frame_ok (Entry [] k false (L " ") (L " ") v []).
Proof.
  intros H N. cbn [frame_ok]. split; [constructor|]. split; [split; [exact N|eapply Forall_impl; [|exact H]; auto]|]. split; [repeat constructor|]. split; [repeat constructor|].
  split; [cbn; intuition discriminate|constructor].
Qed.
Lemma plain_item w : Forall (fun c => is_alpha c = true) w -> w <> [] ->
  item_ok (L " ") (L ",{}=") (Item [] None w []) /\ one_line (item_word (Item [] None w [])) /\ (@None ascii) = None.
Proof.
  intros Hw Nw. assert (AL : forall c, is_alpha c = true -> is_break c = false /\ c <> " "%char /\ ~ In c (L ",{}=") /\ c <> dq /\ c <> sq).
  { clear. intros [[] [] [] [] [] [] [] []] H; try (vm_compute in H; discriminate H); (split; [reflexivity|]; split; [discriminate|]; split; [cbn; intuition discriminate|split; discriminate]). }
  cbn [item_ok item_word]. split; [|split; [|reflexivity]].
  - split; [constructor|]. split; [constructor|].
    split; [eapply Forall_impl; [|exact Hw]; intros c K; now apply AL|].
    split; [destruct w; [congruence|]; inversion Hw; subst; cbn; now apply AL|].
    split; [destruct (exists_last Nw) as (u & v & E); rewrite E, last_last; apply AL; apply (proj1 (Forall_forall _ _) Hw); rewrite E; apply in_or_app; right; now left|].
    intros q u Hq E. assert (K : In q w) by (rewrite E; now left). apply (proj1 (Forall_forall _ _) Hw) in K. apply AL in K. destruct Hq; subst; tauto.
  - eapply Forall_impl; [|exact Hw]. intros c K. now apply AL.
Qed.
Lemma diam_example_file : structure_file [(L "a.diam", diam_example)] (L "a.diam") diam_entries.
Proof.
  eexists _, []. split; [vm_compute; reflexivity|]. split; [vm_compute; reflexivity|]. split; [discriminate|]. split; [|split; [|now left]].
  - apply Forall_cons; [|apply Forall_cons; [|constructor]].
    + split; [apply plain_frame; [repeat constructor|discriminate]|]. cbn [value_of]. apply (word_number false _ (125/10)); [left; apply num_125|reflexivity].
    + split; [apply plain_frame; [repeat constructor|discriminate]|]. cbn [value_of flat_ok].
      split; [discriminate|]. split; [cbn [map item_word]; repeat constructor; cbn; intuition discriminate|].
      split; [apply Forall_cons; [apply plain_item; [repeat constructor|discriminate]|apply Forall_cons; [apply plain_item; [repeat constructor|discriminate]|constructor]]|].
      split; [reflexivity|]. split; [discriminate|]. split; [|constructor].
      apply Forall_cons; [eapply row_ok_numbers; left; [apply num_15|apply num_1]|]. apply Forall_cons; [eapply row_ok_numbers; left; [apply num_2|apply num_05]|constructor].
  - intros l1 e l2 E (x & y & z & V). exfalso. unfold diam_entries in E. destruct l1 as [|? [|? [|? ?]]]; cbn in E; injection E; intros; subst; cbn in V; discriminate.
Qed.
Lemma diam_example_table : table_entry diam_entries (L "crater") [L "diameter"; L "fraction"] [row (L "1.5") (L "1"); row (L "2") (L "0.5")].
Proof.
  eexists (nth 1 diam_entries (Entry [] [] false [] [] (Word []) [])), _, _. split; [|split; [reflexivity|split; reflexivity]].
  eexists [_], []. split; [reflexivity|]. repeat constructor; cbn; discriminate.
Qed.
Lemma diam_example_area : text_entry diam_entries (L "area") (L "12.5").
Proof.
  eexists (nth 0 diam_entries (Entry [] [] false [] [] (Word []) [])). split; [|split; [reflexivity|left; reflexivity]].
  eexists [], _. split; [reflexivity|]. repeat constructor; cbn; discriminate.
Qed.
Example C55_hypotheses_met :
  structure_file [(L "a.diam", diam_example)] (L "a.diam") diam_entries /\
  table_entry diam_entries (L "crater") [L "diameter"; L "fraction"] [row (L "1.5") (L "1"); row (L "2") (L "0.5")] /\
  numbers_in [L "diameter"; L "fraction"] [row (L "1.5") (L "1"); row (L "2") (L "0.5")] (L "diameter") [15/10; 2] /\
  numbers_in [L "diameter"; L "fraction"] [row (L "1.5") (L "1"); row (L "2") (L "0.5")] (L "fraction") [1; 5/10] /\
  text_entry diam_entries (L "area") (L "12.5") /\ decimal (L "12.5") (125/10).
Proof.
  split; [apply diam_example_file|]. split; [apply diam_example_table|].
  split; [exists 0%nat; split; [reflexivity|]; repeat constructor; apply numeral_decimal; [apply num_15|apply num_2]|].
  split; [exists 1%nat; split; [reflexivity|]; repeat constructor; apply numeral_decimal; [apply num_1|apply num_05]|].
  split; [apply diam_example_area|apply numeral_decimal, num_125].
Qed.

(** * C31: merging crater counts is additive *)
(** y is x to six significant figures, for diameter and fraction *)
Definition six_figures (p q : R * R) : Prop := significant 6 (fst p) (fst q) /\ significant 6 (snd p) (snd q).
(** a file that can be read as a list of craters with a perimeter: what .scc files with a perimeter and shape files give *)
Definition mergeable (shp : str -> res count) (fs : files) (n : str) (c : count) : Prop :=
  open_count shp fs n = Ok c /\ cc_prebinned (ct c) = false /\ ct_perimeter c <> None.
Definition sum (l : list R) : R := fold_right Rplus 0 l.
(** [arg] names the files; [show] must print the two sums as decimal numbers.  The file written reads back as exactly the craters of all
    files (six figures), and the sum of the areas; no other file changes. *)
Theorem C31_additive :
  forall show shp fs arg out ts cs a p,
    layout is_space ts arg -> Forall (token_ok is_space) ts -> (2 <= length ts)%nat ->
    Forall one_line (map token_word ts) -> (forall o, out = Some o -> one_line o) ->
    Forall2 (mergeable shp fs) (map token_word ts) cs ->
    a = sum (map (fun c => cc_area (ct c)) cs) -> p = sum (map (fun c => match ct_perimeter c with Some p => p | None => 0 end) cs) ->
    (numeral (show a) a \/ exponent_numeral (show a) a) -> (numeral (show p) p \/ exponent_numeral (show p) p) ->
    (exists c, In c cs /\ cc_craters (ct c) <> []) ->
    exists fs' dest rounded c,
      merge_cratercounts show shp fs arg out = Ok (fs', dest) /\
      (forall o, out = Some o -> o <> [] -> filename o (L "pn1") (Some (L ".diam")) None 4 = Ok dest) /\
      (forall n, n <> dest -> file_get fs' n = file_get fs n) /\
      read_diam fs' dest = Ok c /\ ct_buffered c = false /\
      Forall2 six_figures (concat (map (fun c => cc_craters (ct c)) cs)) rounded /\
      Permutation rounded (cc_craters (ct c)) /\ cc_area (ct c) = a.
Proof.
  intros show shp fs arg out ts cs a p LY TK N2 OL OO F -> -> NA NP (c0 & I0 & NE).
  destruct (merge_spec show shp fs arg out ts cs LY TK N2 OL OO F NA NP) as (fs' & dest & sx & c & H1 & _ & H3 & H4 & H5 & H6 & H7 & H8 & H9).
  { unfold all_craters. intros K. apply NE. destruct (cc_craters (ct c0)) as [|q r] eqn:Q; [reflexivity|]. exfalso.
    assert (J : In q (flat_map (fun c => cc_craters (ct c)) cs)) by (apply in_flat_map; exists c0; split; [exact I0|rewrite Q; now left]). rewrite K in J. destruct J. }
  exists fs', dest, sx, c. split; [exact H1|]. split; [exact H3|]. split; [exact H4|]. split; [exact H5|]. split; [exact H6|].
  split; [unfold all_craters in H7; rewrite flat_map_concat_map in H7; exact H7|]. split; [rewrite H8; apply sort_perm|exact H9].
Qed.
Print Assumptions C31_additive.
(** numbers with at most six significant figures are not changed *)
Definition at_most_six (x : R) : Prop := exists m k, x = IZR m * powerRZ 10 k /\ (Z.abs m < 10 ^ 6)%Z.
Theorem C31_exact :
  forall l rounded, Forall2 six_figures l rounded -> Forall (fun p => at_most_six (fst p) /\ at_most_six (snd p)) l -> rounded = l.
Proof.
  intros l r F. induction F as [|p q l r [S1 S2] F IH]; intros K; [reflexivity|]. inversion K as [|? ? [(m & k & E & M) (m' & k' & E' & M')] K']; subst.
  f_equal; [|now apply IH]. destruct p as [p1 p2], q as [q1 q2]. cbn in *. f_equal; eapply significant_exact; try eassumption; lia.
Qed.
Print Assumptions C31_exact.
(** .diam files themselves cannot be merged: they have no perimeter, and adding None to the sum raises TypeError *)
Lemma diam_no_perimeter fs n c : read_diam fs n = Ok c -> ct_perimeter c = None /\ cc_prebinned (ct c) = false.
Proof.
  unfold read_diam. destruct (structure fs n) as [s|]; [|discriminate]. cbn [bind]. destruct (dict_get s (L "crater")) as [t|]; [|discriminate]. cbn [bind].
  destruct (float_column t (L "diameter")) as [ds|]; [|discriminate]. cbn [bind].
  match goal with |- bind ?m _ = _ -> _ => destruct m as [[a f]|]; [|discriminate] end. cbn [bind].
  destruct f; [discriminate|]. destruct (sort _ _); [discriminate|]. intros E. injection E as <-. split; reflexivity.
Qed.
Theorem C31_diam_input_refuted :
  forall show shp fs arg out ts names1 cs1 n c names2,
    layout is_space ts arg -> Forall (token_ok is_space) ts -> map token_word ts = names1 ++ n :: names2 -> (2 <= length ts)%nat ->
    Forall one_line (map token_word ts) -> (forall o, out = Some o -> one_line o) ->
    Forall2 (mergeable shp fs) names1 cs1 -> filename n (L "e") None None 6 = Ok (L ".diam") -> read_diam fs n = Ok c ->
    merge_cratercounts show shp fs arg out = Err TypeError.
Proof.
  intros show shp fs arg out ts names1 cs1 n c names2 LY TK EN N2 OL OO F EX RD.
  assert (QS : quoted_split is_space arg = names1 ++ n :: names2) by (rewrite <- EN; eapply quoted_split_layout; eauto).
  destruct (filename_mapM (L "n") (names1 ++ n :: names2) ltac:(now rewrite <- EN)) as (ns0 & M0 & O0); [cbn; intuition|].
  set (out0 := match out with Some (c :: o) => c :: o | _ => join (L "_") (sort str_leb ns0) end).
  assert (OUT : one_line out0).
  { assert (J : one_line (join (L "_") (sort str_leb ns0))).
    { apply join_one_line; [repeat constructor|]. eapply Permutation_Forall; [apply sort_perm|exact O0]. }
    unfold out0. destruct out as [[|x o]|]; auto. }
  destruct (merge_code out0 OUT) as (r & FN).
  unfold merge_cratercounts. rewrite QS. destruct (Nat.ltb_spec (length (names1 ++ n :: names2)) 2) as [Q|_]; [rewrite <- EN, map_length in Q; lia|].
  assert (X : (match out with
              | Some (c :: o) => Ok (c :: o)
              | _ => do! ns <- filename_list (names1 ++ n :: names2) (L "n") None None 4; Ok (join (L "_") (sort str_leb ns))
              end) = Ok out0).
  { unfold filename_list. rewrite M0. unfold out0. destruct out as [[|x o]|]; reflexivity. }
  rewrite X. cbn [bind]. rewrite FN. cbn [bind]. destruct (diam_no_perimeter fs n c RD) as [P1 P2].
  rewrite (merge_loop_none shp fs names1 cs1 n c names2 [] 0 0 F); [reflexivity| |exact P2|exact P1].
  unfold open_count. rewrite EX. cbn [bind]. replace (seqb (L ".diam") (L ".stat")) with false by reflexivity.
  replace (seqb (L ".diam") (L ".diam")) with true by reflexivity. rewrite RD. reflexivity.
Qed.
Print Assumptions C31_diam_input_refuted.
Definition count_example (x : R) : count := mkCount (crater_list [(x, 1)] x) (Some x) false.
Example C31_hypotheses_met :
  let shp n := Ok (count_example (if seqb n (L "a.shp") then 1 else 2)) in
  layout is_space [Bare (L "a.shp"); Quoted sq (L "b.shp")] (L "a.shp 'b.shp'") /\
  Forall (token_ok is_space) [Bare (L "a.shp"); Quoted sq (L "b.shp")] /\
  Forall2 (mergeable shp []) [L "a.shp"; L "b.shp"] [count_example 1; count_example 2] /\
  numeral (L "3") (sum (map (fun c => cc_area (ct c)) [count_example 1; count_example 2])) /\
  (* a .diam file for the failing case *)
  filename (L "a.diam") (L "e") None None 6 = Ok (L ".diam") /\ (exists c, read_diam [(L "a.diam", diam_example)] (L "a.diam") = Ok c) /\
  at_most_six (15/10).
Proof.
  split. { apply (layout_cons is_space [] (Bare (L "a.shp")) [Quoted sq (L "b.shp")] (L " 'b.shp'")); [constructor|apply (layout_last is_space (L " ")); repeat constructor|eexists _, _; split; reflexivity]. }
  split. { apply Forall_cons; [|apply Forall_cons; [|constructor]].
    - split; [discriminate|]. split; [repeat constructor|]. left. split; cbn; intuition discriminate.
    - split; [now right|]. left. cbn. intuition discriminate. }
  split. { assert (K : forall n x, filename n (L "e") None None 6 = Ok (L ".shp") -> (if seqb n (L "a.shp") then 1 else 2) = x ->
             mergeable (fun n => Ok (count_example (if seqb n (L "a.shp") then 1 else 2))) [] n (count_example x)).
    { intros n x E <-. split; [|split; [reflexivity|discriminate]]. unfold open_count. rewrite E. reflexivity. }
    apply Forall2_cons; [apply K; [vm_compute; reflexivity|reflexivity]|]. apply Forall2_cons; [apply K; [vm_compute; reflexivity|reflexivity]|constructor]. }
  split. { apply (positive_numeral _ _ (L "3") [] 3%Z); [discriminate|repeat constructor|constructor|reflexivity|reflexivity|cbn; lra]. }
  split; [vm_compute; reflexivity|]. split.
  - destruct C55_hypotheses_met as (A & B & C & D & E & F).
    destruct (C55_diam _ _ _ _ _ _ _ _ _ A B ltac:(discriminate) C (or_introl D) ltac:(cbn; intuition discriminate) E F) as (c & H & _). eauto.
  - exists 15%Z, (-1)%Z. split; [change (powerRZ 10 (-1)) with (/ 10 ^ 1); simpl; lra|cbn; lia].
Qed.

(** * C32: exported statistics *)
(** What is written is read back as the bins that are not empty, in order, to five figures: lower edge, count, cumulative count and
    number of events.  Upper edges are not stored: each bin is taken to end where the next one starts, the last to be as wide in
    proportion as the one before.  The area is the quotient of the first cumulative count and its density (four figures). *)
(** a count that can be exported with the given binning, after which it is s' *)
Definition exportable (s : cratercount) (source : str) (binning : string) (s' : cratercount) : Prop :=
  ensure_binning s binning = (Ok tt, s') /\ (exists bn, cc_binning s' = Some bn /\ one_line (list_ascii_of_string bn)) /\
  one_line source /\ aligned (cc_binned s') /\ ordinary (cc_area s') /\ Forall ordinary_bin (populated (cc_binned s')).
Theorem C32_bins :
  forall fs s source name binning s', exportable s source binning s' -> (2 <= length (populated (cc_binned s')))%nat ->
    let bins := populated (cc_binned s') in
    exists fs' c r, write_stat fs s source name binning = Ok fs' /\ read_stat fs' name = Ok c /\ r = cc_binned (ct c) /\
      cc_prebinned (ct c) = true /\
      Forall2 (significant 5) (map d_min bins) (b_dmin r) /\ Forall2 (significant 5) (map n_bin bins) (b_n r) /\
      Forall2 (significant 5) (map n_cum bins) (b_ncum r) /\ Forall2 (significant 5) (map n_event bins) (b_nevent r) /\
      (exists lo y z, b_dmin r = lo ++ [y; z] /\ b_dmax r = tl (b_dmin r) ++ [z * (z / y)]) /\
      (exists x y, significant 5 (hd 0 (map n_cum bins)) x /\ significant 4 (hd 0 (map n_cum bins) / cc_area s') y /\ cc_area (ct c) = x / y).
Proof.
  intros fs s source name binning s' (EB & (bn & CB & B) & S & AL & A & OB) N2 bs.
  destruct (stat_round_trip fs name source (list_ascii_of_string bn) (cc_area s') (cc_binned s') S B (proj1 AL) A OB)
    as (lo & n & c & e & dens & F0 & F1 & F4 & F10 & F5 & RS). fold bs in F0, F1, F4, F10, F5, RS, OB, N2.
  assert (LO : length lo = length bs) by (clear - F0; apply Forall2_len in F0; now rewrite map_length in F0).
  assert (U : exists lo' y z, lo = lo' ++ [y; z] /\ upper_edges lo = Ok (tl lo ++ [z * (z / y)])).
  { unfold upper_edges. destruct (rev lo) as [|z [|y q]] eqn:Q; [apply (f_equal (@length _)) in Q; rewrite rev_length in Q; cbn in Q; lia|apply (f_equal (@length _)) in Q; rewrite rev_length in Q; cbn in Q; lia|].
    exists (rev q), y, z. assert (E : lo = rev q ++ [y; z]) by (rewrite <- (rev_involutive lo), Q; cbn; now rewrite <- app_assoc). split; [exact E|].
    assert (P : 0 < y).
    { assert (PF : Forall (fun v => 0 < v) lo).
      { clear - F0 OB. apply Forall2_map_l in F0. revert OB. induction F0 as [|b v bs lo SG F IH]; intros OB; constructor; inversion OB; subst.
        - eapply significant_pos; [|  |exact SG]; [lia|]. destruct H1 as (O & _). exact (within_pos 20 _ O).
        - now apply IH. }
      rewrite E in PF. apply Forall_app in PF. destruct PF as [_ PF]. now inversion PF. }
    unfold divide. destruct (Reqb_spec y 0); [lra|]. reflexivity. }
  destruct U as (lo' & y & z & E & U). rewrite U in RS. cbn [bind] in RS.
  assert (NE : bs <> []) by (destruct bs; [cbn in N2; lia|discriminate]).
  exists (write_textfile fs name (stat_lines source (list_ascii_of_string bn) (cc_area s') (cc_binned s')) false). eexists. eexists.
  split; [unfold write_stat; rewrite EB, CB; reflexivity|]. split; [rewrite RS; destruct bs; [congruence|reflexivity]|]. split; [reflexivity|].
  cbn. split; [reflexivity|]. split; [exact F0|]. split; [exact F1|]. split; [exact F4|]. split; [exact F10|].
  split; [exists lo', y, z; split; [exact E|reflexivity]|].
  destruct bs as [|x0 bs']; [congruence|]. cbn [map] in *. inversion F4; subst. inversion F5; subst. cbn [hd]. eexists _, _. split; [eassumption|]. split; [eassumption|reflexivity].
Qed.
Print Assumptions C32_bins.

(** without gaps between the populated bins all upper edges except the last are read back too *)
Theorem C32_upper_edges :
  forall fs s source name binning s', exportable s source binning s' -> (2 <= length (populated (cc_binned s')))%nat ->
    contiguous (populated (cc_binned s')) ->
    exists fs' c, write_stat fs s source name binning = Ok fs' /\ read_stat fs' name = Ok c /\
      Forall2 (significant 5) (removelast (map d_max (populated (cc_binned s')))) (removelast (b_dmax (cc_binned (ct c)))).
Proof.
  intros fs s source name binning s' EX N2 CO.
  destruct (C32_bins fs s source name binning s' EX N2) as (fs' & c & r & W & R & -> & _ & F & _ & _ & _ & (lo & y & z & _ & U) & _).
  exists fs', c. split; [exact W|]. split; [exact R|]. rewrite U, removelast_last.
  assert (T : removelast (map d_max (populated (cc_binned s'))) = tl (map d_min (populated (cc_binned s')))).
  { clear - CO. set (l := populated (cc_binned s')) in *. clearbody l. induction l as [|x l IH]; [reflexivity|]. destruct l as [|x' l]; [reflexivity|].
    cbn [map removelast tl] in *. rewrite (CO [] x x' l eq_refl). f_equal. apply IH. intros l1 u v l2 E. apply (CO (x :: l1) u v l2). cbn. now rewrite E. }
  rewrite T. inversion F; subst; [constructor|assumption].
Qed.
Print Assumptions C32_upper_edges.
(** numbers with at most five figures are read back exactly *)
Theorem C32_exact :
  forall l r, Forall2 (significant 5) l r -> Forall (fun x => exists m k, x = IZR m * powerRZ 10 k /\ (Z.abs m < 10 ^ 5)%Z) l -> r = l.
Proof.
  intros l r F. induction F as [|x y l r S F IH]; intros K; [reflexivity|]. inversion K as [|? ? (m & k & E & M) K']; subst.
  f_equal; [|now apply IH]. eapply significant_exact; try eassumption; [lia|reflexivity].
Qed.
Print Assumptions C32_exact.
(** the bins that the program computes have columns of equal length *)
Theorem C32_computed_bins :
  forall craters binning offset b ri, apply_binning craters binning offset = Ok (b, ri) -> binning <> "none"%string -> aligned b.
Proof.
  intros craters binning offset b ri H N. unfold apply_binning in H. destruct (negb _); [discriminate|].
  destruct (String.eqb_spec binning "none"); [contradiction|]. destruct (generate_bins binning (map fst craters) offset true) as [bs|]; [|discriminate].
  cbn [bind] in H. injection H as <- _. unfold aligned. cbn.
  assert (LO : length (edges_lo bs) = pred (length bs)) by (unfold edges_lo; rewrite removelast_firstn_len, firstn_length; lia).
  assert (HI : length (edges_hi bs) = pred (length bs)) by (unfold edges_hi; destruct bs; reflexivity).
  repeat split; rewrite ?map_length, ?combine_length, ?flip_cumsum_length, ?histogram_length, ?LO, ?HI, ?Nat.min_id; reflexivity.
Qed.
Print Assumptions C32_computed_bins.

(** the widths of bins before a gap, and of the last bin, are not kept; a file with a single bin cannot be read *)
Lemma ordinary_small x : 1 <= x <= 10 -> ordinary x.
Proof.
  intros H. assert (A : ten (-20) < ten 0) by (apply ten_lt; lia). assert (B : ten 1 < ten 20) by (apply ten_lt; lia).
  change (ten 0) with 1 in A. assert (C : ten 1 = 10) by (rewrite ten_IZR by lia; reflexivity). rewrite C in B. unfold ordinary. fold (ten (-20)) (ten 20). lra.
Qed.
Definition prebinned_example (b : binned) : cratercount := mkCC [] 1 (Some "pseudo-log"%string) true b None.
Lemma example_exportable b : aligned b -> Forall ordinary_bin (populated b) ->
  exportable (prebinned_example b) (L "a") "pseudo-log" (prebinned_example b).
Proof.
  intros AL OB. split; [reflexivity|]. split; [exists "pseudo-log"%string; split; [reflexivity|repeat constructor]|]. split; [repeat constructor|].
  split; [exact AL|]. split; [apply ordinary_small; cbn; lra|exact OB].
Qed.
Definition gap_example : binned := mkBinned [1; 2; 4] [2; 4; 8] [1; 2; 4] [1; 3; 6] [1; 0; 1] [1; 0; 1] [2; 1; 1] [2; 1; 1].
Lemma gap_populated : populated gap_example = [mkBin 1 2 1 2 1 1 1; mkBin 4 8 1 1 6 4 1].
Proof.
  unfold populated, bins, gap_example. cbn. destruct (Rlt_dec 0 1); [|lra]. destruct (Rlt_dec 0 0); [lra|]. destruct (Rlt_dec 0 1); [reflexivity|lra].
Qed.
Ltac ordinary_bins := repeat (apply Forall_cons; [unfold ordinary_bin; cbn [d_min n_bin n_cum d_mean width n_event];
  repeat match goal with |- ordinary _ => apply ordinary_small; lra | |- _ /\ _ => split end|]); apply Forall_nil.
Lemma gap_exportable : exportable (prebinned_example gap_example) (L "a") "pseudo-log" (prebinned_example gap_example).
Proof.
  apply example_exportable; [repeat split|]. rewrite gap_populated. ordinary_bins.
Qed.
Lemma five (x y : R) (m : Z) : significant 5 x y -> x = IZR m -> (Z.abs m < 10 ^ 5)%Z -> y = x.
Proof. intros S E M. eapply (significant_exact 5 x y m 0); [lia|exact S|rewrite E; cbn; lra|exact M]. Qed.
Theorem C32_gap_refuted :
  ~ (forall fs s source name binning s', exportable s source binning s' -> (2 <= length (populated (cc_binned s')))%nat ->
       exists fs' c, write_stat fs s source name binning = Ok fs' /\ read_stat fs' name = Ok c /\
         Forall2 (significant 5) (map d_max (removelast (populated (cc_binned s')))) (removelast (b_dmax (cc_binned (ct c))))).
Proof.
  intros H. pose proof gap_exportable as EX. assert (N2 : (2 <= length (populated gap_example))%nat) by (rewrite gap_populated; cbn; lia).
  destruct (H [] _ _ (L "f") _ _ EX N2) as (fs1 & c1 & W1 & R1 & Q).
  destruct (C32_bins [] _ _ (L "f") _ _ EX N2) as (fs' & c & r & W & R & -> & _ & F & _ & _ & _ & (lo & y & z & _ & U) & _).
  rewrite W in W1. injection W1 as <-. rewrite R in R1. injection R1 as <-. cbn [cc_binned prebinned_example] in *.
  rewrite U, removelast_last in Q. rewrite gap_populated in *. cbn [map d_min d_max removelast] in *.
  remember (b_dmin (cc_binned (ct c))) as q eqn:Eq0. clear Eq0 U.
  inversion F as [|? y1 ? ? _ F' M1 M2]; subst. inversion F' as [|? y2 ? ? S2 F'' M3 M4]; subst. inversion F'' as [M5 M6|]; subst.
  cbn in Q. inversion Q as [|? ? ? ? Q1]; subst.
  assert (y2 = 4) by (eapply (five 4 y2 4); [assumption|reflexivity|lia]). assert (y2 = 2) by (eapply (five 2 y2 2); [assumption|reflexivity|lia]). lra.
Qed.
Print Assumptions C32_gap_refuted.
Definition last_example : binned := mkBinned [1; 2] [2; 3] [1; 1] [1; 2] [1; 1] [1; 1] [2; 1] [2; 1].
Lemma last_populated : populated last_example = [mkBin 1 2 1 2 1 1 1; mkBin 2 3 1 1 2 1 1].
Proof.
  unfold populated, bins, last_example. cbn. destruct (Rlt_dec 0 1); [|lra]. destruct (Rlt_dec 0 1); [reflexivity|lra].
Qed.
Theorem C32_last_bin_refuted :
  ~ (forall fs s source name binning s', exportable s source binning s' -> (2 <= length (populated (cc_binned s')))%nat ->
       contiguous (populated (cc_binned s')) ->
       exists fs' c, write_stat fs s source name binning = Ok fs' /\ read_stat fs' name = Ok c /\
         Forall2 (significant 5) (map d_max (populated (cc_binned s'))) (b_dmax (cc_binned (ct c)))).
Proof.
  intros H.
  assert (EX : exportable (prebinned_example last_example) (L "a") "pseudo-log" (prebinned_example last_example)).
  { apply example_exportable; [repeat split|]. rewrite last_populated. ordinary_bins. }
  assert (N2 : (2 <= length (populated last_example))%nat) by (rewrite last_populated; cbn; lia).
  assert (CO : contiguous (populated last_example)).
  { rewrite last_populated. intros l1 x y l2 E. destruct l1 as [|? [|? [|? ?]]]; cbn in E; injection E; intros; subst; try discriminate; reflexivity. }
  destruct (H [] _ _ (L "f") _ _ EX N2 CO) as (fs1 & c1 & W1 & R1 & Q).
  destruct (C32_bins [] _ _ (L "f") _ _ EX N2) as (fs' & c & r & W & R & -> & _ & F & _ & _ & _ & (lo & y & z & EL & U) & _).
  rewrite W in W1. injection W1 as <-. rewrite R in R1. injection R1 as <-. cbn [cc_binned prebinned_example] in *.
  rewrite U, EL in Q. rewrite EL in F. rewrite last_populated in *. cbn [map d_min d_max] in *. clear EL U.
  pose proof (Forall2_len _ _ _ F) as LF. destruct lo; [|exfalso; rewrite app_length in LF; cbn in LF; lia]. cbn [app tl] in *.
  inversion F as [|? ? ? ? S1 F']; subst. inversion F' as [|? ? ? ? S2 _]; subst.
  inversion Q as [|? ? ? ? Q1 Q2]; subst. inversion Q2 as [|? ? ? ? Q3 Q4]; subst.
  assert (y = 1) by (eapply (five 1 y 1); [assumption|reflexivity|lia]). assert (z = 2) by (eapply (five 2 z 2); [assumption|reflexivity|lia]). subst.
  assert (X : 2 * (2 / 1) = 3) by (eapply (five 3 _ 3); [assumption|reflexivity|lia]). lra.
Qed.
Print Assumptions C32_last_bin_refuted.
Theorem C32_single_bin_refuted :
  forall fs s source name binning s' fs', exportable s source binning s' -> length (populated (cc_binned s')) = 1%nat ->
    write_stat fs s source name binning = Ok fs' -> read_stat fs' name = Err IndexError.
Proof.
  intros fs s source name binning s' fs' (EB & (bn & CB & B) & S & AL & A & OB) N1 W.
  unfold write_stat in W. rewrite EB, CB in W. injection W as <-.
  destruct (stat_round_trip fs name source (list_ascii_of_string bn) (cc_area s') (cc_binned s') S B (proj1 AL) A OB)
    as (lo & n & c & e & dens & F0 & _ & _ & _ & _ & RS). rewrite RS.
  apply Forall2_len in F0. rewrite map_length in F0. destruct (populated (cc_binned s')) as [|x [|y l]]; try discriminate N1.
  destruct lo as [|v [|? ?]]; try discriminate F0. reflexivity.
Qed.
Print Assumptions C32_single_bin_refuted.
Example C32_hypotheses_met :
  exportable (prebinned_example gap_example) (L "a") "pseudo-log" (prebinned_example gap_example) /\
  (2 <= length (populated gap_example))%nat /\ aligned gap_example.
Proof. split; [apply gap_exportable|]. rewrite gap_populated. split; [cbn; lia|repeat split]. Qed.
