(** Proofs about the results file of the randomness analysis. *)
From Coq Require Import String Ascii List ZArith Reals Bool Lia Lra Permutation Sorting.Sorted.
From Verif Require Import Base NumModel NumLemmas StrModel StrSpec StrProofs StrProofs2 CliModel FmtModel FmtSpec FmtProofs
  TsModel TsSpec TsProofs5 IoModel IoSpec IoProofs IoProofs3 SccModel SccProofs SccProofs2 SccProofs3 RaModel RaFileModel RaFileSpec.
Import ListNotations.
Local Open Scope R_scope.

(** ** Rows of words with gaps, with the letters of nan and inf *)
Definition cell_char (c : ascii) : bool := num_char c || mem c (L "naif").
Lemma cell_char_facts c : cell_char c = true -> is_space c = false /\ is_break c = false /\ ~ In c (dq :: sq :: L ";#={}*[(").
Proof. destruct c as [[] [] [] [] [] [] [] []]; intros H; vm_compute in H; try discriminate H; (split; [reflexivity|]; split; [reflexivity|]; cbn; intuition discriminate). Qed.
Definition cell_word (w : str) : Prop := w <> [] /\ Forall (fun c => cell_char c = true) w.
Definition cells_ok (l : list (str * str)) : Prop :=
  Forall (fun p => gap_text (fst p) /\ cell_word (snd p)) l /\ Forall (fun p => fst p <> []) (tl l).
Lemma blanks_space foot : blanks foot -> Forall (fun c => is_space c = true) foot.
Proof. apply Forall_impl. intros c ->. reflexivity. Qed.
(** the row may end in blanks *)
Lemma cells_layout foot l : blanks foot -> forall g w, cells_ok ((g, w) :: l) -> layout is_space (map (fun p => Bare (snd p)) ((g, w) :: l)) (spaced ((g, w) :: l) ++ foot).
Proof.
  intros HF. induction l as [|[g' w'] l IH]; intros g w [F N]; inversion F as [|? ? [G W] F']; subst; cbn [fst snd] in *.
  - assert (G' : Forall (fun c => is_space c = true) g) by (eapply Forall_impl; [|exact G]; intros c K; now apply gap_char_facts).
    unfold spaced. cbn [map concat fst snd]. rewrite app_nil_r. destruct foot as [|f foot].
    + rewrite app_nil_r. exact (layout_last is_space g (Bare w) G').
    + rewrite <- app_assoc. apply (layout_cons is_space g (Bare w) [] (f :: foot) G'); [apply layout_end; now apply blanks_space|]. exists f, foot. split; [reflexivity|]. inversion HF; subst. reflexivity.
  - cbn [tl] in N. inversion N as [|? ? NG N']; subst. cbn [fst] in NG.
    replace (spaced ((g, w) :: (g', w') :: l) ++ foot) with (g ++ w ++ spaced ((g', w') :: l) ++ foot) by (unfold spaced; cbn [map concat fst snd]; now rewrite <- !app_assoc).
    apply (layout_cons is_space g (Bare w) _ (spaced ((g', w') :: l) ++ foot)).
    + eapply Forall_impl; [|exact G]. intros c K. now apply gap_char_facts.
    + apply IH. split; [exact F'|exact N'].
    + inversion F' as [|? ? [G' W'] F'']; subst. cbn [fst snd] in *. destruct g' as [|c g']; [congruence|].
      inversion G'; subst. exists c. eexists. split; [unfold spaced; cbn [map concat fst app]; reflexivity|]. now apply gap_char_facts.
Qed.
Lemma cells_row w l foot : cells_ok (([], w) :: l) -> blanks foot ->
  row_ok (map (fun p => Bare (snd p)) (([], w) :: l), spaced (([], w) :: l) ++ foot) /\ clean (spaced (([], w) :: l) ++ foot) /\
  starts_with (L "#") (lstrip is_space (spaced (([], w) :: l) ++ foot)) = false.
Proof.
  intros OK HF. set (s := spaced (([], w) :: l) ++ foot).
  assert (A : Forall (fun c => is_break c = false /\ ~ In c (dq :: sq :: L ";#={}*[(")) s).
  { unfold s. apply Forall_app. split.
    - destruct OK as [F _]. unfold spaced. induction F as [|[g v] r [G W] F IH]; [constructor|]. cbn [map concat fst snd] in *. rewrite !Forall_app.
      split; [|exact IH]. split; [eapply Forall_impl; [|exact G]; intros c K; apply gap_char_facts in K; tauto|eapply Forall_impl; [|exact (proj2 W)]; intros c K; apply cell_char_facts in K; tauto].
    - eapply Forall_impl; [|exact HF]. intros c ->. split; [reflexivity|]. cbn. intuition discriminate. }
  assert (C : clean s). { eapply Forall_impl; [|exact A]. intros c (B & I). split; [exact B|]. intros K. apply I. cbn in *. tauto. }
  split; [|split; [exact C|]].
  - split; [now apply cells_layout|]. split; [discriminate|]. split; [|split; [now apply clean_one_line|]].
    + cbn [fst]. rewrite Forall_map. destruct OK as [F _]. eapply Forall_impl; [|exact F]. intros [g v] [_ [N W]]. cbn [snd token_ok] in *.
      split; [exact N|]. split; [eapply Forall_impl; [|exact W]; intros c K; now apply cell_char_facts|]. left.
      split; intros K; apply (proj1 (Forall_forall _ _) W) in K; vm_compute in K; discriminate K.
    + eapply Forall_impl; [|exact A]. intros c (_ & I) K. apply I. cbn in *. tauto.
  - destruct OK as [F _]. inversion F as [|? ? [_ [N W]] _]; subst. cbn [snd] in *. destruct w as [|c w]; [congruence|]. inversion W; subst.
    destruct (cell_char_facts c) as (S & _ & Q); [assumption|]. unfold s, spaced. cbn [map concat fst snd app lstrip]. rewrite S.
    unfold starts_with. cbn [length L list_ascii_of_string firstn].
    match goal with |- seqb ?a ?b = false => destruct (seqb_spec a b) as [E|_]; [|reflexivity] end.
    exfalso. apply Q. injection E as <-. cbn. tauto.
Qed.
Lemma num_cell s x : number_text s x -> cell_word s.
Proof. intros H. apply number_chars in H as [H N]. split; [exact N|]. eapply Forall_impl; [|exact H]. intros c K. unfold cell_char. now rewrite K. Qed.
Lemma g_cell k x : cell_word (fmt_g k x).
Proof. destruct (fmt_g_number k x) as (y & _ & H). exact (num_cell _ _ H). Qed.
Lemma int_cell z : cell_word (int_str z).
Proof. destruct (int_str_spec z) as [N _]. eapply num_cell. left. exact N. Qed.
Lemma sigma_cell s : cell_word (sigma_text s).
Proof. destruct s as [x| |[]]; [apply g_cell| | |]; split; try discriminate; repeat constructor. Qed.
Lemma pad_blanks k s : blanks (pad k s).
Proof. unfold pad. induction (k - length s)%nat; constructor; [reflexivity|assumption]. Qed.

(** ** Rows of the two kinds of tables *)
Fixpoint trail (prev : str) (ws : list str) : list (str * str) :=
  match ws with [] => [] | w :: r => (pad 12 prev ++ [tab], w) :: trail w r end.
Lemma last_cons {A} (ws : list A) : forall w d, last (w :: ws) d = last ws w.
Proof. induction ws as [|x ws IH]; intros w d; [reflexivity|]. change (last (w :: x :: ws) d) with (last (x :: ws) d). now rewrite !IH. Qed.
Lemma trail_text ws : forall w0, join [tab] (pad_right 12 w0 :: map (pad_right 12) ws) = spaced (([], w0) :: trail w0 ws) ++ pad 12 (last ws w0).
Proof.
  induction ws as [|w ws IH]; intros w0.
  - cbn [map join trail last]. unfold spaced. cbn [map concat fst snd app]. rewrite app_nil_r. reflexivity.
  - cbn [map trail]. change (join [tab] (pad_right 12 w0 :: pad_right 12 w :: map (pad_right 12) ws)) with (pad_right 12 w0 ++ [tab] ++ join [tab] (pad_right 12 w :: map (pad_right 12) ws)).
    rewrite IH, last_cons. unfold spaced. cbn [map concat fst snd app]. unfold pad_right. fold (pad 12 w0). rewrite <- !app_assoc. reflexivity.
Qed.
Lemma trail_ok ws : forall w0, cell_word w0 -> Forall cell_word ws -> cells_ok (([], w0) :: trail w0 ws).
Proof.
  intros w0 H0 H. split.
  - constructor; [split; [constructor|exact H0]|]. revert w0 H0. induction H as [|w ws Hw _ IH]; intros w0 H0; [constructor|]. cbn [trail]. constructor; [|now apply IH].
    split; [apply gap_app; [apply pad_gap_text|apply tab_gap_text]|exact Hw].
  - cbn [tl]. clear. revert w0. induction ws as [|w ws IH]; intros w0; [constructor|]. cbn [trail]. constructor; [|apply IH]. cbn [fst]. now destruct (pad 12 w0).
Qed.
Lemma trail_words ws : forall w0, map snd (trail w0 ws) = ws.
Proof. induction ws as [|w ws IH]; intros w0; [reflexivity|]. cbn [trail map snd]. now rewrite IH. Qed.
Definition sigma_words (b : str) (ws : list str) : list (str * str) :=
  match ws with [] => [] | w :: r => (pad 12 b ++ [tab] ++ pad 9 w, w) :: map (fun w => ([tab] ++ pad 9 w, w)) r end.
Lemma sigma_words_text b ws : pad_right 12 b ++ concat (map (fun w => [tab] ++ pad_left 9 w) ws) =
  spaced (([], b) :: sigma_words b ws) ++ match ws with [] => pad 12 b | _ => [] end.
Proof.
  assert (G : forall r, concat (map (fun w => [tab] ++ pad_left 9 w) r) = spaced (map (fun w => ([tab] ++ pad 9 w, w)) r)).
  { induction r as [|w r IH]; [reflexivity|]. unfold spaced in *. cbn [map concat fst snd]. rewrite IH. unfold pad_left. fold (pad 9 w). rewrite <- !app_assoc. reflexivity. }
  destruct ws as [|w r]; unfold sigma_words.
  - unfold spaced. cbn [map concat fst snd app]. rewrite !app_nil_r. reflexivity.
  - cbn [map concat]. rewrite G. unfold spaced. cbn [map concat fst snd app]. unfold pad_left, pad_right. fold (pad 9 w). fold (pad 12 b). rewrite app_nil_r, <- !app_assoc. reflexivity.
Qed.
Lemma sigma_words_ok b ws : cell_word b -> Forall cell_word ws -> cells_ok (([], b) :: sigma_words b ws).
Proof.
  intros Hb H. split.
  - constructor; [split; [constructor|exact Hb]|]. destruct H as [|w ws Hw H]; [constructor|]. unfold sigma_words. constructor.
    + split; [|exact Hw]. cbn [fst]. apply gap_app; [apply pad_gap_text|]. apply gap_app; [apply tab_gap_text|apply pad_gap_text].
    + rewrite Forall_map. eapply Forall_impl; [|exact H]. intros v Hv. cbn [fst snd]. split; [|exact Hv]. apply gap_app; [apply tab_gap_text|apply pad_gap_text].
  - cbn [tl]. destruct ws as [|w ws]; [constructor|]. unfold sigma_words. constructor; [cbn [fst]; now destruct (pad 12 b)|]. rewrite Forall_map. apply Forall_forall. intros v _. discriminate.
Qed.

(** ** What is stored *)
Lemma bin_cell b : bin_name b -> cell_word b.
Proof. intros [x ->]. apply g_cell. Qed.
Lemma bin_item gap b : blanks gap -> bin_name b -> item_ok (L " ") (L ",{}=") (Item gap None b []) /\ one_line (item_word (Item gap None b [])) /\ (@None ascii) = None.
Proof.
  intros Hb [x ->]. pose proof (fmt_g_chars 3 x) as Hw. destruct (g_cell 3 x) as [Nw _]. set (w := fmt_g 3 x) in *.
  assert (AL : forall c, num_char c = true -> is_break c = false /\ c <> " "%char /\ ~ In c (L ",{}=") /\ c <> dq /\ c <> sq).
  { clear. intros [[] [] [] [] [] [] [] []] H; try (vm_compute in H; discriminate H); (split; [reflexivity|]; split; [discriminate|]; split; [cbn; intuition discriminate|split; discriminate]). }
  cbn [item_ok item_word]. split; [|split; [|reflexivity]].
  - split; [eapply Forall_impl; [|exact Hb]; intros c ->; cbn; auto|]. split; [constructor|].
    split; [eapply Forall_impl; [|exact Hw]; intros c K; now apply AL|].
    split; [destruct w; [congruence|]; inversion Hw; subst; cbn; now apply AL|].
    split; [destruct (exists_last Nw) as (u & y & E); rewrite E, last_last; apply AL; apply (proj1 (Forall_forall _ _) Hw); rewrite E; apply in_or_app; right; now left|].
    intros q u Hq E. assert (K : In q w) by (rewrite E; now left). apply (proj1 (Forall_forall _ _) Hw) in K. apply AL in K. destruct Hq; subst; tauto.
  - eapply Forall_impl; [|exact Hw]. intros c K. now apply AL.
Qed.
(** the values of trial t *)
Definition trial_cells (r : record) (t : nat) : list str := map (fun p => fmt_g 7 (nth t (snd p) 0)) (trials r).
Definition trial_words (r : record) (t : nat) : list (str * str) := ([], int_str (Z.of_nat t)) :: trail (int_str (Z.of_nat t)) (trial_cells r t).
Definition trial_text (r : record) (t : nat) : str := join [tab] (pad_right 12 (int_str (Z.of_nat t)) :: map (pad_right 12) (trial_cells r t)).
Lemma trial_row_ok r t : record_ok r -> (t < Z.to_nat (n_trials r))%nat -> trial_row r t = Ok (trial_text r t).
Proof.
  intros (P & NE & ND & F) Ht. unfold trial_row. rewrite (mapM_ok _ (fun p => pad_right 12 (fmt_g 7 (nth t (snd p) 0)))).
  - cbn [bind]. unfold trial_text, trial_cells. now rewrite map_map.
  - intros p I. pose proof (proj1 (Forall_forall _ _) F p I) as [_ Lp]. rewrite (nth_error_nth' _ 0) by lia. reflexivity.
Qed.
Lemma trial_good r t : row_ok (words_tokens (trial_words r t), trial_text r t) /\ clean (trial_text r t) /\ starts_with (L "#") (lstrip is_space (trial_text r t)) = false.
Proof.
  unfold trial_text, trial_words, words_tokens. rewrite trail_text. apply cells_row; [|apply pad_blanks]. apply trail_ok; [apply int_cell|]. unfold trial_cells. rewrite Forall_map. apply Forall_forall. intros p _. apply g_cell.
Qed.
Definition measure_text (p : str * record) : list str :=
  [fst p ++ L " = {"; L "n_trials = " ++ int_str (n_trials (snd p)); L "trials  = {index, " ++ join (L ", ") (map fst (trials (snd p)))] ++
  map (trial_text (snd p)) (seq 0 (Z.to_nat (n_trials (snd p)))) ++ [L "}"; L "}"].
Lemma measure_lines_ok p : record_ok (snd p) -> measure_lines p = Ok (L "#" :: measure_text p).
Proof.
  destruct p as [m r]. intros OK. unfold measure_lines, measure_text. cbn [fst snd] in *. rewrite (mapM_ok _ (trial_text r)); [reflexivity|].
  intros t I. apply in_seq in I. apply trial_row_ok; [exact OK|lia].
Qed.

(** the bins of all measures *)
Lemma all_bins_ok s : store_ok s -> exists bins, all_bins s = Ok bins /\ Forall bin_name bins.
Proof.
  intros [_ F]. unfold all_bins. set (l := nodup _ _). assert (Fl : Forall bin_name l).
  { apply Forall_forall. intros b I. unfold l in I. apply nodup_In, in_flat_map in I. destruct I as (p & Ip & I). apply in_map_iff in I. destruct I as (q & <- & Iq).
    apply (proj1 (Forall_forall _ _) F) in Ip. destruct Ip as (_ & _ & _ & _ & G). now apply (proj1 (Forall_forall _ _) G) in Iq. }
  assert (V : forall b, In b l -> py_float b = Ok (match py_float b with Ok x => x | Err _ => 0 end)).
  { intros b I. apply (proj1 (Forall_forall _ _) Fl) in I. destruct I as [x ->]. destruct (fmt_g_decimal 3 x) as (y & _ & D). now rewrite (py_float_decimal _ _ D). }
  rewrite (mapM_ok _ (fun b => (match py_float b with Ok x => x | Err _ => 0 end, b))) by (intros b I; rewrite (V b I); reflexivity).
  cbn [bind]. eexists. split; [reflexivity|]. apply Forall_forall. intros b I. apply in_map_iff in I. destruct I as ([x c] & <- & I).
  apply (Permutation_in _ (Permutation_sym (sort_perm _ _))) in I || apply (Permutation_in _ (sort_perm _ _)) in I. apply in_map_iff in I. destruct I as (d & E & Id). injection E as _ <-. exact (proj1 (Forall_forall _ _) Fl d Id).
Qed.

(** ** The document *)
Lemma join_app sep a b : a <> [] -> b <> [] -> join sep (a ++ b) = join sep a ++ sep ++ join sep b.
Proof.
  intros NA NB. induction a as [|x a IH]; [congruence|]. destruct a as [|y a].
  - cbn [app]. destruct b as [|z b]; [congruence|]. reflexivity.
  - change ((x :: y :: a) ++ b) with (x :: (y :: a) ++ b). change (join sep (x :: (y :: a) ++ b)) with (x ++ sep ++ join sep ((y :: a) ++ b)). rewrite IH by discriminate.
    change (join sep (x :: y :: a)) with (x ++ sep ++ join sep (y :: a)). now rewrite <- !app_assoc.
Qed.
Lemma join_one sep x : join sep [x] = x. Proof. reflexivity. Qed.
Lemma join_concat sep gs : Forall (fun g => g <> []) gs -> join sep (concat gs) = join sep (map (join sep) gs).
Proof.
  induction gs as [|g gs IH]; intros F; [reflexivity|]. inversion F; subst. cbn [concat map]. destruct gs as [|g' gs].
  - cbn [concat map join]. now rewrite app_nil_r.
  - rewrite join_app; [|assumption|]. 2:{ inversion H2; subst. cbn [concat]. now destruct g'. }
    rewrite IH by assumption. reflexivity.
Qed.
Lemma join_comma x ms : join (L ",") (x :: map (fun m => L " " ++ m) ms) = x ++ concat (map (fun m => L ", " ++ m) ms).
Proof.
  revert x. induction ms as [|m ms IH]; intros x; [cbn [map concat join]; now rewrite app_nil_r|]. cbn [map].
  change (join (L ",") (x :: (L " " ++ m) :: map (fun m => L " " ++ m) ms)) with (x ++ L "," ++ join (L ",") ((L " " ++ m) :: map (fun m => L " " ++ m) ms)).
  rewrite IH. cbn [concat]. rewrite <- !app_assoc. reflexivity.
Qed.
Lemma join_comma_blank ms : ms <> [] -> concat (map (fun m => L ", " ++ m) ms) = L ", " ++ join (L ", ") ms.
Proof.
  induction ms as [|m ms IH]; intros N; [congruence|]. destruct ms as [|m' ms]; [cbn [map concat join]; now rewrite app_nil_r|].
  change (concat (map (fun m => L ", " ++ m) (m :: m' :: ms))) with ((L ", " ++ m) ++ concat (map (fun m => L ", " ++ m) (m' :: ms))). rewrite IH by discriminate.
  change (join (L ", ") (m :: m' :: ms)) with (m ++ L ", " ++ join (L ", ") (m' :: ms)). now rewrite <- !app_assoc.
Qed.
Definition tags_of (first : str) (l : list str) : list item := item1 first :: map item2 l.
Lemma tags_text first l : join (L ",") (map item_text (tags_of first l)) = first ++ concat (map (fun m => L ", " ++ m) l).
Proof.
  rewrite <- join_comma. unfold tags_of. cbn [map]. rewrite map_map. assert (A : item_text (item1 first) = first) by (unfold item1, item_text, quoted; cbn [app]; apply app_nil_r).
  rewrite A. do 2 f_equal. apply map_ext. intros w. unfold item2, item_text, quoted. now rewrite app_nil_r.
Qed.
Lemma tags_words first l : map item_word (tags_of first l) = first :: l.
Proof. unfold tags_of. cbn [map item1 item_word]. f_equal. rewrite map_map. cbn [item2 item_word]. apply map_id. Qed.

Section Doc.
Variables (version source : str) (stat : str -> str -> sigma) (s : store) (bins : list str).
Hypothesis VW : row_word version.
Hypothesis SW : one_line source /\ ~ In dq source.
Hypothesis OK : store_ok s.
Hypothesis BW : Forall bin_name bins.
Definition sigma_cells (b : str) : list str := map (fun p => if has_bin (snd p) b then sigma_text (stat (fst p) b) else L "-") s.
Definition sigma_line (b : str) : str := spaced (([], b) :: sigma_words b (sigma_cells b)) ++ match sigma_cells b with [] => pad 12 b | _ => [] end.
Lemma sigma_row_text b : sigma_row stat s b = sigma_line b.
Proof. unfold sigma_row, sigma_line. rewrite <- sigma_words_text. unfold sigma_cells. rewrite map_map. reflexivity. Qed.
Definition sigma_entry : entry := line_entry (L "n_sigma") (Table (tags_of (L "bin") (map fst s)) (map (fun b => (words_tokens (([], b) :: sigma_words b (sigma_cells b)), sigma_line b)) bins) []).
Definition trials_rows (r : record) : list (list token * str) := map (fun t => (words_tokens (trial_words r t), trial_text r t)) (seq 0 (Z.to_nat (n_trials r))).
Definition measure_body (r : record) : list entry :=
  [line_entry (L "n_trials") (Word (int_str (n_trials r)));
   Entry [] (L "trials") false (L "  ") (L " ") (Table (tags_of (L "index") (map fst (trials r))) (trials_rows r) []) []].
Definition measure_entry (p : str * record) : entry := line_entry (fst p) (Struct [nl] (measure_body (snd p)) []).
Definition ra_doc : list entry := [line_entry (L "version") (Word version); line_entry (L "source") (InQuote dq source); sigma_entry] ++ map measure_entry s.
Definition ra_groups : list (list str) :=
  [[L "version = " ++ version]; [L "source = " ++ [dq] ++ source ++ [dq]];
   (L "n_sigma = {bin" ++ concat (map (fun p => L ", " ++ fst p) s)) :: map sigma_line bins ++ [L "}"]] ++ map measure_text s.
Lemma measure_entry_text p : trials (snd p) <> [] -> entry_text (measure_entry p) = join [nl] (measure_text p).
Proof.
  intros NE. destruct p as [m r]. cbn [fst snd] in *. unfold measure_text. cbn [fst snd].
  set (rows := map (trial_text r) (seq 0 (Z.to_nat (n_trials r)))).
  assert (J : join [nl] ([m ++ L " = {"; L "n_trials = " ++ int_str (n_trials r); L "trials  = {index, " ++ join (L ", ") (map fst (trials r))] ++ rows ++ [L "}"; L "}"]) =
    (m ++ L " = {") ++ [nl] ++ (L "n_trials = " ++ int_str (n_trials r)) ++ [nl] ++ ((L "trials  = {index, " ++ join (L ", ") (map fst (trials r))) ++ [nl] ++ concat (map (fun x => x ++ [nl]) rows) ++ L "}") ++ [nl] ++ L "}").
  { change ([m ++ L " = {"; L "n_trials = " ++ int_str (n_trials r); L "trials  = {index, " ++ join (L ", ") (map fst (trials r))] ++ rows ++ [L "}"; L "}"])
      with ([m ++ L " = {"] ++ [L "n_trials = " ++ int_str (n_trials r)] ++ ((L "trials  = {index, " ++ join (L ", ") (map fst (trials r))) :: rows ++ [L "}"; L "}"])).
    do 2 (rewrite join_app; [|discriminate|cbn [app]; discriminate]). rewrite !join_one.
    replace ((L "trials  = {index, " ++ join (L ", ") (map fst (trials r))) :: rows ++ [L "}"; L "}"]) with (((L "trials  = {index, " ++ join (L ", ") (map fst (trials r))) :: rows ++ [L "}"]) ++ [L "}"]) by (cbn [app]; now rewrite <- app_assoc).
    rewrite join_app; [|discriminate|discriminate]. rewrite join_rows, join_one. rewrite <- !app_assoc. reflexivity. }
  rewrite J. unfold measure_entry. cbn [fst snd]. unfold line_entry, measure_body. cbn [entry_text value_text map concat app].
  assert (T : concat (map (fun x : list token * str => snd x ++ [nl]) (trials_rows r)) = concat (map (fun x => x ++ [nl]) rows)) by (unfold rows, trials_rows; rewrite !map_map; reflexivity).
  match goal with |- context [concat (map ?f (trials_rows r))] => change (concat (map f (trials_rows r))) with (concat (map (fun x : list token * str => snd x ++ [nl]) (trials_rows r))) end.
  unfold line_entry. cbn [entry_text value_text]. rewrite T. rewrite tags_text, join_comma_blank by (now destruct (trials r)). rewrite !app_nil_r, <- !app_assoc. cbn [L list_ascii_of_string app]. rewrite <- !app_assoc. reflexivity.
Qed.
Lemma sigma_entry_text : entry_text sigma_entry = join [nl] ((L "n_sigma = {bin" ++ concat (map (fun p => L ", " ++ fst p) s)) :: map sigma_line bins ++ [L "}"]).
Proof.
  rewrite join_rows. unfold sigma_entry, line_entry. cbn [entry_text value_text]. rewrite tags_text, !map_map. cbn [snd]. rewrite !app_nil_r, <- !app_assoc. cbn [L list_ascii_of_string app]. reflexivity.
Qed.
Lemma records_ok : Forall (fun p => record_ok (snd p)) s.
Proof. destruct OK as [_ F]. eapply Forall_impl; [|exact F]. intros p [_ H]. exact H. Qed.
Lemma ra_text : join [nl] (concat ra_groups) = document ra_doc [].
Proof.
  rewrite join_concat.
  - unfold document. rewrite app_nil_r. f_equal. unfold ra_groups, ra_doc. rewrite !map_app, !map_map. f_equal.
    + cbn [map]. rewrite sigma_entry_text, !join_one. f_equal; [|f_equal].
      * unfold line_entry. cbn [entry_text value_text L list_ascii_of_string app]. now rewrite ?app_nil_r.
      * unfold line_entry. cbn [entry_text value_text L list_ascii_of_string app]. now rewrite ?app_nil_r.
    + apply map_ext_in. intros p I. symmetry. apply measure_entry_text. apply (proj1 (Forall_forall _ _) records_ok) in I. now destruct I as (_ & NE & _).
  - unfold ra_groups. apply Forall_app. split; [repeat constructor; discriminate|]. rewrite Forall_map. apply Forall_forall. intros p _. discriminate.
Qed.

(** ** The lines are read back *)
Definition line_good (l : str) : Prop :=
  one_line l /\ strip_comment (S (length l)) l = l /\ starts_with (L "#") (lstrip is_space l) = false.
Lemma clean_good l : clean l -> starts_with (L "#") (lstrip is_space l) = false -> line_good l.
Proof. intros C H. split; [now apply clean_one_line|]. split; [now apply clean_strip|exact H]. Qed.
Lemma measure_name p : In p s -> fst p = L "m2cnd" \/ fst p = L "sdaa".
Proof. intros I. destruct OK as [_ F]. now apply (proj1 (Forall_forall _ _) F) in I. Qed.
Lemma cell_clean w : cell_word w -> clean w.
Proof. intros [_ F]. eapply Forall_impl; [|exact F]. intros c K. apply cell_char_facts in K. destruct K as (_ & A & B). split; [exact A|]. intros K. apply B. cbn in *. tauto. Qed.
Lemma clean_concat {A} (f : A -> str) l : Forall (fun x => clean (f x)) l -> clean (concat (map f l)).
Proof. induction 1; [constructor|]. cbn [map concat]. now apply clean_app. Qed.
Lemma clean_row_word w : row_word w -> clean w.
Proof. intros [_ F]. eapply Forall_impl; [|exact F]. intros c K. apply row_char_facts in K. destruct K as (_ & A & B & _). split; [exact A|]. intros K. apply B. cbn in *. tauto. Qed.
Lemma sigma_good b : bin_name b -> row_ok (words_tokens (([], b) :: sigma_words b (sigma_cells b)), sigma_line b) /\ clean (sigma_line b) /\ starts_with (L "#") (lstrip is_space (sigma_line b)) = false.
Proof.
  intros B. unfold words_tokens, sigma_line. apply cells_row.
  - apply sigma_words_ok; [now apply bin_cell|]. unfold sigma_cells. rewrite Forall_map. apply Forall_forall. intros p _. destruct (has_bin _ _); [apply sigma_cell|]. split; [discriminate|]. constructor; [reflexivity|constructor].
  - destruct (sigma_cells b); [apply pad_blanks|constructor].
Qed.
Lemma names_clean : Forall (fun p => clean (L ", " ++ fst p)) s.
Proof. apply Forall_forall. intros [m r] I. destruct (measure_name _ I) as [E|E]; cbn [fst] in *; subst m; apply clean_check; reflexivity. Qed.
Lemma join_clean sep l : clean sep -> Forall clean l -> clean (join sep l).
Proof.
  intros CS F. induction F as [|x l Hx F IH]; [constructor|]. destruct l as [|y l]; [exact Hx|].
  change (join sep (x :: y :: l)) with (x ++ sep ++ join sep (y :: l)). rewrite !clean_app. auto.
Qed.
Lemma measure_lines_good p : In p s -> Forall line_good (measure_text p).
Proof.
  intros I. pose proof (proj1 (Forall_forall _ _) records_ok _ I) as (_ & NE & _ & F). unfold measure_text. apply Forall_app. split; [|apply Forall_app; split].
  - constructor; [|constructor; [|constructor; [|constructor]]].
    + destruct p as [m r]. destruct (measure_name _ I) as [E|E]; cbn [fst] in *; subst m; apply clean_good; try reflexivity; apply clean_check; reflexivity.
    + apply clean_good; [|reflexivity]. apply clean_app. split; [apply clean_check; reflexivity|apply cell_clean, int_cell].
    + apply clean_good; [|reflexivity]. apply clean_app. split; [apply clean_check; reflexivity|]. apply join_clean; [apply clean_check; reflexivity|].
      rewrite Forall_map. eapply Forall_impl; [|exact F]. intros q [B _]. now apply cell_clean, bin_cell.
  - rewrite Forall_map. apply Forall_forall. intros t _. destruct (trial_good (snd p) t) as (_ & A & B). now apply clean_good.
  - repeat constructor; apply clean_check; reflexivity.
Qed.
Lemma groups_good : Forall line_good (concat ra_groups).
Proof.
  unfold ra_groups. rewrite concat_app. apply Forall_app. split.
  - cbn [concat app]. constructor; [|constructor; [|constructor]].
    + apply clean_good; [|reflexivity]. apply clean_app. split; [apply clean_check; reflexivity|now apply clean_row_word].
    + destruct SW as [O N]. split; [|split; [|reflexivity]].
      * apply Forall_app. split; [repeat constructor|]. constructor; [reflexivity|]. apply Forall_app. split; [exact O|repeat constructor].
      * pose proof (strip_comment_segments [Plain (L "source = "); InQuotes dq source] (S (length (L "source = " ++ [dq] ++ source ++ [dq]))) []) as Q.
        cbn [map segment_text concat] in Q. rewrite !app_nil_r in Q. apply Q; [|now left|apply le_n].
        constructor; [|constructor; [|constructor]]; cbn [segment_ok]; [repeat split; cbn; intuition discriminate|]. auto.
    + apply clean_good; [|reflexivity]. apply clean_app. split; [apply clean_check; reflexivity|]. apply clean_concat, names_clean.
    + rewrite app_nil_r. apply Forall_app. split; [|repeat constructor; apply clean_check; reflexivity]. rewrite Forall_map. eapply Forall_impl; [|exact BW]. intros b B. apply sigma_good in B as (_ & C & H). now apply clean_good.
  - rewrite Forall_concat, Forall_map. apply Forall_forall. intros p I. now apply measure_lines_good.
Qed.

(** ** What is written, with the comment lines *)
Definition ra_written : list str :=
  [L "# Randomness analysis"; L "version = " ++ version; L "source = " ++ [dq] ++ source ++ [dq]; L "#";
   L "n_sigma = {bin" ++ concat (map (fun p => L ", " ++ fst p) s)] ++ map (sigma_row stat s) bins ++ [L "}"] ++ concat (map (fun p => L "#" :: measure_text p) s).
Definition commented (e : str) : bool := starts_with (L "#") (lstrip is_space e).
Lemma filter_good l : Forall line_good l -> filter (fun e => negb (commented e)) l = l.
Proof. induction 1 as [|x l (_ & _ & H) F IH]; [reflexivity|]. cbn [filter]. unfold commented at 1. rewrite H. cbn [negb]. now rewrite IH. Qed.
Lemma written_filter : filter (fun e => negb (commented e)) ra_written = concat ra_groups.
Proof.
  pose proof groups_good as G. unfold ra_groups in *. cbn [concat app] in G |- *. inversion G as [|? ? G1 G']; subst. inversion G' as [|? ? G2 G'']; subst. inversion G'' as [|? ? G3 G4]; subst. clear G G' G''.
  unfold ra_written. cbn [app]. rewrite <- app_assoc in G4 |- *. cbn [app] in G4 |- *. apply Forall_app in G4 as [GA GB]. apply Forall_cons_iff in GB as [GC GD].
  assert (T : forall c l, commented c = true -> filter (fun e => negb (commented e)) (c :: l) = filter (fun e => negb (commented e)) l) by (intros c l H; cbn [filter]; now rewrite H).
  assert (K : forall c l, line_good c -> filter (fun e => negb (commented e)) (c :: l) = c :: filter (fun e => negb (commented e)) l) by (intros c l (_ & _ & H); cbn [filter]; unfold commented at 1; now rewrite H).
  rewrite T by reflexivity. rewrite K by exact G1. rewrite K by exact G2. rewrite T by reflexivity. rewrite K by exact G3. do 3 f_equal.
  rewrite filter_app. f_equal.
  - rewrite (map_ext _ _ sigma_row_text). now apply filter_good.
  - rewrite K by exact GC. f_equal. clear - GD T. induction s as [|p q IH]; [reflexivity|]. cbn [map concat] in *. rewrite <- app_comm_cons, T by reflexivity. apply Forall_app in GD as [A B].
    rewrite filter_app, IH by exact B. f_equal. now apply filter_good.
Qed.
Lemma written_one_line : Forall one_line ra_written.
Proof.
  apply Forall_forall. intros l I. destruct (commented l) eqn:C.
  - unfold ra_written in I. assert (Q : In l [L "# Randomness analysis"; L "#"] \/ In l (concat ra_groups)).
    { apply in_app_or in I as [I|I]; [cbn [In] in I|].
      - destruct I as [<-|[<-|[<-|[<-|[<-|[]]]]]]; [left; now left|right; apply in_concat; exists [L "version = " ++ version]; split; now left|right; apply in_concat; eexists; split; [right; now left|now left]|left; right; now left|right; apply in_concat; eexists; split; [right; right; now left|now left]].
      - apply in_app_or in I as [I|I].
        + right. rewrite (map_ext _ _ sigma_row_text) in I. apply in_concat. eexists. split; [right; right; now left|]. right. apply in_or_app. now left.
        + cbn [app] in I. destruct I as [<-|I]; [right; apply in_concat; eexists; split; [right; right; now left|]; right; apply in_or_app; right; now left|].
          apply in_concat in I as (g & Ig & Il). apply in_map_iff in Ig as (p & <- & Ip). destruct Il as [<-|Il]; [left; right; now left|]. right. apply in_concat. exists (measure_text p). split; [|exact Il].
          unfold ra_groups. apply in_or_app. right. now apply in_map. }
    destruct Q as [[<-|[<-|[]]]|Q]; [repeat constructor..|]. apply (proj1 (Forall_forall _ _) groups_good) in Q. exact (proj1 Q).
  - assert (Q : In l (concat ra_groups)) by (rewrite <- written_filter; apply filter_In; now rewrite C). apply (proj1 (Forall_forall _ _) groups_good) in Q. exact (proj1 Q).
Qed.
Lemma written_read fs name : read_textfile (write_textfile fs name ra_written false) name false true true = Ok (concat ra_groups).
Proof.
  unfold read_textfile, write_textfile. rewrite file_get_set. cbn match. f_equal. rewrite read_text_join by (exact written_one_line || discriminate). cbv zeta.
  match goal with |- map _ ?l = _ => change l with (filter (fun e => negb (commented e)) ra_written) end. rewrite written_filter.
  rewrite <- (map_id (concat ra_groups)) at 2. apply map_ext_in. intros e I. apply (proj1 (Forall_forall _ _) groups_good) in I. exact (proj1 (proj2 I)).
Qed.
Lemma no_array_repeats l : Forall (fun e => ~ array (value_of e)) l -> repeats_ok l.
Proof. intros F l1 e l2 -> A. exfalso. apply Forall_app in F as [_ F]. inversion F; subst. contradiction. Qed.
Lemma cell_flat deep w : cell_word w -> flat_ok deep (Word w).
Proof.
  intros [N W]. assert (F : forall c, In c w -> is_space c = false /\ is_break c = false /\ ~ In c (dq :: sq :: L ";#={}*[(")).
  { intros c K. apply cell_char_facts. now apply (proj1 (Forall_forall _ _) W). }
  assert (HD : In (hd " "%char w) w) by (destruct w; [congruence|now left]).
  assert (LS : In (last w " "%char) w). { destruct (exists_last N) as (u & x & E). rewrite E at 1. rewrite last_last, E. apply in_or_app. right. now left. }
  cbn [flat_ok]. split; [intros K; exfalso; apply F in K as (_ & K & _); vm_compute in K; discriminate K|]. split; [now apply F|]. split; [now apply F|].
  split; [intros K; apply F in HD as (_ & _ & HD); apply HD; cbn in *; tauto|]. split.
  - intros q u Q E. assert (K : In q w) by (rewrite E; now left). apply F in K as (_ & _ & K). apply K. destruct Q; subst q; cbn; tauto.
  - intros _. apply Forall_forall. intros c K Q. apply F in K as (_ & _ & K). apply K. cbn in *. tauto.
Qed.
Lemma bin_not w c : In c w -> cell_char c = false -> ~ bin_name w.
Proof. intros I H B. apply bin_cell in B as [_ B]. apply (proj1 (Forall_forall _ _) B) in I. congruence. Qed.
Lemma measure_key p : In p s -> name_word (fst p).
Proof. intros I. destruct (measure_name p I) as [E|E]; rewrite E; (split; [discriminate|repeat constructor]). Qed.
Lemma body_ok r : record_ok r -> Forall (fun e => frame_ok e /\ flat_ok true (value_of e)) (measure_body r).
Proof.
  intros (P & NE & ND & F). unfold measure_body. constructor; [|constructor; [|constructor]].
  - split; [apply line_frame; split; [discriminate|repeat constructor]|]. apply cell_flat, int_cell.
  - split.
    + cbn [frame_ok]. split; [constructor|]. split; [split; [discriminate|repeat (constructor; [now left|]); constructor]|]. split; [repeat constructor|]. split; [repeat constructor|]. split; [cbn; intuition discriminate|constructor].
    + cbn [value_of flat_ok]. split; [discriminate|]. split.
      { rewrite tags_words. constructor; [|exact ND]. intros I. apply in_map_iff in I as (q & E & I). apply (proj1 (Forall_forall _ _) F) in I as [B _]. revert B. rewrite E. apply (bin_not _ "d"%char); [cbn; auto|reflexivity]. }
      split.
      { unfold tags_of. constructor; [apply name_item; [constructor|split; [discriminate|repeat constructor]]|]. rewrite !Forall_map. eapply Forall_impl; [|exact F]. intros q [B _]. apply bin_item; [repeat constructor|exact B]. }
      rewrite tags_text. split; [reflexivity|]. split; [reflexivity|]. split; [|constructor].
      unfold trials_rows. rewrite Forall_map. apply Forall_forall. intros t _. apply trial_good.
Qed.
Lemma doc_keys : NoDup (map key_of ra_doc).
Proof.
  unfold ra_doc. rewrite map_app, map_map. cbn [map app]. assert (E : map (fun p => key_of (measure_entry p)) s = map fst s) by (apply map_ext; intros p; reflexivity). rewrite E.
  assert (Q : forall k, In k (map fst s) -> k = L "m2cnd" \/ k = L "sdaa") by (intros k I; apply in_map_iff in I as (p & <- & I); now apply measure_name).
  destruct OK as [ND _]. constructor; [|constructor; [|constructor; [|exact ND]]].
  - intros [I|[I|I]]; [discriminate..|]. apply Q in I as [I|I]; discriminate I.
  - intros [I|I]; [discriminate|]. apply Q in I as [I|I]; discriminate I.
  - intros I. apply Q in I as [I|I]; discriminate I.
Qed.
Lemma ra_doc_ok : Forall entry_ok ra_doc /\ repeats_ok ra_doc.
Proof.
  split.
  - unfold ra_doc. apply Forall_app. split.
    + constructor; [|constructor; [|constructor; [|constructor]]].
      * split; [apply line_frame; split; [discriminate|repeat constructor]|]. now apply word_version.
      * split; [apply line_frame; split; [discriminate|repeat constructor]|]. cbn [value_of line_entry flat_ok]. split; [now left|]. split; [|discriminate].
        intros I. destruct SW as [O _]. apply (proj1 (Forall_forall _ _) O) in I. vm_compute in I. discriminate I.
      * split; [apply line_frame; split; [discriminate|repeat constructor]|]. unfold sigma_entry. cbn [value_of line_entry flat_ok]. split; [discriminate|]. split.
        { rewrite tags_words. destruct OK as [ND _]. constructor; [|exact ND]. intros I. apply in_map_iff in I as (p & E & I). apply measure_name in I as [I|I]; rewrite E in I; discriminate I. }
        split. { unfold tags_of. constructor; [apply name_item; [constructor|split; [discriminate|repeat constructor]]|]. rewrite !Forall_map. apply Forall_forall. intros p I. apply name_item; [repeat constructor|now apply measure_key]. }
        rewrite tags_text. split; [reflexivity|]. split; [discriminate|]. split; [|constructor]. rewrite Forall_map. eapply Forall_impl; [|exact BW]. intros b B. now apply sigma_good.
    + rewrite Forall_map. apply Forall_forall. intros p I. split; [apply line_frame; now apply measure_key|]. unfold measure_entry. cbn [value_of line_entry]. split; [discriminate|]. split; [repeat constructor|]. split; [constructor|]. split; [discriminate|].
      split; [apply no_array_repeats; repeat constructor; intros (a & b & l & E); discriminate E|]. apply body_ok. exact (proj1 (Forall_forall _ _) records_ok _ I).
  - apply no_array_repeats. unfold ra_doc. apply Forall_app. split; [repeat constructor; intros (a & b & l & E); discriminate E|]. rewrite Forall_map. apply Forall_forall. intros p _ (a & b & l & E). discriminate E.
Qed.
Lemma ra_file fs name : structure_file (write_textfile fs name ra_written false) name ra_doc.
Proof.
  exists (concat ra_groups), []. split; [apply written_read|]. split; [exact ra_text|]. split; [discriminate|]. destruct ra_doc_ok as [A B]. split; [exact A|]. split; [exact B|]. now left.
Qed.

(** ** What is read back *)
Definition read_back (r : record) : record := mkRecord (n_trials r) (map (fun q => (fst q, map (read_g 7) (snd q))) (trials r)).
Lemma decimal_g k x : decimal (fmt_g k x) (read_g k x).
Proof. destruct (fmt_g_decimal k x) as (y & S & D). pose proof (py_float_decimal _ _ D) as E. unfold read_g. now rewrite E. Qed.
Lemma trial_cell r t j q : nth_error (trials r) j = Some q -> cell (S j) (words_tokens (trial_words r t), trial_text r t) = fmt_g 7 (nth t (snd q) 0).
Proof.
  intros E. unfold cell, words_tokens, trial_words. cbn [fst map token_word snd nth]. rewrite map_map. cbn [token_word]. rewrite trail_words. unfold trial_cells.
  apply nth_error_nth. now rewrite nth_error_map, E.
Qed.
Lemma list_seq {A} (d : A) l : l = map (fun t => nth t l d) (seq 0 (length l)).
Proof. induction l as [|x l IH]; [reflexivity|]. cbn [length seq map nth]. f_equal. rewrite <- seq_shift, map_map. exact IH. Qed.
Lemma table_names tags rows : map fst (table_dict tags rows) = tags.
Proof. unfold table_dict. rewrite map_map. cbn [fst]. generalize 0%nat. induction tags as [|t tags IH]; intros n; [reflexivity|]. cbn [length seq combine map snd]. now rewrite IH. Qed.
Lemma measure_read d ts p : holds d ra_doc ts -> Forall2 means ra_doc ts -> In p s -> read_measure d (fst p) = Ok [(fst p, read_back (snd p))].
Proof.
  intros H F I. pose proof (proj1 (Forall_forall _ _) records_ok _ I) as RO. destruct p as [m r]. cbn [fst snd] in *.
  assert (SO : sole ra_doc (measure_entry (m, r))).
  { assert (K : In (measure_entry (m, r)) ra_doc) by (apply in_or_app; right; now apply in_map). apply in_split in K as (l1 & l2 & E). exists l1, l2. split; [exact E|].
    pose proof doc_keys as ND. rewrite E, map_app in ND. cbn [map] in ND. apply NoDup_remove_2 in ND. apply Forall_forall. intros e' K Q. apply ND. rewrite <- Q, <- map_app. now apply in_map. }
  destruct (lookup_sole _ _ _ _ H F SO) as (t & Lk & M). cbn [key_of measure_entry line_entry fst app] in Lk. unfold read_measure. rewrite Lk.
  unfold means, measure_entry in M. cbn [value_of line_entry snd] in M. destruct M as (d' & -> & H').
  assert (F' : Forall2 means (measure_body r) (map (fun e => flat_meaning (value_of e)) (measure_body r))) by (unfold measure_body; repeat constructor).
  destruct RO as (P & NE & ND & FB).
  assert (L1 : lookup d' (L "n_trials") = Some (TStr (int_str (n_trials r)))).
  { apply (lookup_text _ _ _ _ _ H' F'). eexists. split; [exists []; eexists; split; [reflexivity|constructor; [discriminate|constructor]]|]. split; [reflexivity|left; reflexivity]. }
  assert (L2 : lookup d' (L "trials") = Some (TDict (table_dict (L "index" :: map fst (trials r)) (trials_rows r)))).
  { apply (lookup_table _ _ _ _ _ _ H' F'). eexists. eexists. eexists. split; [unfold measure_body; eexists [_]; exists []; split; [reflexivity|constructor; [discriminate|constructor]]|]. split; [reflexivity|]. split; [reflexivity|apply tags_words]. }
  unfold sub, dict_get. rewrite L1. cbn [bind]. rewrite int_of_str by exact P. cbn [bind]. rewrite L2. cbn [bind].
  rewrite table_names. cbn [tl]. assert (NI : NoDup (L "index" :: map fst (trials r))).
  { constructor; [|exact ND]. intros J. apply in_map_iff in J as (q & E & J). apply (proj1 (Forall_forall _ _) FB) in J as [B _]. revert B. rewrite E. apply (bin_not _ "d"%char); [cbn; auto|reflexivity]. }
  rewrite mapM_map. rewrite (mapM_ok _ (fun q => (fst q, map (read_g 7) (snd q)))); [reflexivity|].
  intros q J. pose proof (proj1 (Forall_forall _ _) FB _ J) as [_ Lq]. apply In_nth_error in J as [j E].
  rewrite (column_numbers _ _ _ (map (read_g 7) (snd q)) NI); [reflexivity|]. exists (S j). split; [cbn [nth_error]; now rewrite nth_error_map, E|].
  rewrite (list_seq 0 (snd q)) at 1. rewrite map_map. replace (length (snd q)) with (Z.to_nat (n_trials r)) by lia. unfold trials_rows.
  induction (seq 0 (Z.to_nat (n_trials r))) as [|k l IH]; [constructor|]. cbn [map]. constructor; [|exact IH]. rewrite (trial_cell r k j q E). apply decimal_g.
Qed.
Lemma measure_absent d ts m : holds d ra_doc ts -> m = L "m2cnd" \/ m = L "sdaa" -> stored s m = None -> read_measure d m = Ok [].
Proof.
  intros H M E. unfold read_measure. rewrite (lookup_absent d ra_doc ts m H); [reflexivity|]. unfold ra_doc. apply Forall_app. split.
  - repeat constructor; destruct M; subst m; discriminate.
  - rewrite Forall_map. apply Forall_forall. intros p I Q. cbn [measure_entry line_entry key_of app] in Q. clear - E I Q. induction s as [|[k r] l IH]; [destruct I|]. cbn [stored] in E. destruct (seqb_spec k m) as [->|NE]; [discriminate|].
    destruct I as [<-|I]; [cbn [fst] in Q; congruence|now apply IH].
Qed.
Lemma stored_In m r : stored s m = Some r -> In (m, r) s.
Proof. clear. induction s as [|[k r'] l IH]; [discriminate|]. cbn [stored]. destruct (seqb_spec k m) as [->|NE]; [intros E; injection E as ->; now left|]. intros E. right. now apply IH. Qed.
Lemma measure_result d ts m : holds d ra_doc ts -> Forall2 means ra_doc ts -> m = L "m2cnd" \/ m = L "sdaa" ->
  read_measure d m = Ok (match stored s m with Some r => [(m, read_back r)] | None => [] end).
Proof.
  intros H F M. destruct (stored s m) as [r|] eqn:E; [|now apply (measure_absent d ts)]. apply stored_In in E. exact (measure_read d ts (m, r) H F E).
Qed.
Definition back_store : store :=
  match stored s (L "m2cnd") with Some r => [(L "m2cnd", read_back r)] | None => [] end ++
  match stored s (L "sdaa") with Some r => [(L "sdaa", read_back r)] | None => [] end.
Lemma read_written fs name l1 l2 : Forall (fun n => file_get (write_textfile fs name ra_written false) n = None) l1 ->
  read_ra (write_textfile fs name ra_written false) (l1 ++ name :: l2) = Ok back_store.
Proof.
  intros A. unfold read_ra. assert (Q : find (fun n => if file_get (write_textfile fs name ra_written false) n then true else false) (l1 ++ name :: l2) = Some name).
  { clear - A. induction A as [|x l1 Hx A IH]; cbn [app find].
    - unfold write_textfile. now rewrite file_get_set.
    - now rewrite Hx. }
  rewrite Q. destruct (structure_lookup _ _ _ (ra_file fs name)) as (d & ts & E & M & H). unfold structure in E.
  destruct (read_textstructure _ name) as [[c|]|]; cbn [bind] in E |- *; [|discriminate..]. injection E as ->.
  rewrite !(measure_result d ts) by (auto; fail). cbn [bind]. reflexivity.
Qed.
End Doc.
Lemma write_ok version source stat s : store_ok s ->
  exists bins, Forall bin_name bins /\ ra_lines version source stat s = Ok (ra_written version source stat s bins).
Proof.
  intros OK. destruct (all_bins_ok s OK) as (bins & E & B). exists bins. split; [exact B|]. unfold ra_lines. rewrite E. cbn [bind].
  rewrite (mapM_ok _ (fun p => L "#" :: measure_text p)); [reflexivity|]. intros p I. apply measure_lines_ok. destruct OK as [_ F]. now apply (proj1 (Forall_forall _ _) F) in I.
Qed.
