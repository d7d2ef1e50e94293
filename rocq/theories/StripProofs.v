(** Proofs about the strip of the randomness analysis. *)
From Coq Require Import String Ascii List ZArith Reals Bool Lia Lra Permutation Sorted.
From Verif Require Import Base NumModel NumLemmas StrModel StrSpec StrProofs StrProofs2 CliModel CliProps2 FmtModel FmtSpec FmtProofs
  TsModel TsSpec TsProofs5 IoModel IoSpec IoProofs IoProofs2 IoProofs3 SccModel SccProofs SccProofs2 SccProofs3 RaModel RaProofs3 RaFileModel RaFileSpec RaFileProofs RaFileProps
  BinModel SetModel MainModel StripModel StripSpec.
Import ListNotations.
Local Open Scope R_scope.

(** ** The bins *)
Lemma label_value z : (Z.abs z < 200)%Z -> py_float (bin_label z) = Ok (IZR z / 2).
Proof.
  intros H. unfold bin_label. destruct (read_g_spec 3 (IZR z / 2)) as [E S]. rewrite E. f_equal.
  apply (significant_exact 3 (IZR z / 2) _ (5 * z) (-1) ltac:(lia) S); [rewrite mult_IZR; change (powerRZ 10 (-1)) with (/ 10 ^ 1); field|change (10 ^ Z.of_nat 3)%Z with 1000%Z; lia].
Qed.
Lemma label_inj a b : (Z.abs a < 200)%Z -> (Z.abs b < 200)%Z -> bin_label a = bin_label b -> a = b.
Proof.
  intros A B E. pose proof (label_value a A) as VA. rewrite E, (label_value b B) in VA. apply (f_equal (fun r => match r with Ok y => y | Err _ => 0 end)) in VA. apply eq_IZR. lra.
Qed.
Lemma labels_list (l : list str) : Forall (fun b => exists z, (Z.abs z < 200)%Z /\ b = bin_label z) l -> exists zs, l = map bin_label zs /\ Forall (fun z => (Z.abs z < 200)%Z) zs.
Proof.
  induction 1 as [|b l (z & Z1 & ->) F (zs & -> & ZS)]; [exists []; split; [reflexivity|constructor]|]. exists (z :: zs). split; [reflexivity|now constructor].
Qed.
Lemma bins_sorted s : root2_bins s -> exists zs, all_bins s = Ok (map bin_label zs) /\ StronglySorted Z.lt zs /\ Forall (fun z => (Z.abs z < 200)%Z) zs /\
  forall z, (Z.abs z < 200)%Z -> In z zs <-> exists p q, In p s /\ In q (trials (snd p)) /\ fst q = bin_label z.
Proof.
  intros RB. unfold all_bins. set (l := nodup _ _).
  assert (IL : forall b, In b l <-> exists p q, In p s /\ In q (trials (snd p)) /\ fst q = b).
  { intros b. unfold l. rewrite nodup_In, in_flat_map. split.
    - intros (p & Ip & I). apply in_map_iff in I as (q & <- & Iq). exists p, q. auto.
    - intros (p & q & Ip & Iq & <-). exists p. split; [exact Ip|]. now apply in_map. }
  assert (FL : Forall (fun b => exists z, (Z.abs z < 200)%Z /\ b = bin_label z) l).
  { apply Forall_forall. intros b I. apply IL in I as (p & q & Ip & Iq & <-). apply (proj1 (Forall_forall _ _) RB) in Ip. now apply (proj1 (Forall_forall _ _) Ip) in Iq. }
  assert (ND : NoDup l) by apply NoDup_nodup. clearbody l. destruct (labels_list l FL) as (zs0 & -> & B0). clear FL.
  assert (NZ : NoDup zs0) by (apply (NoDup_map_inv _ _ ND)).
  rewrite mapM_map. rewrite (mapM_ok _ (fun z => (IZR z / 2, bin_label z))) by (intros z I; rewrite label_value; [reflexivity|]; exact (proj1 (Forall_forall _ _) B0 z I)). cbn [bind].
  rewrite (sort_map (fun z => (IZR z / 2, bin_label z)) (fun p q => Rleb (fst p) (fst q))), map_map. cbn [fst snd].
  set (zs := sort (fun a b => Rleb (IZR a / 2) (IZR b / 2)) zs0). assert (PM : Permutation zs0 zs) by apply sort_perm.
  exists zs. split; [reflexivity|]. split; [|split].
  - assert (SS : StronglySorted (fun a b => Rleb (IZR a / 2) (IZR b / 2) = true) zs).
    { apply sort_sorted; intros *; destruct (Rleb_spec (IZR x / 2) (IZR y / 2)); try destruct (Rleb_spec (IZR y / 2) (IZR x / 2)); try destruct (Rleb_spec (IZR y / 2) (IZR z / 2)); try destruct (Rleb_spec (IZR x / 2) (IZR z / 2)); auto; try lra; discriminate. }
    assert (NS : NoDup zs) by (now apply (Permutation_NoDup PM)). clear - SS NS. induction SS as [|z zs SS IH F]; [constructor|]. inversion NS; subst. constructor; [now apply IH|].
    apply Forall_forall. intros y I. apply (proj1 (Forall_forall _ _) F) in I as Q. destruct (Rleb_spec (IZR z / 2) (IZR y / 2)) as [G|]; [|discriminate]. assert (IZR z <= IZR y) by lra. apply le_IZR in H. destruct (Z.eq_dec z y); [subst; contradiction|lia].
  - now apply (Permutation_Forall PM).
  - intros z Hz. rewrite <- IL, in_map_iff. split.
    + intros I. exists z. split; [reflexivity|]. now apply (Permutation_in _ (Permutation_sym PM)).
    + intros (z' & E & I). apply label_inj in E; [subst; now apply (Permutation_in _ PM)|now apply (proj1 (Forall_forall _ _) B0)|exact Hz].
Qed.

(** ** What is written *)
Lemma write_bins version source stat s bins : store_ok s -> all_bins s = Ok bins -> ra_lines version source stat s = Ok (ra_written version source stat s bins).
Proof.
  intros OK E. unfold ra_lines. rewrite E. cbn [bind].
  rewrite (mapM_ok _ (fun p => L "#" :: measure_text p)); [reflexivity|]. intros p I. apply measure_lines_ok. destruct OK as [_ F]. now apply (proj1 (Forall_forall _ _) F) in I.
Qed.
Lemma label_name z : bin_name (bin_label z). Proof. eexists. reflexivity. Qed.
Lemma labels_names zs : Forall bin_name (map bin_label zs).
Proof. rewrite Forall_map. apply Forall_forall. intros z _. apply label_name. Qed.

(** ** The table and the numbers of trials are read back *)
Definition sigma_table (stat : str -> str -> sigma) (s : store) (bins : list str) : list (str * tsval) :=
  table_dict (L "bin" :: map fst s) (map (fun b => (words_tokens (([], b) :: sigma_words b (sigma_cells stat s b)), sigma_line stat s b)) bins).
Lemma doc_sole version source stat s bins e : source_ok source -> store_ok s -> In e (ra_doc version source stat s bins) -> sole (ra_doc version source stat s bins) e.
Proof.
  intros W OK K. apply in_split in K as (l1 & l2 & E). exists l1, l2. split; [exact E|].
  pose proof (doc_keys version source stat s bins W OK) as ND. rewrite E, map_app in ND. cbn [map] in ND. apply NoDup_remove_2 in ND. apply Forall_forall. intros e' K Q. apply ND. rewrite <- Q, <- map_app. now apply in_map.
Qed.
Lemma table_read version source stat s bins d ts : source_ok source -> store_ok s -> holds d (ra_doc version source stat s bins) ts -> Forall2 means (ra_doc version source stat s bins) ts ->
  dict_get d (L "n_sigma") = Ok (TDict (sigma_table stat s bins)).
Proof.
  intros W OK H F. unfold dict_get. rewrite (lookup_table _ _ _ (L "n_sigma") (L "bin" :: map fst s) (map (fun b => (words_tokens (([], b) :: sigma_words b (sigma_cells stat s b)), sigma_line stat s b)) bins) H F); [reflexivity|].
  eexists. eexists. eexists. split; [apply (doc_sole version source stat s bins (sigma_entry stat s bins) W OK); right; right; now left|]. split; [reflexivity|]. split; [reflexivity|apply tags_words].
Qed.
Lemma trials_read version source stat s bins d ts p : source_ok source -> store_ok s -> holds d (ra_doc version source stat s bins) ts -> Forall2 means (ra_doc version source stat s bins) ts -> In p s ->
  (do! v <- dict_get d (fst p); sub v (L "n_trials")) = Ok (TStr (int_str (n_trials (snd p)))).
Proof.
  intros W OK H F I. destruct p as [m r]. cbn [fst snd] in *.
  assert (SO : sole (ra_doc version source stat s bins) (measure_entry (m, r))) by (apply doc_sole; [exact W|exact OK|]; apply in_or_app; right; now apply in_map).
  destruct (lookup_sole _ _ _ _ H F SO) as (t & Lk & M). cbn [key_of measure_entry line_entry fst app] in Lk. unfold dict_get at 1. rewrite Lk. cbn [bind].
  unfold means, measure_entry in M. cbn [value_of line_entry snd] in M. destruct M as (d' & -> & H').
  assert (F' : Forall2 means (measure_body r) (map (fun e => flat_meaning (value_of e)) (measure_body r))) by (unfold measure_body; repeat constructor).
  unfold sub, dict_get. rewrite (lookup_text _ _ _ (L "n_trials") (int_str (n_trials r)) H' F'); [reflexivity|].
  eexists. split; [exists []; eexists; split; [reflexivity|constructor; [discriminate|constructor]]|]. split; [reflexivity|left; reflexivity].
Qed.
Definition names_sorted (s : store) : list str := sort str_leb (map fst s).
Lemma names_not_bin s : store_ok s -> ~ In (L "bin") (map fst s).
Proof. intros [_ F] I. apply in_map_iff in I as (p & E & I). apply (proj1 (Forall_forall _ _) F) in I as [[K|K] _]; rewrite E in K; discriminate K. Qed.
Lemma table_measures stat s bins : store_ok s -> measures_of (sigma_table stat s bins) = names_sorted s.
Proof.
  intros OK. unfold measures_of, sigma_table, names_sorted. rewrite table_names. cbn [filter]. change (negb (seqb (L "bin") (L "bin"))) with false. cbv iota. f_equal.
  pose proof (names_not_bin s OK) as N. induction (map fst s) as [|k l IH]; [reflexivity|]. cbn [filter]. destruct (seqb_spec k (L "bin")) as [->|_]; [exfalso; apply N; now left|]. cbn [negb]. rewrite IH; [reflexivity|]. intros I. apply N. now right.
Qed.
Lemma sorted_names_in s m : In m (names_sorted s) <-> In m (map fst s).
Proof. unfold names_sorted. split; apply Permutation_in; [symmetry|]; apply sort_perm. Qed.
Lemma read_table fs name version source stat s bins src locs : store_ok s -> version_ok version -> source_ok source -> Forall bin_name bins ->
  ra_locations src = Ok locs ->
  find (fun n => if file_get (write_textfile fs name (ra_written version source stat s bins) false) n then true else false) locs = Some name ->
  read_ra_file (write_textfile fs name (ra_written version source stat s bins) false) src =
  Ok (Some (sigma_table stat s bins, map (fun m => TStr (match stored s m with Some r => int_str (n_trials r) | None => [] end)) (names_sorted s))).
Proof.
  intros OK V W B EL Q. unfold read_ra_file. rewrite EL. cbn [bind]. rewrite Q.
  destruct (structure_lookup _ _ _ (ra_file version source stat s bins (version_word _ V) W OK B fs name)) as (d & ts & E & M & H). rewrite E. cbn [bind].
  rewrite (table_read version source stat s bins d ts W OK H M). cbn [bind]. rewrite (table_measures stat s bins OK).
  rewrite (mapM_ok _ (fun m => TStr (match stored s m with Some r => int_str (n_trials r) | None => [] end))); [reflexivity|].
  intros m I. apply sorted_names_in, in_map_iff in I as ([k r] & <- & I). cbn [fst]. destruct OK as [ND FO].
  assert (ST : stored s k = Some r).
  { clear - ND I. induction s as [|[k' r'] l IH]; [destruct I|]. cbn [map fst] in ND. inversion ND; subst. cbn [stored]. destruct I as [E|I].
    - injection E as -> ->. destruct (seqb_spec k k); [reflexivity|congruence].
    - destruct (seqb_spec k' k) as [->|]; [exfalso; apply H1; apply in_map_iff; exists (k, r); auto|now apply IH]. }
  rewrite ST. exact (trials_read version source stat s bins d ts (k, r) W (conj ND FO) H M I).
Qed.

(** ** Positions *)
Lemma log10_edge z : log10 (edge z) = IZR z / 2 * log10 2.
Proof. unfold edge, log10, Rpower. rewrite ln_exp. unfold Rdiv. ring. Qed.
Lemma edge_pos z : 0 < edge z. Proof. apply exp_pos. Qed.
Lemma log10_2_pos : 0 < log10 2.
Proof. rewrite <- log10_1. apply log10_lt; lra. Qed.
Lemma log10_centre z : log10 (Rpower 2 (IZR z / 2 + / 4)) = log10 (sqrt (edge z * edge (z + 1))).
Proof.
  replace (Rpower 2 (IZR z / 2 + / 4)) with (sqrt (edge z * edge (z + 1))); [reflexivity|].
  apply sqrt_lem_1; [left; apply Rmult_lt_0_compat; apply edge_pos|left; apply exp_pos|].
  unfold edge. rewrite <- !Rpower_plus. f_equal. rewrite plus_IZR. field.
Qed.
Definition centre (z : Z) : R := log10 (Rpower 2 (IZR z / 2 + / 4)).
Lemma centre_eq z : centre z = (IZR z / 2 + / 4) * log10 2.
Proof. unfold centre, log10, Rpower. rewrite ln_exp. unfold Rdiv. ring. Qed.
Lemma quarter : log10 (Rpower 2 (/ 4)) = / 4 * log10 2.
Proof. unfold log10, Rpower. rewrite ln_exp. unfold Rdiv. ring. Qed.
Lemma centre_lt a b : (a < b)%Z -> centre a < centre b.
Proof. intros H. rewrite !centre_eq. apply IZR_lt in H. apply Rmult_lt_compat_r; [apply log10_2_pos|lra]. Qed.
Lemma sorted_min z zs : StronglySorted Z.lt (z :: zs) -> list_min (map centre (z :: zs)) = Ok (centre z).
Proof.
  intros H. cbn [map list_min]. f_equal. inversion H as [|? ? _ F]; subst. clear H. induction F as [|y l Hy F IH]; [reflexivity|]. cbn [map fold_left].
  rewrite Rmin_left by (left; now apply centre_lt). exact IH.
Qed.
Lemma sorted_max : forall zs z, StronglySorted Z.lt (z :: zs) -> list_max (map centre (z :: zs)) = Ok (centre (last (z :: zs) 0%Z)).
Proof.
  induction zs as [|y l IH]; intros z H; [reflexivity|]. inversion H as [|? ? S F]; subst. inversion F; subst. cbn [map list_max fold_left].
  rewrite Rmax_right by (left; now apply centre_lt). specialize (IH y S). cbn [map list_max] in IH. rewrite IH. f_equal.
Qed.

(** ** Heights *)
Lemma scaling_level y : n_sigma_scaling y = level y.
Proof.
  unfold n_sigma_scaling, level, sgn. destruct (Reqb_spec y 0) as [->|N].
  - destruct (Rlt_dec 0 0); lra.
  - destruct (Rltb_spec 0 y) as [H|H]; destruct (Rlt_dec 0 y) as [G|G]; try lra.
    + rewrite Rabs_pos_eq by lra. replace (6 / 10) with (3 / 5) by lra. lra.
    + destruct (Rltb_spec y 0); destruct (Rlt_dec y 0); try lra. rewrite Rabs_left by lra. replace (6 / 10) with (3 / 5) by lra. lra.
Qed.
Lemma float_not (w : str) x : py_float w = Ok x -> seqb w (L "-") = false /\ seqb w (L "nan") = false /\ seqb w (L "inf") = false /\ seqb w (L "-inf") = false.
Proof.
  intros E. assert (K : forall t e, py_float t = Err e -> seqb w t = false) by (intros t e Q; destruct (seqb_spec w t) as [->|]; [congruence|reflexivity]).
  repeat split; eapply K; vm_compute; reflexivity.
Qed.
Lemma value_drawn m s : m = L "m2cnd" \/ m = L "sdaa" -> exists q, strip_value m (TStr (sigma_text s)) = Ok (Some q) /\ drawn_at m s q.
Proof.
  intros M. unfold strip_value, is_dash. destruct s as [x| |b]; cbn [sigma_text].
  - destruct (read_g_spec 4 x) as [E S]. destruct (float_not _ _ E) as (N1 & N2 & N3 & N4). rewrite N1. cbn [float_cell]. rewrite N2, N3, N4, E. cbn [bind scale_sigma flip_sigma].
    rewrite scaling_level. change (Nat.max 4 1) with 4%nat in S. destruct M as [-> | ->].
    + change (seqb (L "m2cnd") (L "sdaa")) with false. eexists. split; [reflexivity|]. now constructor.
    + change (seqb (L "sdaa") (L "sdaa")) with true. eexists. split; [reflexivity|]. replace (level (read_g 4 x) * -1) with (- level (read_g 4 x)) by ring. now constructor.
  - eexists. split; [destruct M as [-> | ->]; reflexivity|]. constructor.
  - destruct b, M as [-> | ->]; (eexists; split; [reflexivity|]); [apply (drawn_inf true)|apply (drawn_inf_down true)|apply (drawn_inf false)|apply (drawn_inf_down false)].
Qed.
Lemma has_bin_spec r b : has_bin r b = true <-> exists v, In (b, v) (trials r).
Proof.
  unfold has_bin. rewrite existsb_exists. split.
  - intros ([b' v] & I & E). cbn [fst] in E. destruct (seqb_spec b' b) as [->|]; [|discriminate]. now exists v.
  - intros (v & I). exists (b, v). split; [exact I|]. cbn [fst]. destruct (seqb_spec b b); congruence.
Qed.
Lemma stored_pair s k r : NoDup (map fst s) -> In (k, r) s -> stored s k = Some r.
Proof.
  intros ND I. induction s as [|[k' r'] l IH]; [destruct I|]. cbn [map fst] in ND. inversion ND; subst. cbn [stored]. destruct I as [E|I].
  - injection E as -> ->. destruct (seqb_spec k k); [reflexivity|congruence].
  - destruct (seqb_spec k' k) as [->|]; [exfalso; apply H1; apply in_map_iff; exists (k, r); auto|now apply IH].
Qed.
Lemma measured_has s k r z : stored s k = Some r -> measured s k z <-> has_bin r (bin_label z) = true.
Proof.
  intros E. rewrite has_bin_spec. split.
  - intros (r' & v & E' & I). rewrite E in E'. injection E' as <-. now exists v.
  - intros (v & I). now exists r, v.
Qed.
Lemma words_of b ws : map snd (sigma_words b ws) = ws.
Proof. destruct ws as [|w r]; [reflexivity|]. cbn [sigma_words map snd]. rewrite map_map. cbn [snd]. now rewrite map_id. Qed.
Lemma cell_first stat s b : cell 0 (words_tokens (([], b) :: sigma_words b (sigma_cells stat s b)), sigma_line stat s b) = b.
Proof. reflexivity. Qed.
Lemma cell_next stat s b j p : nth_error s j = Some p -> cell (S j) (words_tokens (([], b) :: sigma_words b (sigma_cells stat s b)), sigma_line stat s b) =
  if has_bin (snd p) b then sigma_text (stat (fst p) b) else L "-".
Proof.
  intros E. unfold cell, words_tokens. cbn [fst map token_word snd nth]. rewrite map_map. cbn [token_word]. rewrite words_of. unfold sigma_cells.
  apply nth_error_nth. now rewrite nth_error_map, E.
Qed.
Definition drawn_line (stat : str -> str -> sigma) (s : store) (zs : list Z) (line : str * list (option sigma)) : Prop :=
  Forall2 (fun z o => match o with Some q => measured s (fst line) z /\ drawn_at (fst line) (stat (fst line) (bin_label z)) q | None => ~ measured s (fst line) z end) zs (snd line).
Lemma line_made stat s zs m : store_ok s -> In m (names_sorted s) ->
  exists y, (do! c <- dict_get (sigma_table stat s (map bin_label zs)) m; do! cells <- elements c; do! y <- mapM (strip_value m) cells; do! _ <- line_style m; Ok (m, y)) = Ok (m, y) /\ drawn_line stat s zs (m, y).
Proof.
  intros OK I. apply sorted_names_in, in_map_iff in I as ([k r] & <- & I). cbn [fst]. pose proof OK as [ND FO]. pose proof (proj1 (Forall_forall _ _) FO _ I) as [KN _]. cbn [fst] in KN.
  pose proof (stored_pair s k r ND I) as ST. apply In_nth_error in I as [j E].
  unfold dict_get. unfold sigma_table. rewrite (table_lookup _ _ (S j) k).
  2:{ constructor; [now apply names_not_bin|exact ND]. } 2:{ cbn [nth_error]. now rewrite nth_error_map, E. }
  cbn [bind elements]. rewrite !map_map.
  assert (Q : exists y, mapM (strip_value k) (map (fun z => TStr (cell (S j) (words_tokens (([], bin_label z) :: sigma_words (bin_label z) (sigma_cells stat s (bin_label z))), sigma_line stat s (bin_label z)))) zs) = Ok y /\ drawn_line stat s zs (k, y)).
  { unfold drawn_line. cbn [fst snd]. induction zs as [|z l IH]; [exists []; split; [reflexivity|constructor]|]. destruct IH as (y & E1 & F). cbn [map mapM]. rewrite (cell_next stat s _ j (k, r) E). cbn [fst snd].
    destruct (has_bin r (bin_label z)) eqn:HB.
    - destruct (value_drawn k (stat k (bin_label z)) KN) as (q & E2 & D). rewrite E2. cbn [bind]. rewrite E1. cbn [bind]. eexists. split; [reflexivity|]. constructor; [|exact F]. split; [now apply (measured_has s k r z ST)|exact D].
    - change (strip_value k (TStr (L "-"))) with (@Ok (option sigma) None). cbn [bind]. rewrite E1. cbn [bind]. eexists. split; [reflexivity|]. constructor; [|exact F]. intros M. apply (measured_has s k r z ST) in M. congruence. }
  destruct Q as (y & E1 & F). rewrite E1. cbn [bind]. exists y. split; [|exact F]. destruct KN as [-> | ->]; reflexivity.
Qed.
Lemma strip_made stat s z zs : store_ok s -> Forall (fun z => (Z.abs z < 200)%Z) (z :: zs) -> StronglySorted Z.lt (z :: zs) ->
  exists lines, make_strip (sigma_table stat s (map bin_label (z :: zs))) =
    Ok (mkStrip (map centre (z :: zs)) (log10 (edge z), log10 (edge (last (z :: zs) 0%Z + 1))) lines) /\
    map fst lines = names_sorted s /\ Forall (drawn_line stat s (z :: zs)) lines.
Proof.
  intros OK B SO. unfold make_strip. set (zs' := z :: zs) in *. pose proof OK as [ND FO].
  unfold dict_get at 1. unfold sigma_table at 1. rewrite (table_lookup _ _ 0 (L "bin")); [|constructor; [now apply names_not_bin|exact ND]|reflexivity]. cbn [bind elements].
  rewrite !map_map. rewrite mapM_map. rewrite (mapM_ok _ centre).
  2:{ intros y I. cbn [cell words_tokens map fst token_word snd nth float_of]. rewrite label_value by exact (proj1 (Forall_forall _ _) B y I). reflexivity. }
  cbn [bind]. unfold zs' at 1 2. rewrite (sorted_min z zs SO). cbn [bind]. rewrite (sorted_max zs z SO). cbn [bind]. fold zs'. rewrite (table_measures stat s _ OK).
  assert (Q : exists lines, mapM (fun m => do! c <- dict_get (sigma_table stat s (map bin_label zs')) m; do! cells <- elements c; do! y <- mapM (strip_value m) cells; do! _ <- line_style m; Ok (m, y)) (names_sorted s) = Ok lines /\
     map fst lines = names_sorted s /\ Forall (drawn_line stat s zs') lines).
  { assert (A : forall m, In m (names_sorted s) -> In m (names_sorted s)) by auto. revert A. generalize (names_sorted s) at 1 3 4. induction l as [|m l IH]; intros A; [exists []; repeat split; constructor|].
    destruct IH as (ls & E1 & E2 & E3); [intros x Ix; apply A; now right|]. destruct (line_made stat s zs' m OK (A m (or_introl eq_refl))) as (y & F1 & F2).
    exists ((m, y) :: ls). cbn [mapM]. rewrite F1. cbn [bind]. rewrite E1. cbn [bind map fst]. rewrite E2. split; [reflexivity|]. split; [reflexivity|now constructor]. }
  destruct Q as (lines & E1 & E2 & E3). rewrite E1. cbn [bind]. exists lines. split; [|auto]. f_equal. f_equal. rewrite quarter, !centre_eq, !log10_edge, plus_IZR. fold zs'. f_equal; field.
Qed.
