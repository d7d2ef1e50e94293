(** readSCCfile of what writeSCCfile writes. *)
From Coq Require Import String Ascii List ZArith Reals Bool Lia Lra Sorted Permutation.
From Verif Require Import Base NumModel NumLemmas BinModel StrModel StrSpec StrProofs StrProofs2 CliModel CliProofs FmtModel FmtSpec FmtProofs
  TsModel TsSpec TsProofs TsProofs2 TsProofs5 IoModel IoSpec IoProofs IoProofs2 IoProofs3 IoProofs4 SccModel SccProofs SccProofs2 SccProofs3.
Import ListNotations.
Local Open Scope R_scope.

Definition diam_leb (a b : crater) : bool := Rleb (c_diam a) (c_diam b).
Lemma take_craters (cs : list crater) : exists S : list (nat * crater),
  sorted_positions (map c_diam cs) = map fst S /\ map snd S = sort diam_leb cs /\
  forall A (g : crater -> A), take_at (map g cs) (map fst S) = Ok (map g (sort diam_leb cs)).
Proof.
  set (P := combine (seq 0 (length cs)) cs).
  set (S := sort (fun p q : nat * crater => Rleb (c_diam (snd p)) (c_diam (snd q))) P). exists S.
  assert (E1 : map snd S = sort diam_leb cs).
  { unfold S. change (map snd (sort (fun p q : nat * crater => diam_leb (snd p) (snd q)) P) = sort diam_leb cs). rewrite <- (sort_map snd diam_leb P). unfold P. now rewrite <- numbered_pairs. }
  split; [|split; [exact E1|]].
  - unfold sorted_positions. rewrite map_length.
    assert (E : combine (seq 0 (length cs)) (map c_diam cs) = map (fun p : nat * crater => (fst p, c_diam (snd p))) P).
    { unfold P. generalize (seq 0 (length cs)). clear. induction cs as [|c cs IH]; intros [|k q]; try reflexivity. cbn [map combine fst snd]. now rewrite IH. }
    rewrite E, sort_map, map_map. reflexivity.
  - intros A g. rewrite <- E1, map_map.
    assert (F : Forall (fun p => nth_error cs (fst p) = Some (snd p)) S).
    { apply Forall_forall. intros p I. apply (Permutation_in _ (Permutation_sym (sort_perm _ _))) in I.
      pose proof (numbered_nth cs 0) as H. apply (proj1 (Forall_forall _ _) H) in I. destruct I as [I _]. now rewrite Nat.sub_0_r in I. }
    clear - F. unfold take_at. induction F as [|p l H F IH]; [reflexivity|]. cbn [map mapM]. rewrite nth_error_map, H. cbn [option_map bind]. rewrite IH. reflexivity.
Qed.
Definition as_read (c : crater) : crater := mkCrater (read_g 7 (c_diam c)) 1 (stored (c_lon c)) (stored (c_lat c)).

Section Read.
Variables (version : str) (from : str * str) (radius area perimeter : R) (l : list (bool * ring)) (n : Z) (craters : list crater).
Hypothesis VW : row_word version.
Hypothesis FW : one_line (fst from) /\ one_line (snd from).
Hypothesis RN : Forall (fun p => snd p <> []) l.
Notation v := (numbered 1 l).
Notation doc := (scc_doc version radius area perimeter v craters).
Let tags1 := [L "vertex"; L "sub_area"; L "tag"; L "lon"; L "lat"].
Let tags2 := [L "diam"; L "fraction"; L "lon"; L "lat"; L "topo_scale_factor"].
Lemma boundary_entry : table_entry doc (L "unit_boundary") tags1 (boundary_table v).
Proof. eexists _, _, _. split; [apply (doc_sole) with (i := 5%nat); reflexivity|]. repeat split. Qed.
Lemma crater_entry : table_entry doc (L "crater") tags2 (crater_table craters).
Proof. eexists _, _, _. split; [apply (doc_sole) with (i := 6%nat); reflexivity|]. repeat split. Qed.
Lemma radius_entry : text_entry doc (L "a_axis_radius") (km radius).
Proof. eexists. split; [apply (doc_sole) with (i := 1%nat); reflexivity|]. split; [reflexivity|now left]. Qed.
Lemma tags1_nodup : NoDup tags1. Proof. unfold tags1. repeat constructor; cbn; intuition discriminate. Qed.
Lemma tags2_nodup : NoDup tags2. Proof. unfold tags2. repeat constructor; cbn; intuition discriminate. Qed.
Lemma boundary_cells (f : Z * str * (R * R) -> str) i k : nth_error tags1 i = Some k ->
  (forall it, nth i (map snd (boundary_words it)) [] = f (snd it)) ->
  list_column (TDict (table_dict tags1 (boundary_table v))) k = Ok (map (fun it => TStr (f it)) v).
Proof.
  intros E H. unfold list_column, sub, dict_get. rewrite (table_lookup tags1 _ i k tags1_nodup E). cbn [bind elements]. f_equal.
  unfold boundary_table. rewrite map_map. generalize 1%nat as m. induction v as [|it w IH]; intros m; [reflexivity|]. cbn [length seq combine map].
  f_equal; [|apply IH]. unfold cell, words_tokens. cbn [fst]. rewrite map_map. cbn [token_word]. f_equal.
  change (fun x : str * str => snd x) with (@snd str str). exact (H (m, it)).
Qed.
Lemma crater_cells (f : crater -> R) i k (fmt : crater -> str) : nth_error tags2 i = Some k ->
  (forall c, nth i (map snd (crater_words c)) [] = fmt c) -> (forall c, py_float (fmt c) = Ok (f c)) ->
  float_column (TDict (table_dict tags2 (crater_table craters))) k = Ok (map f craters).
Proof.
  intros E H P. unfold float_column, sub, dict_get. rewrite (table_lookup tags2 _ i k tags2_nodup E). cbn [bind elements].
  unfold crater_table. rewrite map_map, mapM_map. apply mapM_ok. intros c _. unfold cell, words_tokens. cbn [fst float_of]. rewrite map_map. cbn [token_word].
  change (fun x : str * str => snd x) with (@snd str str). rewrite H. apply P.
Qed.
Lemma ids_ok : mapM int_of (map (fun it : Z * str * (R * R) => TStr (int_str (fst (fst it)))) v) = Ok (map (fun it => fst (fst it)) v).
Proof.
  rewrite mapM_map. apply mapM_ok. intros it I. apply int_of_str.
  assert (G : forall l0 i, In it (numbered i l0) -> (i <= fst (fst it))%Z).
  { clear. intros l0. induction l0 as [|[b r] l0 IH]; intros i H; [destruct H|]. cbn [numbered] in H. apply in_app_or in H as [H|H].
    - apply in_map_iff in H as (q & <- & _). cbn. lia.
    - apply IH in H. lia. }
  apply G in I. lia.
Qed.
Lemma km_word x : hd [] (split_chr (ch " ") [] (km x)) = fmt_g 6 x.
Proof.
  unfold km. assert (A : Forall (fun c => aeqb c (ch " ") = false) (fmt_g 6 x)).
  { eapply Forall_impl; [|exact (fmt_g_chars 6 x)]. intros [[] [] [] [] [] [] [] []] H; try reflexivity; vm_compute in H; discriminate H. }
  assert (G : forall s acc, Forall (fun c => aeqb c (ch " ") = false) s -> hd [] (split_chr (ch " ") acc (s ++ L " <km>")) = rev acc ++ s).
  { clear. induction s as [|c s IH]; intros acc H; [cbn; now rewrite app_nil_r|]. inversion H; subst. cbn [app split_chr]. rewrite H2, IH by assumption.
    cbn [rev]. now rewrite <- app_assoc. }
  now rewrite (G _ []).
Qed.
Theorem read_written within fs name :
  read_spatial within (write_textfile fs name (scc_lines version from radius area perimeter v n craters) false) name =
  Ok (mkSpatial (sort diam_leb (map as_read craters)) (read_g 6 radius) (assembled within (map (fun p => (fst p, store_ring (snd p))) l))).
Proof.
  pose proof (numbered_row_word l 1) as TW.
  unfold read_spatial. rewrite (scc_read version from radius area perimeter v n craters VW FW TW). cbn [bind].
  destruct (doc_dict version radius area perimeter v craters VW TW) as (d & ts & RD & M & H). rewrite RD. cbn [bind]. clear RD.
  unfold dict_get at 1. rewrite (lookup_table d _ ts _ _ _ H M crater_entry). cbn [bind].
  rewrite (crater_cells (fun c => read_g 7 (c_diam c)) 0 (L "diam") (fun c => fmt_g 7 (c_diam c)) eq_refl (fun c => eq_refl) (fun c => proj1 (read_g_spec 7 _))).
  cbn [bind has].
  assert (NF : lookup d (L "fraction") = None).
  { apply (lookup_absent d _ ts _ H). unfold scc_doc. cbn [key_of line_entry]. repeat (apply Forall_cons; [discriminate|]). constructor. }
  rewrite NF. cbn [bind].
  rewrite (crater_cells (fun c => stored (c_lon c)) 2 (L "lon") (fun c => fmt_f 15 (c_lon c)) eq_refl (fun c => eq_refl) (fun c => proj1 (stored_spec _))). cbn [bind].
  rewrite (crater_cells (fun c => stored (c_lat c)) 3 (L "lat") (fun c => fmt_f 15 (c_lat c)) eq_refl (fun c => eq_refl) (fun c => proj1 (stored_spec _))). cbn [bind].
  destruct (take_craters (map as_read craters)) as (S & E1 & E2 & T).
  assert (D1 : map (fun c => read_g 7 (c_diam c)) craters = map c_diam (map as_read craters)) by (rewrite map_map; reflexivity).
  assert (D2 : map (fun _ : R => 1) (map c_diam (map as_read craters)) = map c_frac (map as_read craters)) by (rewrite !map_map; reflexivity).
  assert (D3 : map (fun c => stored (c_lon c)) craters = map c_lon (map as_read craters)) by (rewrite map_map; reflexivity).
  assert (D4 : map (fun c => stored (c_lat c)) craters = map c_lat (map as_read craters)) by (rewrite map_map; reflexivity).
  rewrite D1, D2, D3, D4, E1, !T. cbn [bind].
  rewrite (lookup_text d _ ts _ _ H M radius_entry). cbn [bind]. rewrite km_word. rewrite (proj1 (read_g_spec 6 radius)). cbn [bind].
  unfold dict_get at 1. rewrite (lookup_table d _ ts _ _ _ H M boundary_entry). cbn [bind].
  rewrite (boundary_cells (fun it => int_str (fst (fst it))) 1 (L "sub_area") eq_refl) by (intros (k & [[a b] [x y]]); reflexivity). cbn [bind].
  rewrite (boundary_cells (fun it => snd (fst it)) 2 (L "tag") eq_refl) by (intros (k & [[a b] [x y]]); reflexivity). cbn [bind].
  rewrite ids_ok. cbn [bind].
  rewrite (boundary_cells (fun it => fmt_f 15 (fst (snd it))) 3 (L "lon") eq_refl) by (intros (k & [[a b] [x y]]); reflexivity). cbn [bind].
  rewrite (boundary_cells (fun it => fmt_f 15 (snd (snd it))) 4 (L "lat") eq_refl) by (intros (k & [[a b] [x y]]); reflexivity). cbn [bind].
  rewrite map_map. cbn [is_text]. rewrite combine_maps. rewrite (tags_unique l 1 RN). rewrite (sort_fixed _ _ (zlist_sorted l 1)).
  set (l' := map (fun p : bool * ring => (fst p, store_ring (snd p))) l).
  assert (ZL : forall i, zlist i l' = zlist i l).
  { unfold l'. clear. induction l as [|[b r] l0 IH]; intros i; [reflexivity|]. cbn [map zlist fst]. now rewrite IH. }
  match goal with |- context [bind (mapM ?f (zlist 1 l)) _] => assert (RM : mapM f (zlist 1 l) = Ok (rings_dict 1 l')) end.
  { unfold rings_dict. rewrite ZL.
    assert (G : forall l1 l2, l = l1 ++ l2 ->
       mapM (fun p : Z * bool => do! r <- ring_number (map (fun it : Z * str * (R * R) => TStr (fmt_f 15 (fst (snd it)))) v)
          (map (fun it : Z * str * (R * R) => TStr (fmt_f 15 (snd (snd it)))) v) (map (fun it : Z * str * (R * R) => fst (fst it)) v) (fst p); Ok (fst p, r))
         (zlist (1 + Z.of_nat (length l1)) l2) =
       Ok (map (fun p : Z * bool * (bool * ring) => (fst (fst p), snd (snd p)))
             (combine (zlist (1 + Z.of_nat (length l1)) l2) (map (fun p => (fst p, store_ring (snd p))) l2)))).
    { intros l1 l2. revert l1. induction l2 as [|[b r] l2 IH]; intros l1 E; [reflexivity|]. cbn [zlist map combine mapM fst snd].
      rewrite (ring_number_numbered l (length l1) b r) by (rewrite E, nth_error_app2, Nat.sub_diag by lia; reflexivity). cbn [bind].
      specialize (IH (l1 ++ [(b, r)])). rewrite <- app_assoc in IH. specialize (IH E). rewrite app_length in IH. cbn [length] in IH.
      replace (1 + Z.of_nat (length l1 + 1))%Z with (1 + Z.of_nat (length l1) + 1)%Z in IH by lia. rewrite IH. reflexivity. }
    exact (G [] l eq_refl). }
  rewrite RM. cbn [bind].
  assert (Z1 : match zlist 1 l with (i, _) :: _ => if Z.eqb i 1 then Ok tt else Err NameError | [] => Ok tt end = Ok tt).
  { clear. destruct l as [|[b r] l0]; reflexivity. }
  rewrite Z1. cbn [bind]. rewrite <- !ZL. pose proof (polygons_assembled within l' [] l' eq_refl) as PA. cbn [length] in PA.
  change (1 + Z.of_nat 0)%Z with 1%Z in PA. rewrite PA. cbn [bind]. f_equal. f_equal.
  rewrite !combine_maps, map_map. cbn [fst snd]. rewrite <- (map_id (sort diam_leb (map as_read craters))) at 2. apply map_ext. intros []; reflexivity.
Qed.
End Read.
