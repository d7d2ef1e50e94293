(** Theorems about spatial crater counts: C53, C54, C67. *)
From Coq Require Import String Ascii List ZArith Reals Bool Lia Lra Permutation Sorted.
From Verif Require Import Base NumModel NumLemmas BinModel ApplyProofs CountModel StrModel StrSpec StrProofs StrProofs2 CliModel CliProofs FmtModel FmtSpec FmtProofs
  TsModel TsSpec TsProofs TsProofs5 IoModel IoSpec IoProofs IoProofs2 IoProofs3 IoProofs4 SccModel SccSpec SccProofs SccProofs2 SccProofs3 SccProofs4 SccProofs5.
Import ListNotations.
Local Open Scope R_scope.

Lemma drop_repeats_spec r : without_repeats r (drop_repeats r).
Proof.
  assert (G : forall r, without_repeats r (drop_repeats r) /\ hd_error (drop_repeats r) = hd_error r).
  { clear. induction r as [|p r [(k & LK & E & D) H]].
    - split; [|reflexivity]. exists []. split; [reflexivity|]. split; [reflexivity|]. intros [|? ?] ? ? ? Q; discriminate Q.
    - destruct r as [|q r].
      + split; [|reflexivity]. exists [0%nat]. split; [reflexivity|]. split; [reflexivity|]. intros [|? [|? ?]] ? ? ? Q; discriminate Q.
      + change (drop_repeats (p :: q :: r)) with (if same_point p q then drop_repeats (q :: r) else p :: drop_repeats (q :: r)).
        set (s := drop_repeats (q :: r)) in *. clearbody s. cbn [hd_error] in H |- *.
        unfold same_point. destruct (Reqb_spec (fst p) (fst q)) as [E1|E1]; cbn [andb].
        destruct (Reqb_spec (snd p) (snd q)) as [E2|E2].
        * assert (EQ : p = q) by (clear - E1 E2; destruct p, q; cbn in *; congruence). subst q. split; [|exact H].
          destruct s as [|s0 s]; [discriminate H|]. injection H as ->. destruct k as [|k0 k]; [discriminate LK|].
          exists (S k0 :: k). split; [exact LK|]. split; [|exact D]. rewrite E. reflexivity.
        * split; [|reflexivity]. exists (0%nat :: k). split; [cbn [length]; now rewrite LK|]. split; [exact (f_equal (cons p) E)|].
          intros [|a0 a] x y b Q; cbn [app] in Q; injection Q as -> Q.
          -- rewrite Q in H. injection H as ->. intros ->. congruence.
          -- eapply D; exact Q.
        * split; [|reflexivity]. exists (0%nat :: k). split; [cbn [length]; now rewrite LK|]. split; [exact (f_equal (cons p) E)|].
          intros [|a0 a] x y b Q; cbn [app] in Q; injection Q as -> Q.
          -- rewrite Q in H. injection H as ->. intros ->. congruence.
          -- eapply D; exact Q. }
  apply G.
Qed.
Lemma store_ring_spec r : kept_ring r (store_ring r).
Proof.
  exists (map (fun p => (stored (fst p), stored (snd p))) r). split; [|apply drop_repeats_spec].
  induction r as [|p r IH]; constructor; [|exact IH]. split; apply stored_spec.
Qed.
Lemma version_row v : version_number v -> row_word v.
Proof.
  intros [N F]. split; [exact N|]. eapply Forall_impl; [|exact F]. intros c [H|H]; [|subst; reflexivity].
  destruct c as [[] [] [] [] [] [] [] []]; try reflexivity; vm_compute in H; discriminate H.
Qed.

(** ** Rings of the shapes *)
Lemma all_rings_nonempty shapes : Forall (fun s => s <> [] /\ Forall (fun r => r <> []) s) shapes -> Forall (fun p : bool * ring => snd p <> []) (all_rings shapes).
Proof.
  intros F. induction F as [|s shapes [N H] F IH]; [constructor|]. unfold all_rings. cbn [flat_map]. apply Forall_app. split; [|exact IH].
  destruct s as [|r s]; [congruence|]. inversion H; subst. cbn [flagged]. constructor; [assumption|]. rewrite Forall_map. assumption.
Qed.
Lemma write_scc_shapes version from fs name radius area perimeter shapes craters :
  shapes <> [] -> Forall (fun s => s <> [] /\ Forall (fun r => r <> []) s) shapes ->
  exists n, write_scc version from fs name radius area perimeter shapes craters =
    Ok (write_textfile fs name (scc_lines version from radius area perimeter (numbered 1 (all_rings shapes)) n craters) false).
Proof.
  intros N F. unfold write_scc. rewrite shape_numbered. destruct (rev (numbered 1 (all_rings shapes))) as [|[[n t] p] rest] eqn:E; [|eexists; reflexivity].
  exfalso. apply (f_equal (@rev _)) in E. rewrite rev_involutive in E. cbn in E. destruct shapes as [|s shapes]; [congruence|]. inversion F as [|? ? [N1 N2] _]; subst.
  destruct s as [|r s]; [congruence|]. inversion N2 as [|? ? N3 _]; subst. destruct r as [|p r]; [congruence|]. cbn in E. discriminate E.
Qed.
Definition kept_all (l : list (bool * ring)) := map (fun p : bool * ring => (fst p, store_ring (snd p))) l.
Lemma assembled_holes within rest : assembled within (map (pair true) rest) = [].
Proof. induction rest as [|r rest IH]; [reflexivity|]. cbn. exact IH. Qed.
Lemma assembled_app within l1 l2 : Forall (fun p : bool * ring => fst p = true) l1 -> assembled within (l1 ++ l2) = assembled within l2.
Proof. intros F. induction F as [|[b r] l1 H F IH]; [reflexivity|]. cbn [fst] in H. subst b. cbn [app assembled]. exact IH. Qed.
Lemma rings_in shapes r : In r (map snd (all_rings shapes)) -> exists s, In s shapes /\ In r s.
Proof.
  unfold all_rings. rewrite in_map_iff. intros ([b q] & <- & I). apply in_flat_map in I as (s & I & J). exists s. split; [exact I|]. cbn [snd].
  destruct s as [|r0 s]; [destruct J|]. cbn [flagged] in J. destruct J as [J|J]; [injection J as _ ->; now left|]. apply in_map_iff in J as (x & J & K). injection J as _ ->. now right.
Qed.
Lemma filter_false {A} (f : A -> bool) l : (forall x, In x l -> f x = false) -> filter f l = [].
Proof. induction l as [|x l IH]; intros H; [reflexivity|]. cbn. rewrite H by now left. apply IH. intros y I. apply H. now right. Qed.
Lemma filter_true {A} (f : A -> bool) l : (forall x, In x l -> f x = true) -> filter f l = l.
Proof. induction l as [|x l IH]; intros H; [reflexivity|]. cbn. rewrite H by now left. f_equal. apply IH. intros y I. apply H. now right. Qed.
Lemma assembled_shapes within shapes : Forall (fun s => s <> []) shapes ->
  (forall s1 ext holes s2, shapes = s1 ++ (ext :: holes) :: s2 ->
     (forall h, In h holes -> within (store_ring h) (store_ring ext) = true) /\
     (forall s r, In s s2 -> In r s -> within (store_ring r) (store_ring ext) = false)) ->
  assembled within (kept_all (all_rings shapes)) = map (fun s => (store_ring (hd [] s), map store_ring (tl s))) shapes.
Proof.
  intros F. induction F as [|s shapes N F IH]; intros H; [reflexivity|].
  destruct s as [|ext holes]; [congruence|]. destruct (H [] ext holes shapes eq_refl) as [H1 H2].
  unfold kept_all, all_rings. cbn [flat_map flagged app map hd tl assembled fst snd]. f_equal.
  - f_equal. rewrite !map_map, map_app, filter_app. cbn [snd]. rewrite filter_true, filter_false; [now rewrite app_nil_r, map_map| |].
    + intros x I. rewrite <- (map_map snd store_ring) in I. apply in_map_iff in I as (r & <- & I). apply rings_in in I as (s & I & J). eapply H2; eassumption.
    + intros x I. apply in_map_iff in I as (h & <- & I). apply in_map_iff in I as (h' & <- & I). cbn [snd]. apply H1. exact I.
  - rewrite map_app, map_map. rewrite assembled_app by (rewrite Forall_map; apply Forall_forall; reflexivity).
    apply IH. intros s1 e h s2 E. apply (H ((ext :: holes) :: s1) e h s2). now rewrite E.
Qed.

(** * C54: outlines survive writing and reading *)
(** Every shape (an exterior and its holes) comes back with the same rings in the same order, coordinates to 15 decimals and
    repeated vertices made one, provided that each hole lies in its exterior and no ring of a later shape does. *)
Theorem C54_outlines :
  exists kept : ring -> ring, (forall r, kept_ring r (kept r)) /\
  forall within version from fs name radius area perimeter shapes craters,
    version_number version -> one_line (fst from) -> one_line (snd from) ->
    shapes <> [] -> Forall (fun s => s <> [] /\ Forall (fun r => r <> []) s) shapes ->
    (forall s1 ext holes s2, shapes = s1 ++ (ext :: holes) :: s2 ->
       (forall h, In h holes -> within (kept h) (kept ext) = true) /\
       (forall s r, In s s2 -> In r s -> within (kept r) (kept ext) = false)) ->
    exists fs' sp, write_scc version from fs name radius area perimeter shapes craters = Ok fs' /\
      read_spatial within fs' name = Ok sp /\
      sp_polygons sp = map (fun s => (kept (hd [] s), map kept (tl s))) shapes /\ significant 6 radius (sp_radius sp).
Proof.
  exists store_ring. split; [exact store_ring_spec|]. intros within version from fs name radius area perimeter shapes craters V F1 F2 N F H.
  destruct (write_scc_shapes version from fs name radius area perimeter shapes craters N F) as (n & W). eexists _, _. split; [exact W|].
  split; [apply read_written; [now apply version_row|now split|now apply all_rings_nonempty]|]. cbn [sp_polygons sp_radius]. split.
  - apply assembled_shapes; [|exact H]. eapply Forall_impl; [|exact F]. intros s [K _]. exact K.
  - apply (read_g_spec 6 radius).
Qed.
Print Assumptions C54_outlines.
(** An island in a hole is a shape of its own. It comes back as a shape, and also as a second hole of the shape around it. *)
Theorem C54_island_refuted :
  exists kept : ring -> ring, (forall r, kept_ring r (kept r)) /\
  forall within version from fs name radius area perimeter ext hole island craters,
    version_number version -> one_line (fst from) -> one_line (snd from) -> ext <> [] -> hole <> [] -> island <> [] ->
    within (kept hole) (kept ext) = true -> within (kept island) (kept ext) = true ->
    exists fs' sp, write_scc version from fs name radius area perimeter [[ext; hole]; [island]] craters = Ok fs' /\
      read_spatial within fs' name = Ok sp /\ sp_polygons sp = [(kept ext, [kept hole; kept island]); (kept island, [])].
Proof.
  exists store_ring. split; [exact store_ring_spec|]. intros within version from fs name radius area perimeter ext hole island craters V F1 F2 N1 N2 N3 W1 W2.
  assert (F : Forall (fun s : list ring => s <> [] /\ Forall (fun r => r <> []) s) [[ext; hole]; [island]]).
  { repeat (apply Forall_cons || split); try discriminate; try constructor; assumption. }
  destruct (write_scc_shapes version from fs name radius area perimeter [[ext; hole]; [island]] craters ltac:(discriminate) F) as (n & W). eexists _, _. split; [exact W|].
  split; [apply read_written; [now apply version_row|now split|now apply all_rings_nonempty]|]. cbn [sp_polygons].
  cbn [all_rings flat_map flagged app map assembled fst snd filter]. rewrite W1, W2. reflexivity.
Qed.
Print Assumptions C54_island_refuted.
(** A shape with two separate exteriors: the second one is lost. *)
Theorem C54_second_exterior_refuted :
  exists kept : ring -> ring, (forall r, kept_ring r (kept r)) /\
  forall within version from fs name radius area perimeter ext ext2 craters,
    version_number version -> one_line (fst from) -> one_line (snd from) -> ext <> [] -> ext2 <> [] ->
    within (kept ext2) (kept ext) = false ->
    exists fs' sp, write_scc version from fs name radius area perimeter [[ext; ext2]] craters = Ok fs' /\
      read_spatial within fs' name = Ok sp /\ sp_polygons sp = [(kept ext, [])].
Proof.
  exists store_ring. split; [exact store_ring_spec|]. intros within version from fs name radius area perimeter ext ext2 craters V F1 F2 N1 N2 W1.
  assert (F : Forall (fun s : list ring => s <> [] /\ Forall (fun r => r <> []) s) [[ext; ext2]]).
  { repeat (apply Forall_cons || split); try discriminate; try constructor; assumption. }
  destruct (write_scc_shapes version from fs name radius area perimeter [[ext; ext2]] craters ltac:(discriminate) F) as (n & W). eexists _, _. split; [exact W|].
  split; [apply read_written; [now apply version_row|now split|now apply all_rings_nonempty]|]. cbn [sp_polygons].
  cbn [all_rings flat_map flagged app map assembled fst snd filter]. rewrite W1. reflexivity.
Qed.
Print Assumptions C54_second_exterior_refuted.

(** ** An example: two shapes, the first with a hole; [near] tests first vertices only *)
Definition near (r s : ring) : bool :=
  match r, s with (x, _) :: _, (y, _) :: _ => Rltb y x && Rltb x (y + 4) | _, _ => false end.
Lemma rounded_integer a y : kept_coordinate (IZR a) y -> y = IZR a.
Proof.
  intros (m & -> & B & _). set (u := / 10 ^ 15) in *. assert (U : 0 < u) by (apply Rinv_0_lt_compat, pow_lt; lra).
  assert (E : IZR a = IZR (a * 10 ^ 15) * u). { rewrite mult_IZR. change (10 ^ 15)%Z with (10 ^ Z.of_nat 15)%Z. rewrite <- pow_IZR. unfold u. field. }
  rewrite E in B |- *. rewrite <- Rmult_minus_distr_r, <- minus_IZR, Rabs_mult, (Rabs_right u) in B by lra. rewrite <- abs_IZR in B.
  assert (K : IZR (Z.abs (a * 10 ^ 15 - m)) < 1). { apply (Rmult_lt_reg_r u); [exact U|]. lra. }
  apply lt_IZR in K. f_equal. f_equal. lia.
Qed.
Lemma kept_head a b r s : kept_ring ((IZR a, IZR b) :: r) s -> exists t, s = (IZR a, IZR b) :: t.
Proof.
  intros (t & F & (k & LK & E & _)). revert E. inversion F as [|? [x y] ? t' [H1 H2] _]; subst. intros E. cbn [fst snd] in *.
  apply rounded_integer in H1, H2. subst x y. destruct s as [|p s]; [cbn in E; discriminate E|]. destruct k as [|k0 k]; [discriminate LK|].
  cbn [combine map concat fst snd repeat app] in E. injection E as <- _. eexists. reflexivity.
Qed.
Definition outer : ring := [(0, 0); (4, 0); (4, 4); (0, 0)].
Definition inner : ring := [(1, 1); (2, 1); (2, 2); (1, 1)].
Definition other : ring := [(9, 9); (11, 9); (11, 10); (9, 9)].
Example C54_hypotheses_met :
  forall kept : ring -> ring, (forall r, kept_ring r (kept r)) ->
  version_number (L "3.6.10") /\ one_line (L "a.shp") /\
  Forall (fun s : list ring => s <> [] /\ Forall (fun r => r <> []) s) [[outer; inner]; [other]] /\
  (forall s1 ext holes s2, [[outer; inner]; [other]] = s1 ++ (ext :: holes) :: s2 ->
     (forall h, In h holes -> near (kept h) (kept ext) = true) /\
     (forall s r, In s s2 -> In r s -> near (kept r) (kept ext) = false)) /\
  near (kept inner) (kept outer) = true /\ near (kept other) (kept outer) = false.
Proof.
  intros kept K.
  destruct (kept_head 0 0 _ _ (K outer)) as (t1 & E1). destruct (kept_head 1 1 _ _ (K inner)) as (t2 & E2). destruct (kept_head 9 9 _ _ (K other)) as (t3 & E3).
  assert (A : near (kept inner) (kept outer) = true). { rewrite E1, E2. cbn [near]. destruct (Rltb_spec 0 1), (Rltb_spec 1 (0 + 4)); cbn; try reflexivity; lra. }
  assert (B : near (kept other) (kept outer) = false). { rewrite E1, E3. cbn [near]. destruct (Rltb_spec 0 9), (Rltb_spec 9 (0 + 4)); cbn; try reflexivity; lra. }
  split. { split; [discriminate|]. cbn. repeat (apply Forall_cons; [first [now left|now right]|]). constructor. }
  split; [repeat constructor|].
  split. { repeat (apply Forall_cons || split); try discriminate; constructor. }
  split; [|split; assumption].
  intros [|x [|y [|z s1]]] ext holes s2 E; cbn in E; injection E as; subst; try discriminate.
  - split; [intros h [<-|[]]; exact A|]. intros s r [<-|[]] [<-|[]]. exact B.
  - split; [intros h []|]. intros s r [].
Qed.

(** * C53: fractions and positions of craters *)
Lemma sort_exists {A} (leb : A -> A -> bool) l : Permutation l (sort leb l).
Proof. apply sort_perm. Qed.
Lemma sort_diam l : StronglySorted (fun a b => c_diam a <= c_diam b) (sort diam_leb l).
Proof.
  assert (K : StronglySorted (fun a b => diam_leb a b = true) (sort diam_leb l)).
  { apply (sort_sorted diam_leb).
    - intros a b. unfold diam_leb. destruct (Rleb_spec (c_diam a) (c_diam b)), (Rleb_spec (c_diam b) (c_diam a)); auto; lra.
    - intros a b c. unfold diam_leb. destruct (Rleb_spec (c_diam a) (c_diam b)), (Rleb_spec (c_diam b) (c_diam c)), (Rleb_spec (c_diam a) (c_diam c)); auto; lra. }
  induction K; constructor; [assumption|]. eapply Forall_impl; [|exact H]. intros b. unfold diam_leb. destruct (Rleb_spec (c_diam a) (c_diam b)); [auto|discriminate].
Qed.
(** The spatial reader: every crater once, diameter and position together, smallest first, but every fraction is 1. *)
Theorem C53_spatial_fraction_refuted :
  forall within version from fs name radius area perimeter shapes craters,
    version_number version -> one_line (fst from) -> one_line (snd from) ->
    shapes <> [] -> Forall (fun s => s <> [] /\ Forall (fun r => r <> []) s) shapes ->
    exists fs' sp l, write_scc version from fs name radius area perimeter shapes craters = Ok fs' /\ read_spatial within fs' name = Ok sp /\
      Forall2 kept_position craters l /\ Permutation l (sp_craters sp) /\ StronglySorted (fun a b => c_diam a <= c_diam b) (sp_craters sp) /\
      Forall (fun c => c_frac c = 1) (sp_craters sp).
Proof.
  intros within version from fs name radius area perimeter shapes craters V F1 F2 N F.
  destruct (write_scc_shapes version from fs name radius area perimeter shapes craters N F) as (n & W). eexists _, _, (map as_read craters). split; [exact W|].
  split; [apply read_written; [now apply version_row|now split|now apply all_rings_nonempty]|]. cbn [sp_craters].
  split; [|split; [apply sort_perm|split; [apply sort_diam|]]].
  - clear. induction craters as [|c l IH]; constructor; [|exact IH]. split; [exact (proj2 (read_g_spec 7 (c_diam c)))|]. split; apply stored_spec.
  - eapply Permutation_Forall; [apply sort_perm|]. rewrite Forall_map. apply Forall_forall. reflexivity.
Qed.
Print Assumptions C53_spatial_fraction_refuted.
(** The same for any .scc file, whoever wrote it, unless it defines a text named fraction outside of the table. *)
Theorem C53_any_file_refuted :
  forall within fs name ls d sp,
    read_textfile fs name false true true = Ok ls -> read_structure (sub_axis 0 (join [nl] ls)) = Ok (Some d) ->
    lookup d (L "fraction") = None -> read_spatial within fs name = Ok sp -> Forall (fun c => c_frac c = 1) (sp_craters sp).
Proof.
  intros within fs name ls d sp RT RS LF E. unfold read_spatial in E. rewrite RT in E. cbn [bind] in E. rewrite RS in E. cbn [bind has] in E. rewrite LF in E.
  destruct (dict_get d (L "crater")) as [cr|]; [|discriminate]. cbn [bind] in E.
  destruct (float_column cr (L "diam")) as [diam|]; [|discriminate]. cbn [bind] in E.
  destruct (float_column cr (L "lon")) as [lon|]; [|discriminate]. cbn [bind] in E.
  destruct (float_column cr (L "lat")) as [lat|]; [|discriminate]. cbn [bind] in E.
  destruct (take_at diam (sorted_positions diam)) as [d1|]; [|discriminate]. cbn [bind] in E.
  destruct (take_at (map (fun _ : R => 1) diam) (sorted_positions diam)) as [f1|] eqn:EF; [|discriminate]. cbn [bind] in E.
  destruct (take_at lon (sorted_positions diam)) as [x1|]; [|discriminate]. cbn [bind] in E.
  destruct (take_at lat (sorted_positions diam)) as [y1|]; [|discriminate]. cbn [bind] in E.
  assert (F1 : Forall (fun x => x = 1) f1).
  { revert EF. unfold take_at. generalize (sorted_positions diam) as q. clear. intros q. revert f1. induction q as [|i q IH]; intros f1 E; cbn [mapM] in E; [injection E as <-; constructor|].
    destruct (nth_error (map (fun _ : R => 1) diam) i) as [x|] eqn:N; cbn [bind] in E; [|discriminate].
    destruct (mapM _ q) as [t|] eqn:M; cbn [bind] in E; [|discriminate]. injection E as <-. constructor; [|now apply IH].
    apply nth_error_In in N. apply in_map_iff in N as (y & <- & _). reflexivity. }
  assert (G : sp_craters sp = map (fun t : R * R * R * R => mkCrater (fst (fst (fst t))) (snd (fst (fst t))) (snd (fst t)) (snd t)) (combine (combine (combine d1 f1) x1) y1)).
  { repeat match type of E with bind ?m _ = Ok _ => destruct m; cbn [bind] in E; [|discriminate] end. injection E as <-. reflexivity. }
  rewrite G, Forall_map. apply Forall_forall. intros [[[a b] c] e] I. cbn [fst snd c_frac]. apply in_combine_l in I. apply in_combine_l in I. apply in_combine_r in I.
  exact (proj1 (Forall_forall _ _) F1 _ I).
Qed.
Print Assumptions C53_any_file_refuted.

(** The reader of crater counts: every crater once, diameter and fraction together, smallest first. *)
Theorem C53_count_keeps_fractions :
  forall version from fs name radius area perimeter shapes craters,
    version_number version -> one_line (fst from) -> one_line (snd from) ->
    shapes <> [] -> Forall (fun s => s <> [] /\ Forall (fun r => r <> []) s) shapes -> plain_size area -> plain_size perimeter ->
    exists fs' c l, write_scc version from fs name radius area perimeter shapes craters = Ok fs' /\ read_scc fs' name = Ok c /\
      Forall2 kept_fraction craters l /\ Permutation l (cc_craters (ct c)) /\ StronglySorted (fun p q => fst p <= fst q) (cc_craters (ct c)).
Proof.
  intros version from fs name radius area perimeter shapes craters V F1 F2 N F A P.
  destruct (write_scc_shapes version from fs name radius area perimeter shapes craters N F) as (n & W).
  unfold plain_size in A, P.
  destruct (fmt_g_leading area (L " <km2>")) as (a & _ & LA); [eexists _, _; split; [reflexivity|split; [reflexivity|discriminate]]|lra|right; exact A|].
  destruct (fmt_g_leading perimeter (L " <km>" ++ nl :: L "a-axis radius = " ++ km radius)) as (p & _ & LP); [eexists _, _; split; [reflexivity|split; [reflexivity|discriminate]]|lra|right; exact P|].
  eexists _, _, (map pair_read craters). split; [exact W|].
  split; [apply (read_scc_written version from radius area perimeter (all_rings shapes) n craters) with (a := a) (p := p); [now apply version_row|now split|exact LA|]|].
  - unfold perimeter_text, km at 1. rewrite <- app_assoc. exact LP.
  - cbn [ct crater_list cc_craters]. split; [|split; [apply sort_perm|apply sort_ascending]].
    clear. induction craters as [|c l IH]; constructor; [|exact IH]. split; [exact (proj2 (read_g_spec 7 (c_diam c)))|exact (proj2 (read_g_spec 3 (c_frac c)))].
Qed.
Print Assumptions C53_count_keeps_fractions.

(** * C67: the area of a written spatial count *)
(** Sizes that are written without an exponent are read back to six figures. *)
Theorem C67_area_and_perimeter :
  forall version from fs name radius area perimeter shapes craters,
    version_number version -> one_line (fst from) -> one_line (snd from) ->
    shapes <> [] -> Forall (fun s => s <> [] /\ Forall (fun r => r <> []) s) shapes -> plain_size area -> plain_size perimeter ->
    exists fs' c p, write_scc version from fs name radius area perimeter shapes craters = Ok fs' /\ read_scc fs' name = Ok c /\
      significant 6 area (cc_area (ct c)) /\ ct_perimeter c = Some p /\ significant 6 perimeter p /\ ct_buffered c = false.
Proof.
  intros version from fs name radius area perimeter shapes craters V F1 F2 N F A P.
  destruct (write_scc_shapes version from fs name radius area perimeter shapes craters N F) as (n & W).
  unfold plain_size in A, P.
  destruct (fmt_g_leading area (L " <km2>")) as (a & SA & LA); [eexists _, _; split; [reflexivity|split; [reflexivity|discriminate]]|lra|right; exact A|].
  destruct (fmt_g_leading perimeter (L " <km>" ++ nl :: L "a-axis radius = " ++ km radius)) as (p & SP & LP); [eexists _, _; split; [reflexivity|split; [reflexivity|discriminate]]|lra|right; exact P|].
  eexists _, _, p. split; [exact W|].
  split; [apply (read_scc_written version from radius area perimeter (all_rings shapes) n craters) with (a := a) (p := p); [now apply version_row|now split|exact LA|]|].
  - unfold perimeter_text, km at 1. rewrite <- app_assoc. exact LP.
  - cbn. auto.
Qed.
Print Assumptions C67_area_and_perimeter.
(** An area of a million square kilometres or more is read back as less than ten. *)
Theorem C67_large_area_refuted :
  forall version from fs name radius area perimeter shapes craters,
    version_number version -> one_line (fst from) -> one_line (snd from) ->
    shapes <> [] -> Forall (fun s => s <> [] /\ Forall (fun r => r <> []) s) shapes -> 10 ^ 6 <= area -> plain_size perimeter ->
    exists fs' c, write_scc version from fs name radius area perimeter shapes craters = Ok fs' /\ read_scc fs' name = Ok c /\
      cc_area (ct c) < 10.
Proof.
  intros version from fs name radius area perimeter shapes craters V F1 F2 N F A P.
  destruct (write_scc_shapes version from fs name radius area perimeter shapes craters N F) as (n & W).
  unfold plain_size in P.
  destruct (fmt_g_mantissa area (L " <km2>") A) as (a & SA & LA).
  destruct (fmt_g_leading perimeter (L " <km>" ++ nl :: L "a-axis radius = " ++ km radius)) as (p & SP & LP); [eexists _, _; split; [reflexivity|split; [reflexivity|discriminate]]|lra|right; exact P|].
  eexists _, _. split; [exact W|].
  split; [apply (read_scc_written version from radius area perimeter (all_rings shapes) n craters) with (a := a) (p := p); [now apply version_row|now split|exact LA|]|].
  - unfold perimeter_text, km at 1. rewrite <- app_assoc. exact LP.
  - cbn. exact SA.
Qed.
Print Assumptions C67_large_area_refuted.
(** the other hypotheses are those of C54_hypotheses_met *)
Example C53_hypotheses_met : plain_size 1500 /\ plain_size 200 /\ [mkCrater 2 (1/2) 1 1] <> [].
Proof. unfold plain_size. split; [lra|]. split; [lra|discriminate]. Qed.
Example C67_hypotheses_met : plain_size 1500 /\ plain_size 200 /\ 10 ^ 6 <= 2500000.
Proof. unfold plain_size. split; [lra|]. split; lra. Qed.
