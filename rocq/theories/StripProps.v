(** C97: the strip of the randomness analysis. *)
From Coq Require Import String Ascii List ZArith Reals Bool Lia Lra Permutation Sorted.
From Verif Require Import Base NumModel NumLemmas StrModel StrSpec StrProofs StrProofs2 StrProps CliModel CliProps2 FmtModel FmtSpec FmtProofs
  TsModel TsSpec IoModel IoSpec IoProofs SccModel SccProofs3 RaModel RaProofs3 RaFileModel RaFileSpec RaFileProofs RaFileProps
  SetModel SetSpec SetProofs SetProps2 SetProps3 MainModel MainProofs MainProps StripModel StripSpec StripProofs.
Import ListNotations.
Local Open Scope R_scope.

(** * What the analysis has written stands in the plot: every bin that has a value at its place on the diameter axis, in ascending
      order; a line for each measure with the value to four figures at its height, and a gap where the measure has no value *)
Theorem C97_points :
  forall fs name version written stat s source locations,
    store_ok s -> root2_bins s -> s <> [] -> version_ok version -> source_ok written ->
    exists fs', write_ra fs name version written stat s = Ok fs' /\
    (ra_locations source = Ok locations -> find (fun n => if file_get fs' n then true else false) locations = Some name ->
     exists table trials st zs,
       read_ra_file fs' source = Ok (Some (table, trials)) /\ make_strip table = Ok st /\
       StronglySorted Z.lt zs /\ (forall z, (Z.abs z < 200)%Z -> In z zs <-> exists m, measured s m z) /\ zs <> [] /\
       st_x st = map (fun z => log10 (sqrt (edge z * edge (z + 1)))) zs /\
       st_range st = (log10 (edge (hd 0%Z zs)), log10 (edge (last zs 0%Z + 1))) /\
       Permutation (map fst (st_lines st)) (map fst s) /\ StronglySorted (fun a b => str_leb a b = true) (map fst (st_lines st)) /\
       Forall2 (fun l t => exists r, stored s (fst l) = Some r /\ t = TStr (int_str (n_trials r))) (st_lines st) trials /\
       Forall (fun l => Forall2 (fun z o => match o with
                                            | Some q => measured s (fst l) z /\ drawn_at (fst l) (stat (fst l) (bin_label z)) q
                                            | None => ~ measured s (fst l) z
                                            end) zs (snd l)) (st_lines st)).
Proof.
  intros fs name version written stat s source locations OK RB NE V W. destruct (bins_sorted s RB) as (zs & EB & SO & B & IZ).
  unfold write_ra. rewrite (write_bins version written stat s _ OK EB). cbn [bind]. eexists. split; [reflexivity|]. intros EL EF.
  pose proof (read_table fs name version written stat s (map bin_label zs) source locations OK V W (labels_names zs) EL EF) as ER.
  assert (IM : forall z, (Z.abs z < 200)%Z -> In z zs <-> exists m, measured s m z).
  { intros z Hz. rewrite (IZ z Hz). split.
    - intros ([m r] & [b v] & Ip & Iq & E). cbn [fst snd] in *. subst b. exists m, r, v. split; [|exact Iq]. now apply stored_pair; [destruct OK|].
    - intros (m & r & v & ST & I). exists (m, r), (bin_label z, v). split; [now apply stored_In|]. auto. }
  destruct zs as [|z zs].
  { exfalso. destruct s as [|[m r] s]; [congruence|]. destruct OK as [_ F]. inversion F as [|? ? [_ (_ & NT & _)] _]; subst. cbn [snd] in NT. destruct (trials r) as [|[b v] tl] eqn:ET; [congruence|].
    inversion RB as [|? ? RF _]; subst. cbn [snd] in RF. rewrite ET in RF. inversion RF as [|? ? (z & Hz & Eb) _]; subst. cbn [fst] in Eb.
    apply (IZ z Hz). exists (m, r), (b, v). split; [now left|]. split; [cbn [snd]; rewrite ET; now left|exact Eb]. }
  destruct (strip_made stat s z zs OK B SO) as (lines & EM & EN & FL).
  eexists. eexists. eexists. exists (z :: zs). split; [exact ER|]. split; [exact EM|]. split; [exact SO|]. split; [exact IM|]. split; [discriminate|]. cbn [st_x st_range st_lines hd].
  split; [apply map_ext; intros y; apply log10_centre|]. split; [reflexivity|]. rewrite EN. split; [symmetry; apply sort_perm|]. split.
  { apply sort_sorted; [intros x y F; destruct (str_leb_total x y) as [T|T]; [congruence|exact T]|intros; eapply str_leb_trans; eassumption]. }
  split; [|exact FL]. rewrite <- EN. assert (IN : forall l, In l lines -> exists r, stored s (fst l) = Some r).
  { intros l I. apply (in_map fst) in I. rewrite EN in I. apply sorted_names_in, in_map_iff in I as ([k r] & E & I). cbn [fst] in E. subst k. exists r. now apply stored_pair; [destruct OK|]. }
  clear - IN. induction lines as [|l lines IH]; cbn [map]; [constructor|]. constructor; [|apply IH; intros x I; apply IN; now right].
  destruct (IN l (or_introl eq_refl)) as (r & E). exists r. split; [exact E|]. now rewrite E.
Qed.
Print Assumptions C97_points.

(** * Where the results are sought: in the current directory, then beside the count *)
Lemma source_pieces dir n w : directory dir -> plain_name n -> short_word w ->
  filename (dir ++ n ++ "."%char :: w) (L "n") None None 4 = Ok n /\ filename (dir ++ n ++ "."%char :: w) (L "p") None None 4 = Ok dir /\
  filename (dir ++ n ++ "."%char :: w) (L "e") None None 4 = Ok ("."%char :: w).
Proof. intros D P W. repeat split; known D P W (@nil ascii); cbn [flat_map piece]; cbn; now rewrite app_nil_r. Qed.
Theorem C97_sought :
  forall dir n w, directory dir -> plain_name n -> short_word w ->
    ra_locations (dir ++ n ++ "."%char :: w) = Ok [n ++ L "_ra.txt"; dir ++ n ++ L "_ra.txt"] /\
    (* an analysis without -o writes the first of the two, unless the count is a shapefile; one with -o and the place of the count the second *)
    (w <> L "shp" -> results_file [] (dir ++ n ++ "."%char :: w) = Ok (n ++ L "_ra.txt")) /\
    (w = L "shp" -> crater_free n -> results_file [] (dir ++ n ++ "."%char :: w) = Ok (n ++ L "_ra.txt")) /\
    (n <> [] -> results_file (dir ++ n) (dir ++ n ++ "."%char :: w) = Ok (dir ++ n ++ L "_ra.txt")) /\
    (forall fs, file_get fs (n ++ L "_ra.txt") = None -> file_get fs (dir ++ n ++ L "_ra.txt") = None ->
       read_ra_file fs (dir ++ n ++ "."%char :: w) = Ok None).
Proof.
  intros dir n w D P W. destruct (source_pieces dir n w D P W) as (A & B & C).
  assert (LO : ra_locations (dir ++ n ++ "."%char :: w) = Ok [n ++ L "_ra.txt"; dir ++ n ++ L "_ra.txt"]) by (unfold ra_locations; rewrite A, B; reflexivity).
  split; [exact LO|]. unfold results_file, count_name. rewrite A, C. cbn [bind]. split; [|split; [|split]].
  - intros N. destruct (seqb_spec ("."%char :: w) (L ".shp")) as [E|_]; [|reflexivity]. injection E as E. contradiction.
  - intros -> F. change (seqb ("."%char :: L "shp") (L ".shp")) with true. cbv iota. now rewrite (remove_crater_id _ F).
  - intros N. destruct (dir ++ n) eqn:E; [apply app_eq_nil in E as [_ E]; contradiction|]. rewrite <- E, <- app_assoc. reflexivity.
  - intros fs F1 F2. unfold read_ra_file. rewrite LO. cbn [bind find]. rewrite F1, F2. reflexivity.
Qed.
Print Assumptions C97_sought.
(** the results for a shapefile whose name has the usual ending are written under the name without it, and not found *)
Theorem C97_shapefile_refuted :
  forall n text, plain_name n -> crater_free n ->
    results_file [] (n ++ L "_CRATER.shp") = Ok (n ++ L "_ra.txt") /\
    read_ra_file [(n ++ L "_ra.txt", text)] (n ++ L "_CRATER.shp") = Ok None.
Proof.
  intros n text P F. assert (PT : plain_name (n ++ L "_CRATER")) by (apply Forall_app; split; [exact P|]; repeat (constructor; [left; reflexivity|]); constructor).
  assert (SW : short_word (L "shp")) by (split; [cbn; lia|]; repeat constructor).
  replace (n ++ L "_CRATER.shp") with ([] ++ (n ++ L "_CRATER") ++ "."%char :: L "shp") by (now rewrite <- app_assoc).
  destruct (source_pieces [] _ _ dir_empty PT SW) as (A & B & C). destruct (C97_sought [] _ _ dir_empty PT SW) as (_ & _ & _ & _ & NO). split.
  - unfold results_file, count_name. rewrite A, C. cbn [bind]. change (seqb ("."%char :: L "shp") (L ".shp")) with true. cbv iota. now rewrite remove_crater_tag_end.
  - assert (NE : file_get [(n ++ L "_ra.txt", text)] ((n ++ L "_CRATER") ++ L "_ra.txt") = None).
    { cbn [file_get]. destruct (seqb_spec (n ++ L "_ra.txt") ((n ++ L "_CRATER") ++ L "_ra.txt")) as [E|_]; [|reflexivity].
      exfalso. apply (f_equal (@length _)) in E. rewrite !app_length in E. cbn in E. lia. }
    apply NO; exact NE.
Qed.
Print Assumptions C97_shapefile_refuted.
(** a results file whose writing was interrupted after it had been opened makes the count unreadable, whether the strip is wanted or not *)
Theorem C97_unfinished_refuted :
  forall fs dir n w, directory dir -> plain_name n -> short_word w ->
    file_get fs (n ++ L "_ra.txt") = Some [] \/ (file_get fs (n ++ L "_ra.txt") = None /\ file_get fs (dir ++ n ++ L "_ra.txt") = Some []) ->
    exists e, read_ra_file fs (dir ++ n ++ "."%char :: w) = Err e.
Proof.
  intros fs dir n w D P W H. destruct (C97_sought dir n w D P W) as (LO & _). unfold read_ra_file. rewrite LO. cbn [bind find].
  assert (Q : forall f, file_get fs f = Some [] -> exists e, structure fs f = Err e).
  { intros f E. unfold structure, read_textstructure, read_textfile. rewrite E. eexists. vm_compute. reflexivity. }
  destruct H as [H|[H1 H]].
  - rewrite H. destruct (Q _ H) as (e & ->). now exists e.
  - rewrite H1, H. destruct (Q _ H) as (e & ->). now exists e.
Qed.
Print Assumptions C97_unfinished_refuted.

(** * Heights: a value is drawn within the band of k sigma exactly if it is at most k in size, above the middle exactly if the
      population is more separated than a random one *)
Lemma level_scaling y : level y = n_sigma_scaling y. Proof. symmetry. apply scaling_level. Qed.
Lemma level_le a b : level a <= level b <-> a <= b.
Proof.
  rewrite !level_scaling. destruct C77_scale as (_ & M & _). split; intros H.
  - destruct (Rle_dec a b) as [|N]; [assumption|]. specialize (M b a ltac:(lra)). lra.
  - destruct (Req_dec a b) as [->|N]; [lra|]. specialize (M a b ltac:(lra)). lra.
Qed.
Lemma level_opp y : level (- y) = - level y.
Proof. rewrite !level_scaling. now destruct C77_scale as (O & _). Qed.
Lemma level_0 : level 0 = 0. Proof. rewrite level_scaling. apply nss_zero. Qed.
Theorem C97_bands :
  map (fun b => (fst b, snd b)) bands = map (fun k => (- level k, level k)) [3; 2; 1] /\
  forall m x q, drawn_at m (SNum x) q ->
    exists y h, significant 4 x y /\ q = SNum h /\
      (forall k, In k [3; 2; 1] -> - level k <= h <= level k <-> Rabs y <= k) /\
      (0 < h <-> (m = L "m2cnd" /\ 0 < y) \/ (m = L "sdaa" /\ y < 0)) /\
      (h < 0 <-> (m = L "m2cnd" /\ y < 0) \/ (m = L "sdaa" /\ 0 < y)).
Proof.
  split. { unfold bands. cbn [map fst snd]. destruct C77_scale as (O & _). rewrite !O, !level_scaling. reflexivity. }
  assert (BD : forall y k, 0 <= k -> - level k <= level y <= level k <-> Rabs y <= k).
  { intros y k K. rewrite <- level_opp, !level_le. unfold Rabs. destruct (Rcase_abs y); lra. }
  assert (SG : forall y, (0 < level y <-> 0 < y) /\ (level y < 0 <-> y < 0)).
  { intros y. pose proof (level_le y 0) as A. pose proof (level_le 0 y) as B. rewrite level_0 in A, B. split; split; intros H; apply Rnot_le_lt; intros G; tauto || (apply A in G; lra) || (apply B in G; lra). }
  assert (KP : forall k, In k [3; 2; 1] -> 0 <= k) by (intros k [<-|[<-|[<-|[]]]]; lra).
  intros m x q H. inversion H; subst; clear H.
  - exists y, (level y). split; [assumption|]. split; [reflexivity|]. split; [intros k I; apply BD, KP, I|]. destruct (SG y) as [S1 S2]. split; [rewrite S1|rewrite S2]; split; intros Q; try (left; split; [reflexivity|exact Q]); destruct Q as [[_ Q]|[Q _]]; [exact Q|discriminate Q|exact Q|discriminate Q].
  - exists y, (- level y). split; [assumption|]. split; [reflexivity|]. split; [intros k I; rewrite <- (BD y k (KP k I)); lra|]. destruct (SG y) as [S1 S2].
    split; [transitivity (level y < 0); [split; lra|rewrite S2]|transitivity (0 < level y); [split; lra|rewrite S1]]; split; intros Q; try (right; split; [reflexivity|exact Q]); destruct Q as [[Q _]|[_ Q]]; [discriminate Q|exact Q|discriminate Q|exact Q].
Qed.
Print Assumptions C97_bands.

(** * The legend beside the first strip *)
Lemma log2_quarter : / 4 < log10 2.
Proof.
  assert (H : 1 < 4 * log10 2); [|lra]. rewrite <- log10_10. replace (4 * log10 2) with (log10 (2 ^ 4)); [apply log10_lt; lra|].
  replace (2 ^ 4) with (2 * 2 * (2 * 2)) by ring. rewrite !log10_mult by lra. ring.
Qed.
Lemma tick_edge e : log10 (powerRZ 2 e) = log10 (edge (2 * e)).
Proof. fold (tick e). rewrite tick_eq, log10_edge, mult_IZR. field. Qed.
Lemma half_edge e : log10 (powerRZ 2 e) + log10 2 / 2 = log10 (edge (2 * e + 1)).
Proof. fold (tick e). rewrite tick_eq, log10_edge, plus_IZR, mult_IZR. field. Qed.
Lemma edge_le a b : log10 (edge a) <= log10 (edge b) <-> (a <= b)%Z.
Proof.
  rewrite !log10_edge. pose proof log2_quarter. split; intros H1.
  - apply le_IZR. nra.
  - apply IZR_le in H1. nra.
Qed.
Lemma edge_le_slack a b : log10 (edge a) <= log10 (edge b) + 1 / 1000 <-> (a <= b)%Z.
Proof.
  split; intros H.
  - apply Znot_gt_le. intros G. assert (K : log10 (edge (b + 1)) <= log10 (edge a)) by (apply edge_le; lia). rewrite !log10_edge, plus_IZR in *. pose proof log2_quarter. lra.
  - apply edge_le in H. lra.
Qed.
(** the lines of the grid are the edges of the bins, from the first to the last, if they lie between 2^-10.5 and 2^10.5 km *)
Theorem C97_grid :
  forall measures a b lg, (-21 <= a)%Z -> (b <= 21)%Z ->
    make_legend measures (log10 (edge a), log10 (edge b)) = Ok lg ->
    forall v, In v (lg_grid lg) <-> exists z, (a <= z <= b)%Z /\ v = log10 (edge z).
Proof.
  intros measures a b lg A B E v. unfold make_legend in E. destruct (mapM line_style measures) as [st|]; [|discriminate]. cbn [bind fst snd] in E.
  destruct (Hartmann_bins _) as [[[[major labels] xm] minor]|] eqn:EH; [|discriminate]. cbn [bind] in E.
  apply (f_equal (fun r => match r with Ok y => lg_grid y | Err _ => [] end)) in E. cbn [lg_grid] in E. rewrite <- E. clear E.
  destruct (C76_Hartmann_ticks _ _ _ _ _ _ EH) as (e0 & e1 & BD & HT & I & _ & _ & MI).
  assert (IN : forall e, (-10 <= e <= 10)%Z -> (a <= 2 * e <= b)%Z <-> (e0 <= e <= e1)%Z) by (intros e He; rewrite <- (I e He), tick_edge, edge_le, edge_le_slack; tauto).
  pose proof (IN e0 ltac:(lia)) as I0. pose proof (IN e1 ltac:(lia)) as I1.
  assert (P0 : (e0 = -10 \/ 2 * (e0 - 1) < a)%Z) by (destruct (Z.eq_dec e0 (-10)); [left; assumption|right; pose proof (IN (e0 - 1)%Z ltac:(lia)); lia]).
  assert (P1 : (e1 = 10 \/ b < 2 * (e1 + 1))%Z) by (destruct (Z.eq_dec e1 10); [left; assumption|right; pose proof (IN (e1 + 1)%Z ltac:(lia)); lia]).
  rewrite in_app_iff, HT, in_map_iff, MI. split.
  - intros [(e & <- & Ie)|((L1 & L2) & e & Ie & ->)].
    + apply zrange_in in Ie. exists (2 * e)%Z. rewrite tick_edge. split; [apply IN; lia|reflexivity].
    + exists (2 * e + 1)%Z. rewrite half_edge in *. split; [|reflexivity]. apply edge_le in L1. apply edge_le_slack in L2. lia.
  - intros (z & Hz & ->). destruct (Z.Even_or_Odd z) as [[e ->]|[e ->]].
    + left. exists e. split; [apply tick_edge|]. apply zrange_in. assert (e0 <= e <= e1)%Z by (apply IN; lia). lia.
    + right. split; [split; [apply edge_le; lia|apply edge_le_slack; lia]|]. exists e. split; [lia|]. symmetry. apply half_edge.
Qed.
Print Assumptions C97_grid.
(** it can be drawn exactly if two whole powers of two from 2^-10 to 2^10 km are among the edges *)
Theorem C97_legend_possible :
  forall measures a b, Forall (fun m => m = L "m2cnd" \/ m = L "sdaa") measures ->
    ((exists lg, make_legend measures (log10 (edge a), log10 (edge b)) = Ok lg) <->
     exists e, (-10 <= e < 10)%Z /\ (a <= 2 * e)%Z /\ (2 * e + 2 <= b)%Z).
Proof.
  intros measures a b F. unfold make_legend. rewrite (mapM_ok _ (fun m => if seqb m (L "m2cnd") then L "--" else L ":")).
  2:{ intros m I. apply (proj1 (Forall_forall _ _) F) in I as [-> | ->]; reflexivity. }
  cbn [bind fst snd]. split.
  - intros (lg & E). destruct (Hartmann_bins _) as [[[[major labels] xm] minor]|] eqn:EH; [|discriminate].
    destruct (C76_Hartmann_ticks _ _ _ _ _ _ EH) as (e0 & e1 & BD & _ & I & _). exists e0.
    assert (I0 : (a <= 2 * e0 <= b)%Z) by (pose proof (proj2 (I e0 ltac:(lia)) ltac:(lia)) as [X Y]; rewrite tick_edge in X, Y; apply edge_le in X; apply edge_le_slack in Y; lia).
    assert (I1 : (a <= 2 * e1 <= b)%Z) by (pose proof (proj2 (I e1 ltac:(lia)) ltac:(lia)) as [X Y]; rewrite tick_edge in X, Y; apply edge_le in X; apply edge_le_slack in Y; lia).
    lia.
  - intros (e & B & H1 & H2). destruct (C76_needs_two_ticks (log10 (edge a)) (log10 (edge b) + 1 / 1000)) as (K & _). destruct K as (r & E).
    { exists e, (e + 1)%Z. split; [lia|]. split; [lia|]. rewrite !tick_edge. split; [apply edge_le; lia|apply edge_le_slack; lia]. }
    rewrite E. cbn [bind]. destruct r as [[[? ?] ?] ?]. eexists. reflexivity.
Qed.
Print Assumptions C97_legend_possible.
(** so results for a single bin, or for two that begin at an odd half power, stop the plot *)
Theorem C97_narrow_refuted :
  forall measures z, Forall (fun m => m = L "m2cnd" \/ m = L "sdaa") measures ->
    (exists e, make_legend measures (log10 (edge z), log10 (edge (z + 1))) = Err e) /\
    (Z.Odd z -> exists e, make_legend measures (log10 (edge z), log10 (edge (z + 2))) = Err e).
Proof.
  intros measures z F. assert (G : forall b, ~ (exists e, (-10 <= e < 10)%Z /\ (z <= 2 * e)%Z /\ (2 * e + 2 <= b)%Z) -> exists e, make_legend measures (log10 (edge z), log10 (edge b)) = Err e).
  { intros b N. destruct (make_legend measures (log10 (edge z), log10 (edge b))) as [lg|e] eqn:E; [|now exists e]. exfalso. apply N. apply (C97_legend_possible measures z b F). now exists lg. }
  split; [|intros [k ->]]; apply G; intros (e & _ & H1 & H2); lia.
Qed.
Print Assumptions C97_narrow_refuted.

(** its rows stand one below the other at equal distances, centred on the strip, the numbers of trials below *)
Theorem C97_rows :
  forall measures range lg, make_legend measures range = Ok lg ->
    map fst (lg_rows lg) = measures /\
    (forall i m y, nth_error (lg_rows lg) i = Some (m, y) -> y = 13 / 10 * (INR (length measures) / 2 - INR i)) /\
    lg_trials lg = - (13 / 10 * (INR (length measures) / 2)) /\
    Forall2 (fun k p => fst p = level (IZR k) - 8 / 100 /\ exists c, snd p = [" "%char; c] /\ [c] = int_str (Z.abs k)) [-3; -1; 0; 1; 3]%Z (lg_scale lg).
Proof.
  intros measures range lg E. unfold make_legend in E. destruct (mapM line_style measures) as [st|]; [|discriminate]. cbn [bind] in E.
  destruct (Hartmann_bins _) as [[[[major labels] xm] minor]|]; [|discriminate]. cbn [bind] in E.
  assert (Q : lg = match Ok lg with Ok l => l | Err _ => mkLegend [] [] 0 [] end) by reflexivity. rewrite <- E in Q. subst lg. cbn [lg_rows lg_trials lg_scale].
  destruct C77_scale as (_ & _ & O1 & _). rewrite O1. split; [|split; [|split]].
  - assert (Ln : length (map (fun i => (INR (length measures) / 2 - INR i) * 1 * (13 / 10)) (seq 0 (length measures))) = length measures) by now rewrite map_length, seq_length.
    revert Ln. generalize (map (fun i => (INR (length measures) / 2 - INR i) * 1 * (13 / 10)) (seq 0 (length measures))). clear. induction measures as [|m l IH]; intros [|y ys] H; try discriminate; [reflexivity|]. cbn [combine map fst]. f_equal. apply IH. now injection H.
  - intros i m y H.
    assert (G : forall (l : list str) a i, nth_error (combine l (map (fun i => (INR (length measures) / 2 - INR i) * 1 * (13 / 10)) (seq a (length l)))) i = Some (m, y) -> y = 13 / 10 * (INR (length measures) / 2 - INR (a + i))).
    { induction l as [|x l IH]; intros a j K; [destruct j; discriminate|]. cbn [length seq map combine] in K. destruct j as [|j]; cbn [nth_error] in K.
      - injection K as _ <-. rewrite Nat.add_0_r. field.
      - apply IH in K. rewrite K. now rewrite Nat.add_succ_comm. }
    exact (G measures 0%nat i H).
  - field.
  - cbn [map]. repeat constructor; cbn [fst snd]; rewrite ?level_scaling; try lra; eexists; split; reflexivity.
Qed.
Print Assumptions C97_rows.

(** the strips are those of the visible plots of data that have results, drawn from the last plot to the first; the one drawn first, and only
    that, has the legend *)
Theorem C97_strips :
  forall plots, strips false plots = Ok [] /\
  forall l, strips true plots = Ok l ->
    Forall2 (fun p s => exists t, pl_table p = Some t /\ make_strip t = Ok (fst s))
            (filter (fun p => pl_data p && negb (pl_hidden p) && match pl_table p with Some (_ :: _) => true | _ => false end) (rev plots)) l /\
    forall i s, nth_error l i = Some s -> match i with O => exists lg, snd s = Some lg /\ make_legend (all_measures plots) (st_range (fst s)) = Ok lg | _ => snd s = None end.
Proof.
  intros plots. split; [reflexivity|]. intros l E. unfold strips in E.
  assert (FE : filter (fun p => has_table p && negb (pl_hidden p)) (rev plots) = filter (fun p => pl_data p && negb (pl_hidden p) && match pl_table p with Some (_ :: _) => true | _ => false end) (rev plots)).
  { apply filter_ext. intros p. unfold has_table. destruct (pl_data p), (pl_hidden p), (match pl_table p with Some (_ :: _) => true | _ => false end); reflexivity. }
  rewrite FE in E.
  set (ps := filter _ (rev plots)) in *.
  assert (HP : Forall (fun p => exists t, pl_table p = Some t) ps).
  { apply Forall_forall. intros p I. apply filter_In in I as [_ I]. apply andb_true_iff in I as [_ I]. destruct (pl_table p) as [t|]; [now exists t|discriminate]. }
  assert (G : forall ps, Forall (fun p => exists t, pl_table p = Some t) ps -> forall drawn l, draw_strips (all_measures plots) drawn (map table_of ps) = Ok l ->
     Forall2 (fun p s => exists t, pl_table p = Some t /\ make_strip t = Ok (fst s)) ps l /\
     forall i s, nth_error l i = Some s -> if drawn then snd s = None else match i with O => exists lg, snd s = Some lg /\ make_legend (all_measures plots) (st_range (fst s)) = Ok lg | _ => snd s = None end).
  { clear. induction 1 as [|p ps (t & ET) F IH]; intros drawn l E; cbn [map draw_strips] in E.
    - apply (f_equal (fun r => match r with Ok y => y | Err _ => [] end)) in E. subst l. split; [constructor|]. intros [|i] s K; discriminate.
    - unfold table_of at 1 in E. rewrite ET in E. destruct (make_strip t) as [st|] eqn:ES; [|discriminate]. cbn [bind] in E.
      assert (EL : exists lg, (if drawn then Ok None else do! l <- make_legend (all_measures plots) (st_range st); Ok (Some l)) = Ok lg) by (destruct (if drawn then _ else _); [eexists; reflexivity|discriminate]).
      destruct EL as (lg & EL). rewrite EL in E. cbn [bind] in E.
      destruct (draw_strips (all_measures plots) true (map table_of ps)) as [r|] eqn:ER; [|discriminate]. cbn [bind] in E.
      apply (f_equal (fun r => match r with Ok y => y | Err _ => [] end)) in E. subst l. destruct (IH true r ER) as [I1 I2]. split.
      + constructor; [|exact I1]. exists t. split; [exact ET|exact ES].
      + intros [|i] s K; cbn [nth_error] in K.
        * injection K as <-. cbn [snd fst]. destruct drawn; [injection EL as <-; reflexivity|]. destruct (make_legend (all_measures plots) (st_range st)) as [x|]; [|discriminate]. cbn [bind] in EL. injection EL as <-. exists x. auto.
        * specialize (I2 i s K). cbn in I2. destruct drawn; exact I2. }
  exact (G ps HP false l E).
Qed.
Print Assumptions C97_strips.
(** all measures of the plots of data appear in the legend, each once *)
Theorem C97_measures :
  forall plots m, (In m (all_measures plots) <-> m <> L "bin" /\ exists p t v, In p plots /\ pl_data p = true /\ pl_table p = Some t /\ In (m, v) t) /\ NoDup (all_measures plots).
Proof.
  intros plots m. unfold all_measures. set (l := filter _ (flat_map _ _)). split.
  - transitivity (In m l).
    { rewrite <- (proj2 (dedup_spec l) m). split; apply Permutation_in; [symmetry|]; apply sort_perm. }
    unfold l. rewrite filter_In, in_flat_map. destruct (seqb_spec m (L "bin")) as [->|N].
    + cbn [negb]. split; intros [A B]; [discriminate B|now contradiction A].
    + cbn [negb]. split.
      * intros [(p & I & J) _]. apply filter_In in I as [I H]. unfold has_table in H. apply andb_true_iff in H as [H1 H2]. apply in_map_iff in J as ([k v] & <- & J). split; [exact N|]. unfold table_of in J. destruct (pl_table p) as [t|] eqn:ET; [|destruct J]. exists p, t, v. auto.
      * intros (_ & p & t & v & I & D & ET & J). split; [|reflexivity]. exists p. split; [apply filter_In; split; [exact I|]; unfold has_table; rewrite D, ET; destruct t; [destruct J|reflexivity]|].
        unfold table_of. rewrite ET. apply in_map_iff. exists (m, v). auto.
  - apply (Permutation_NoDup (sort_perm _ _)). apply (proj1 (dedup_spec l)).
Qed.
Print Assumptions C97_measures.

(** two bins for one measure, one of them for the other, written for a.scc and drawn from there *)
Definition two_bins : store := [(L "sdaa", mkRecord 1 [(bin_label 0, [1]); (bin_label 1, [2])]); (L "m2cnd", mkRecord 1 [(bin_label 1, [3])])].
Definition some_stat (m b : str) : sigma := if seqb m (L "sdaa") then SNum 2 else SNum (-1).
Example C97_hypotheses_met :
  store_ok two_bins /\ root2_bins two_bins /\ two_bins <> [] /\ version_ok (L "3.6.10") /\ source_ok (L "a.scc") /\
  ra_locations (L "a.scc") = Ok [L "a_ra.txt"; L "a_ra.txt"] /\
  (exists lg, make_legend [L "m2cnd"; L "sdaa"] (log10 (edge 0), log10 (edge 2)) = Ok lg) /\
  (exists fs', write_ra [] (L "a_ra.txt") (L "3.6.10") (L "a.scc") some_stat two_bins = Ok fs' /\ file_get fs' (L "a_ra.txt") <> None).
Proof.
  assert (N : bin_label 0 <> bin_label 1) by (intros E; apply label_inj in E; lia).
  assert (SO : store_ok two_bins).
  { split; [cbn; constructor; [intros [E|[]]; discriminate E|]; constructor; [intros []|constructor]|].
    constructor; [|constructor; [|constructor]]; (split; [cbn; auto|]); (split; [cbn; lia|]); (split; [discriminate|]).
    - split; [cbn; constructor; [intros [E|[]]; congruence|]; constructor; [intros []|constructor]|]. repeat constructor; try apply label_name.
    - split; [cbn; constructor; [intros []|constructor]|]. repeat constructor; try apply label_name. }
  split; [exact SO|]. split. { repeat constructor; cbn [fst]; eexists; (split; [|reflexivity]); cbn; lia. }
  split; [discriminate|]. split; [split; [discriminate|repeat (constructor; [first [left; reflexivity|right; reflexivity]|]); constructor]|]. split; [split; [repeat constructor|intros I; cbn in I; repeat (destruct I as [I|I]; [discriminate I|]); destruct I]|].
  split; [vm_compute; reflexivity|]. split.
  - apply (C97_legend_possible [L "m2cnd"; L "sdaa"] 0 2); [constructor; [now left|constructor; [now right|constructor]]|]. exists 0%Z. lia.
  - destruct (write_ok (L "3.6.10") (L "a.scc") some_stat two_bins SO) as (bins & _ & E). unfold write_ra. rewrite E. cbn [bind]. eexists. split; [reflexivity|].
    unfold write_textfile. rewrite file_get_set. discriminate.
Qed.
