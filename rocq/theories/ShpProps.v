(** C99: converting a spatial count to shapefiles keeps its craters, its outline and its radius. *)
From Coq Require Import String Ascii List Arith ZArith Reals Bool Lia Lra.
From Verif Require Import Base NumModel NumLemmas StrModel StrSpec StrProofs StrProofs2 StrProps CliModel CliProofs CliProofs2 FmtModel FmtSpec FmtProofs TsModel
  SccModel SccProofs3 MapModel MapSpec MapProofs MapProps MainModel MainProofs MainProps ShpModel ShpSpec ShpProofs.
Import ListNotations.
Local Open Scope R_scope.

(** a row keeps the diameter and position of a crater; its shape is a closed ring of 101 vertices, which an equal-area projection centred nearby shows as a circle of that diameter around that position *)
Definition keeps_crater (proj : Z * Z -> projection) (c : crater) (r : crater_row) : Prop :=
  row_diam r = c_diam c /\ row_lon r = c_lon c /\ row_lat r = c_lat c /\ length (row_rim r) = 101%nat /\ hd (0, 0) (row_rim r) = last (row_rim r) (0, 0) /\
  exists o : Z * Z, Rabs (c_lon c - IZR (fst o)) <= 5 / 2 /\ Rabs (c_lat c - IZR (snd o)) <= 5 / 2 /\
    forall j, (j <= 100)%nat ->
      let m := snd (proj o) (c_lon c, c_lat c) in
      snd (proj o) (nth j (row_rim r) (0, 0)) = (fst m + c_diam c * 1000 / 2 * cos (2 * PI * INR j / 100), snd m + c_diam c * 1000 / 2 * sin (2 * PI * INR j / 100)).
Lemma row_keeps proj c : (forall o q, snd (proj o) (fst (proj o) q) = q) -> keeps_crater proj c (row_of proj c).
Proof.
  intros IV. pose proof (C91_rims proj 100 [(c_diam c, (c_lon c, c_lat c))] ltac:(lia) IV) as Q. unfold find_rims in Q. rewrite rims_cache in Q by constructor.
  inversion Q as [|x y l l' (A & B & o & C & D & _ & F) _ X Y]; subst. split; [reflexivity|]. split; [reflexivity|]. split; [reflexivity|]. split; [exact A|]. split; [exact B|].
  exists o. split; [exact C|]. split; [exact D|]. intros j Hj. specialize (F j Hj). cbv zeta in F. cbn [fst snd] in F. replace (INR 100) with 100 in F by (cbn; lra). exact F.
Qed.

(** An area of one part: two shapefiles, each with its projection and style; a row for each crater, in order, and one shape, whose rings are the exterior and the holes in order *)
Theorem C99_shapefiles_written :
  forall proj listing s d m e hs, directory d -> plain_name m -> 0 <= sp_radius s -> (forall o q, snd (proj o) (fst (proj o) q) = q) ->
    sp_polygons s = [(e, hs)] -> (forall r, In r (e :: hs) -> same_outline r (listing r)) ->
    exists rows rings wkt,
      write_shapefiles proj listing s (d ++ m ++ L ".shp") =
        ([(d ++ m ++ L "_CRATER.shp", Craters rows); (d ++ m ++ L "_CRATER.prj", Projection wkt); (d ++ m ++ L "_CRATER.qml", Style (L "_CRATER.qml"));
          (d ++ m ++ L "_AREA.shp", Outlines [(L "Area_1", rings)]); (d ++ m ++ L "_AREA.prj", Projection wkt); (d ++ m ++ L "_AREA.qml", Style (L "_AREA.qml"))], None) /\
      Forall2 (keeps_crater proj) (sp_craters s) rows /\ Forall2 same_outline (e :: hs) rings.
Proof.
  intros proj listing s d m e hs D P R0 IV E LS. exists (map (row_of proj) (sp_craters s)), (map listing (e :: hs)), (wkt_of (dec_str (metres (sp_radius s)))).
  rewrite write_shapefiles_ok by assumption. rewrite E. split; [reflexivity|]. split.
  - induction (sp_craters s) as [|c l IH]; [constructor|]. constructor; [now apply row_keeps|exact IH].
  - induction (e :: hs) as [|r l IH]; [constructor|]. constructor; [apply LS; now left|]. apply IH. intros x I. apply LS. now right.
Qed.

Lemma mapM_length {A B} (f : A -> res B) l : forall r, mapM f l = Ok r -> length r = length l.
Proof.
  induction l as [|a l IH]; cbn [mapM]; intros r H; [now injection H as <-|]. destruct (f a); [|discriminate]. cbn [bind] in H. destruct (mapM f l) as [q|]; [|discriminate]. cbn [bind] in H. injection H as <-. cbn. f_equal. now apply IH.
Qed.
(** ** Read again *)
(** the library's polygon depends on the outlines, not on where and in which direction they are listed *)
Definition sees_outlines {P} (g : geometry P) : Prop :=
  forall r s hs ks, same_outline r s -> Forall2 same_outline hs ks -> polygon_of g s ks = polygon_of g r hs.
Lemma neq_names d m a b : a <> b -> seqb (d ++ m ++ a) (d ++ m ++ b) = false.
Proof. intros N. destruct (seqb_spec (d ++ m ++ a) (d ++ m ++ b)) as [E|]; [|reflexivity]. apply app_inv_head, app_inv_head in E. contradiction. Qed.
Lemma same_name n : seqb n n = true. Proof. destruct (seqb_spec n n); [reflexivity|contradiction]. Qed.
Ltac other := unfold content; cbn [find fst]; repeat first [rewrite same_name | rewrite neq_names by discriminate]; cbn [snd].
Section Load.
  Variables (d m : str) (rows : list crater_row) (rings : list ring) (z : Z) (q1 q2 : shp_content).
  Let fs := [(d ++ m ++ L "_CRATER.shp", Craters rows); (d ++ m ++ L "_CRATER.prj", Projection (wkt_of (dec_str z))); (d ++ m ++ L "_CRATER.qml", q1);
          (d ++ m ++ L "_AREA.shp", Outlines [(L "Area_1", rings)]); (d ++ m ++ L "_AREA.prj", Projection (wkt_of (dec_str z))); (d ++ m ++ L "_AREA.qml", q2)].
  Lemma load_craters : directory d -> plain_name m -> (0 <= z)%Z -> load_shp fs (d ++ m ++ L "_CRATER.shp") = Ok (mkShapefile (IZR z / 1000) None (map (fun r => [row_rim r]) rows)).
  Proof.
    intros D P H. unfold load_shp. change (L "_CRATER.shp") with (L "_CRATER" ++ L ".shp"). rewrite (app_assoc m), (beside d _ _ D (plain_tag m _ P crater_tag_word)).
    cbn [bind]. rewrite <- !app_assoc. change (L "_CRATER" ++ L ".prj") with (L "_CRATER.prj"). change (L "_CRATER" ++ L ".shp") with (L "_CRATER.shp").
    unfold fs. other. rewrite prj_radius_ok by exact H. reflexivity.
  Qed.
  Lemma load_areas : directory d -> plain_name m -> (0 <= z)%Z -> load_shp fs (d ++ m ++ L "_AREA.shp") = Ok (mkShapefile (IZR z / 1000) None [rings]).
  Proof.
    intros D P H. unfold load_shp. change (L "_AREA.shp") with (L "_AREA" ++ L ".shp"). rewrite (app_assoc m), (beside d _ _ D (plain_tag m _ P area_tag_word)).
    cbn [bind]. rewrite <- !app_assoc. change (L "_AREA" ++ L ".prj") with (L "_AREA.prj"). change (L "_AREA" ++ L ".shp") with (L "_AREA.shp").
    unfold fs. other. rewrite prj_radius_ok by exact H. reflexivity.
  Qed.
End Load.
Lemma area_of_craters d m : directory d -> plain_name m -> crater_free m -> area_file (d ++ m ++ L "_CRATER.shp") = Ok (d ++ m ++ L "_AREA.shp").
Proof.
  intros D P F. unfold area_file. change (d ++ m ++ L "_CRATER.shp") with (d ++ m ++ L "_CRATER" ++ "."%char :: L "shp"). rewrite (app_assoc m).
  pose proof (plain_tag m _ P crater_tag_word) as PM. pose proof shp_word as SW.
  known D PM SW (@nil ascii). cbn [bind].
  assert (E1 : flat_map (piece d (m ++ L "_CRATER") ("."%char :: L "shp") [] []) (L "n") = m ++ L "_CRATER") by (cbn; now rewrite app_nil_r). rewrite E1, (area_tag m F).
  known D PM SW (m ++ L "_AREA"). f_equal.
  assert (E2 : forall i, flat_map (piece d (m ++ L "_CRATER") ("."%char :: L "shp") i []) (L "p1e") = d ++ i ++ L ".shp") by (intros i; cbn; reflexivity).
  rewrite E2, <- app_assoc. reflexivity.
Qed.

(** The files written, when read again: the outlines are found beside the craters, the area is the library's polygon of the same outlines, and there is one shape for each crater: its rim.
    The radius is that of the count to the nearest metre. *)
Theorem C99_read_again :
  forall P (g : geometry P) proj listing s d m e hs, sees_outlines g -> directory d -> plain_name m -> crater_free m -> 0 <= sp_radius s ->
    (forall o q, snd (proj o) (fst (proj o) q) = q) -> sp_polygons s = [(e, hs)] -> (forall r, In r (e :: hs) -> same_outline r (listing r)) ->
    exists craters area,
      load_count g (fst (write_shapefiles proj listing s (d ++ m ++ L ".shp"))) (d ++ m ++ L "_CRATER.shp") = read_shapefiles g craters area /\
      shp_area g (read_shp area) = multipolygon_of g [polygon_of g e hs] /\
      Forall2 (fun c shape => exists r, shape = [row_rim r] /\ keeps_crater proj c r) (sp_craters s) (read_shp craters) /\
      sf_radius craters = sf_radius area /\ Rabs (sf_radius area - sp_radius s) <= / 2000 /\
      (forall k : Z, sp_radius s = IZR k / 1000 -> sf_radius area = sp_radius s) /\
      forall k, read_shapefiles g craters area = Ok k ->
        sc_polygon k = multipolygon_of g [polygon_of g e hs] /\ sc_radius k = sf_radius area /\ sc_area k = area_of g (multipolygon_of g [polygon_of g e hs]) (sf_radius area) /\
        (length (sc_craters k) <= length (sp_craters s))%nat.
Proof.
  intros P g proj listing s d m e hs SO D PN CF R0 IV E LS.
  set (z := metres (sp_radius s)). set (rows := map (row_of proj) (sp_craters s)). set (rings := map listing (e :: hs)).
  exists (mkShapefile (IZR z / 1000) None (map (fun r => [row_rim r]) rows)), (mkShapefile (IZR z / 1000) None [rings]).
  assert (Z0 : (0 <= z)%Z) by now apply metres_nonneg.
  assert (AR : shp_area g [rings] = multipolygon_of g [polygon_of g e hs]).
  { unfold shp_area, rings. cbn [map hd tl]. f_equal. f_equal. apply SO; [apply LS; now left|].
    assert (LS' : forall r, In r hs -> same_outline r (listing r)) by (intros; apply LS; now right). clear -LS'. induction hs as [|h hs IH]; [constructor|].
    cbn [map]. constructor; [apply LS'; now left|]. apply IH. intros r I. apply LS'. now right. }
  split.
  { rewrite write_shapefiles_ok by assumption. rewrite E. cbn [polygon_to_pts fst]. unfold load_count. rewrite area_of_craters by assumption. cbn [bind].
    unfold crater_files. cbn [app].
    change (outline_rows [listing e :: map listing hs]) with [(L "Area_1", rings)]. fold rows. fold z.
    rewrite load_craters, load_areas by assumption. reflexivity. }
  cbn [read_shp sf_projection sf_shapes sf_radius]. split; [exact AR|]. split.
  { unfold rows. rewrite map_map. clear -IV. induction (sp_craters s) as [|c l IH]; [constructor|]. cbn [map]. constructor; [|exact IH].
    exists (row_of proj c). split; [reflexivity|now apply row_keeps]. }
  split; [reflexivity|]. split.
  { pose proof (round_even_dist (sp_radius s * 1000)) as Q. fold (metres (sp_radius s)) in Q. fold z in Q. apply Rabs_le_inv in Q. apply Rabs_le. lra. }
  split.
  { intros k K. pose proof (round_even_dist (sp_radius s * 1000)) as Q. fold (metres (sp_radius s)) in Q. fold z in Q. rewrite K in Q |- *.
    replace (IZR k / 1000 * 1000) with (IZR k) in Q by field. rewrite <- minus_IZR, <- abs_IZR in Q.
    assert (z = k) as ->; [|reflexivity]. destruct (Z.eq_dec (z - k) 0) as [|N]; [lia|]. exfalso. assert (1 <= Z.abs (z - k))%Z by lia. apply IZR_le in H. lra. }
  intros k K. unfold read_shapefiles in K. cbn [sf_radius read_shp sf_projection sf_shapes] in K.
  destruct (Reqb_spec (IZR z / 1000) (IZR z / 1000)) as [_|N]; [|contradiction]. cbn [negb] in K. rewrite AR in K.
  destruct (mapM _ _) as [ks|x] eqn:EM in K; [|discriminate]. cbn [bind] in K. injection K as <-. cbn [sc_polygon sc_radius sc_area sc_craters].
  repeat split; auto. apply mapM_length in EM. unfold rows in EM. rewrite !map_length in EM. rewrite <- EM. clear. induction ks as [|k ks IH]; [cbn; lia|]. cbn [filter length]. destruct (Rltb 0 (k_frac k)); cbn [length]; lia.
Qed.

(** An area of several parts is not converted: the craters are written, the file of the outlines is left incomplete and without projection, and what was written cannot be read. *)
Theorem C99_several_parts_refuted :
  forall P (g : geometry P) proj listing s d m, directory d -> plain_name m -> crater_free m -> 0 <= sp_radius s -> (1 < length (sp_polygons s))%nat ->
    let w := write_shapefiles proj listing s (d ++ m ++ L ".shp") in
    snd w = Some AttributeError /\ map fst (fst w) = map (fun x => d ++ m ++ L x) ["_CRATER.shp"; "_CRATER.prj"; "_CRATER.qml"; "_AREA.shp"]%string /\
    load_count g (fst w) (d ++ m ++ L "_CRATER.shp") = Err FileNotFound.
Proof.
  intros P g proj listing s d m D PN CF R0 LN. cbv zeta. rewrite write_shapefiles_ok by assumption.
  assert (E : polygon_to_pts listing (sp_polygons s) = Err AttributeError) by (destruct (sp_polygons s) as [|(a & b) [|p l]]; cbn in LN; try lia; reflexivity).
  rewrite E. cbn [fst snd]. split; [reflexivity|]. split; [reflexivity|]. unfold load_count. rewrite area_of_craters by assumption. cbn [bind].
  set (fs := crater_files proj s d m ++ [(d ++ m ++ L "_AREA.shp", Opened)]).
  assert (LC : exists x, load_shp fs (d ++ m ++ L "_CRATER.shp") = Ok x).
  { unfold load_shp. change (L "_CRATER.shp") with (L "_CRATER" ++ L ".shp"). rewrite (app_assoc m (L "_CRATER") (L ".shp")), (beside d _ _ D (plain_tag m _ PN crater_tag_word)).
    cbn [bind]. rewrite <- !app_assoc. change (L "_CRATER" ++ L ".prj") with (L "_CRATER.prj"). change (L "_CRATER" ++ L ".shp") with (L "_CRATER.shp").
    unfold fs, crater_files. cbn [app]. other. rewrite prj_radius_ok by now apply metres_nonneg. cbn [bind stored_shapes]. eexists. reflexivity. }
  destruct LC as (x & ->). cbn [bind].
  assert (LA : load_shp fs (d ++ m ++ L "_AREA.shp") = Err FileNotFound).
  { unfold load_shp. change (L "_AREA.shp") with (L "_AREA" ++ L ".shp"). rewrite (app_assoc m (L "_AREA") (L ".shp")), (beside d _ _ D (plain_tag m _ PN area_tag_word)).
    cbn [bind]. rewrite <- !app_assoc. change (L "_AREA" ++ L ".prj") with (L "_AREA.prj"). unfold fs, crater_files. cbn [app]. other. reflexivity. }
  now rewrite LA.
Qed.

(** ** A case: a square with a hole, listed from another vertex *)
Lemma outline_members r s : same_outline r s -> forall p, In p r <-> In p s.
Proof.
  assert (CL : forall x o, closes x o -> forall p, In p x <-> In p o).
  { intros x o (p & t & -> & ->) q. cbn. rewrite in_app_iff. cbn. tauto. }
  assert (OP : forall x o, opens x o -> forall p, In p x <-> In p o).
  { intros x o [C|(-> & _)] p; [now apply CL|tauto]. }
  intros (a & b & O & C) p. rewrite (OP _ _ O). rewrite in_app_iff. destruct C as [C|C]; rewrite (CL _ _ C); rewrite <- ?in_rev; rewrite in_app_iff; tauto.
Qed.
Definition widest (r : ring) : R := fold_right (fun p => Rmax (fst p)) 0 r.
Lemma widest_le r s : (forall p, In p r -> In p s) -> widest r <= widest s.
Proof.
  assert (G : forall l p, In p l -> fst p <= widest l).
  { induction l as [|q l IH]; intros p []; cbn; [subst; apply Rmax_l|]. eapply Rle_trans; [now apply IH|apply Rmax_r]. }
  assert (N : forall l, 0 <= widest l) by (induction l as [|q l IH]; cbn; [lra|eapply Rle_trans; [exact IH|apply Rmax_r]]).
  induction r as [|q r IH]; intros H; [apply N|]. cbn. apply Rmax_lub; [apply G, H; now left|apply IH; intros; apply H; now right].
Qed.
Definition plain_geometry : geometry R :=
  mkGeometry R (fun r _ => widest r) (fun l => fold_right Rplus 0 l) (fun _ r => 2 * PI * r ^ 2) (fun _ => (1, 2)) (fun _ _ => true) (fun c _ => c) (fun _ _ => false).
Definition wrapped : Z * Z -> projection := fun _ => ((fun q => (fst q / 1000, snd q / 1000)), (fun q => (fst q * 1000, snd q * 1000))).
Definition square : ring := [(0, 0); (4, 0); (4, 4); (0, 4)].
Definition hole : ring := [(1, 1); (2, 1); (2, 2); (1, 1)].
Definition square_again : ring := [(4, 0); (4, 4); (0, 4); (0, 0); (4, 0)].
Definition hole_again : ring := [(2, 2); (2, 1); (1, 1); (2, 2)].
Definition relisted (r : ring) : ring := if Nat.eqb (length (filter (fun p => Reqb (fst p) 4) r)) 0 then hole_again else square_again.
Definition two_craters : spatial := mkSpatial [mkCrater 1 1 1 3; mkCrater 2 1 3 1] 3396 [(square, [hole])].
Lemma square_same : same_outline square (relisted square).
Proof.
  unfold relisted, square. cbn [filter fst].
  destruct (Reqb_spec 0 4); [lra|]. destruct (Reqb_spec 4 4); [|lra]. cbn [length Nat.eqb].
  exists [(0, 0)], [(4, 0); (4, 4); (0, 4)]. split.
  - right. split; [reflexivity|]. intros (q & p & t & -> & E). assert (last (square) (0, 0) = p) by (unfold square; rewrite E; apply last_last). cbn in H. subst p. injection E as Q _. lra.
  - left. exists (4, 0), [(4, 4); (0, 4); (0, 0)]. split; reflexivity.
Qed.
Lemma hole_same : same_outline hole (relisted hole).
Proof.
  unfold relisted, hole. cbn [filter fst]. destruct (Reqb_spec 1 4); [lra|]. destruct (Reqb_spec 2 4); [lra|]. cbn [length Nat.eqb].
  exists [], [(1, 1); (2, 1); (2, 2)]. split.
  - left. exists (1, 1), [(2, 1); (2, 2)]. split; reflexivity.
  - right. exists (2, 2), [(2, 1); (1, 1)]. split; reflexivity.
Qed.
Example C99_hypotheses_met :
  sees_outlines plain_geometry /\ directory (L "maps/") /\ plain_name (L "unit 2") /\ crater_free (L "unit 2") /\ 0 <= sp_radius two_craters /\
  (forall o q, snd (wrapped o) (fst (wrapped o) q) = q) /\ sp_polygons two_craters = [(square, [hole])] /\ (forall r, In r [square; hole] -> same_outline r (relisted r)) /\
  sp_radius two_craters = IZR 3396000 / 1000 /\
  exists k, load_count plain_geometry (fst (write_shapefiles wrapped relisted two_craters (L "maps/unit 2.shp"))) (L "maps/unit 2_CRATER.shp") = Ok k /\
    sc_radius k = 3396 /\ sc_polygon k = 4 /\ length (sc_craters k) = 2%nat.
Proof.
  assert (H1 : sees_outlines plain_geometry).
  { intros r s hs ks S _. cbn. pose proof (outline_members _ _ S) as M. apply Rle_antisym; apply widest_le; intros p; apply M. }
  assert (H2 : directory (L "maps/")) by (split; [unfold no_newline; noins|right; exists (L "maps"), "/"%char; split; [reflexivity|now left]]).
  assert (H3 : plain_name (L "unit 2")) by (repeat (constructor; [first [left; reflexivity|right; cbn; tauto]|]); constructor).
  assert (H4 : crater_free (L "unit 2")).
  { intros a b E. assert (I : In "R"%char (L "unit 2")) by (rewrite E; apply in_or_app; right; cbn; tauto). revert I. noins. }
  assert (H5 : 0 <= sp_radius two_craters) by (cbn; lra).
  assert (H6 : forall o q, snd (wrapped o) (fst (wrapped o) q) = q) by (intros o (x & y); cbn; f_equal; field).
  assert (H7 : forall r, In r [square; hole] -> same_outline r (relisted r)) by (intros r [<-|[<-|[]]]; [exact square_same|exact hole_same]).
  assert (H8 : sp_radius two_craters = IZR 3396000 / 1000) by (cbn; lra).
  split; [exact H1|]. split; [exact H2|]. split; [exact H3|]. split; [exact H4|]. split; [exact H5|]. split; [exact H6|]. split; [reflexivity|]. split; [exact H7|]. split; [exact H8|].
  destruct (C99_read_again R plain_geometry wrapped relisted two_craters (L "maps/") (L "unit 2") square [hole] H1 H2 H3 H4 H5 H6 eq_refl H7) as (cr & ar & A & B & C & D & _ & E & K).
  change (L "maps/unit 2.shp") with (L "maps/" ++ L "unit 2" ++ L ".shp"). change (L "maps/unit 2_CRATER.shp") with (L "maps/" ++ L "unit 2" ++ L "_CRATER.shp"). rewrite A.
  specialize (E _ H8). cbn in E.
  assert (Q : exists k, read_shapefiles plain_geometry cr ar = Ok k /\ length (sc_craters k) = 2%nat).
  { unfold read_shapefiles. rewrite D. destruct (Reqb_spec (sf_radius ar) (sf_radius ar)) as [_|N]; [|contradiction]. cbn [negb].
    inversion C as [|c1 s1 l1 l2 _ C2 X Y]; subst. inversion C2 as [|c2 s2 l3 l4 _ C3 X2 Y2]; subst. inversion C3; subst. cbn [mapM].
    assert (SC : forall p s, exists k, shp_crater plain_geometry (sf_radius ar) p s = Ok k /\ k_frac k = 1).
    { intros p s. unfold shp_crater. cbn [polygon_of area_of centroid_of covered_by plain_geometry]. unfold cap_diameter.
      replace (1 - 2 * PI * sf_radius ar ^ 2 / (2 * PI * sf_radius ar ^ 2)) with 0 by (rewrite E; field; pose proof PI_RGT_0; lra).
      rewrite !Rleb_true by lra. cbn [andb bind]. eexists. split; reflexivity. }
    destruct (SC (shp_area plain_geometry (read_shp ar)) s1) as (k1 & -> & F1). destruct (SC (shp_area plain_geometry (read_shp ar)) s2) as (k2 & -> & F2). cbn [bind].
    eexists. split; [reflexivity|]. cbn [sc_craters filter]. rewrite F1, F2. rewrite !Rltb_true by lra. reflexivity. }
  destruct Q as (k & Q & LN). exists k. split; [exact Q|]. destruct (K k Q) as (K1 & K2 & _). split; [rewrite K2; exact E|]. split; [|exact LN].
  rewrite K1. cbn. unfold Rmax. repeat destruct Rle_dec; lra.
Qed.
Definition two_parts : spatial := mkSpatial [mkCrater 1 1 1 3] 3396 [(square, [hole]); ([(5, 5); (6, 5); (6, 6)], [])].
Example C99_several_parts_met : directory (L "maps/") /\ plain_name (L "unit 2") /\ crater_free (L "unit 2") /\ 0 <= sp_radius two_parts /\ (1 < length (sp_polygons two_parts))%nat.
Proof. destruct C99_hypotheses_met as (_ & A & B & C & _). split; [exact A|]. split; [exact B|]. split; [exact C|]. split; [cbn; lra|cbn; lia]. Qed.

Print Assumptions C99_shapefiles_written.
Print Assumptions C99_read_again.
Print Assumptions C99_several_parts_refuted.
