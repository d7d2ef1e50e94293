(** C88-C92: spatial counts from shapefiles, limits, crater rims and the map. *)
From Coq Require Import String Ascii List ZArith Reals Bool Lra Lia Ratan.
From Verif Require Import Base NumModel NumLemmas StrModel CliModel FmtModel FmtProofs PlotModel PlotProofs2 PlotProps CountProofs2 IoProofs SccModel MapModel MapSpec MapProofs.
Import ListNotations.
Local Open Scope R_scope.

(** ** C88: the craters of a shapefile *)
(** the library measures areas on the sphere: not negative, at most the whole, and no greater for a part *)
Definition measures {P} (g : geometry P) (r : R) : Prop :=
  forall c p, 0 <= area_of g c r <= 4 * PI * r ^ 2 /\ 0 <= area_of g (intersection_of g c p) r <= area_of g c r.
Definition outline {P} (g : geometry P) (s : list ring) : P := polygon_of g (concat s) [].
(** a crater counts if it is covered by the area, or overlaps it *)
Definition counts {P} (g : geometry P) (r : R) (p : P) (s : list ring) : Prop :=
  covered_by g (outline g s) p = true \/ 0 < area_of g (intersection_of g (outline g s) p) r.
(** a crater is described by the diameter of the cap of its area, its centroid, and the fraction inside the area: 1 if it is
    covered, else, to 1/99, the part of the diameter of a disc at which the cut-off segment has the same part of its area *)
Definition describes {P} (g : geometry P) (r : R) (p : P) (s : list ring) (k : counted) : Prop :=
  let c := outline g s in
  cap_area r (k_diam k) = area_of g c r /\ 0 < k_diam k <= 2 * PI * r /\
  (k_lon k, k_lat k) = centroid_of g c /\
  0 < k_frac k <= 1 /\
  (covered_by g c p = true -> k_frac k = 1) /\
  (covered_by g c p = false -> forall x, 0 <= x <= 1 ->
     segment_area x = area_of g (intersection_of g c p) r / area_of g c r -> Rabs (k_frac k - x) <= 1 / 99).

Lemma shp_crater_ok {P} (g : geometry P) r p s : 0 < r -> measures g r -> 0 < area_of g (outline g s) r ->
  exists k, shp_crater g r p s = Ok k /\ 0 <= k_frac k <= 1 /\ (0 < k_frac k <-> counts g r p s) /\ (0 < k_frac k -> describes g r p s k).
Proof.
  intros Hr M HA. unfold shp_crater, counts, describes. fold (outline g s). set (c := outline g s) in *.
  destruct (M c p) as (MA & MI). destruct (cap_diameter_ok r (area_of g c r) Hr HA) as (d & E & C & B); [lra|]. cbv zeta. rewrite E. cbn [bind].
  destruct (centroid_of g c) as (x & y). destruct (covered_by g c p) eqn:V.
  - exists (mkCounted d 1 x y). cbn [k_diam k_frac k_lon k_lat]. split; [reflexivity|]. split; [lra|]. split; [split; [auto|intros; lra]|]. intros _.
    repeat split; auto; try lra; try discriminate.
  - rewrite (Reqb_false (area_of g c r) 0) by lra. set (q := area_of g (intersection_of g c p) r / area_of g c r).
    destruct C56_inverse as (AT & RG & MO & NEAR). destruct (RG q) as (f & F & FB). rewrite F. cbn [bind].
    exists (mkCounted d f x y). cbn [k_diam k_frac k_lon k_lat]. split; [reflexivity|]. split; [exact FB|].
    assert (PQ : 0 < q <-> 0 < area_of g (intersection_of g c p) r).
    { unfold q. split; intros H; [|now apply Rdiv_lt_0_compat]. destruct MI as ([L|L] & _); [exact L|]. rewrite <- L in H. unfold Rdiv in H. rewrite Rmult_0_l in H. lra. }
    split; [split|].
    + intros H. right. apply PQ. destruct (Rle_lt_or_eq_dec 0 q) as [L|L]; [|exact L|].
      * unfold q. apply Rmult_le_pos; [apply MI|]. now apply Rlt_le, Rinv_0_lt_compat.
      * exfalso. rewrite <- L, af2lf_zero in F. injection F as F. lra.
    + intros [H|H]; [discriminate|]. apply PQ in H. exact (af2lf_pos q f H F).
    + intros H. split; [exact C|]. split; [exact B|]. split; [reflexivity|]. split; [lra|]. split; [discriminate|]. intros _ z Z EZ. fold q in EZ.
      refine (NEAR z f Z _). rewrite C56_segment by exact Z. unfold segment_area in EZ. now rewrite EZ.
Qed.
Theorem C88_craters :
  forall P (g : geometry P) craters area, let r := sf_radius craters in
    0 < r -> sf_radius area = r -> measures g r ->
    Forall (fun s => 0 < area_of g (outline g s) r) (read_shp craters) ->
    exists s keep, read_shapefiles g craters area = Ok s /\ sc_radius s = r /\ sc_polygon s = shp_area g (read_shp area) /\
      (forall c, In c (read_shp craters) -> keep c = true <-> counts g r (sc_polygon s) c) /\
      Forall2 (describes g r (sc_polygon s)) (filter keep (read_shp craters)) (sc_craters s).
Proof.
  intros P g craters area r Hr RA M F. unfold read_shapefiles. fold r. rewrite RA. rewrite (Reqb_true r r) by reflexivity. cbn [negb].
  set (p := shp_area g (read_shp area)). 
  assert (H : exists ks, mapM (shp_crater g r p) (read_shp craters) = Ok ks /\
     Forall2 (fun s k => (0 < k_frac k <-> counts g r p s) /\ (0 < k_frac k -> describes g r p s k)) (read_shp craters) ks).
  { induction F as [|s l HA F IH]; [exists []; split; [reflexivity|constructor]|].
    destruct (shp_crater_ok g r p s Hr M HA) as (k & E & _ & C & D). destruct IH as (ks & E2 & F2).
    exists (k :: ks). cbn [mapM]. rewrite E. cbn [bind]. rewrite E2. split; [reflexivity|]. constructor; auto. }
  destruct H as (ks & E & F2). rewrite E. cbn [bind].
  set (kp := fun s => match shp_crater g r p s with Ok k => Rltb 0 (k_frac k) | Err _ => false end).
  eexists. exists kp. split; [reflexivity|]. cbn [sc_radius sc_polygon sc_craters]. split; [reflexivity|]. split; [reflexivity|].
  split.
  - intros c I. rewrite Forall_forall in F. destruct (shp_crater_ok g r p c Hr M (F c I)) as (k & Ek & _ & C & _). unfold kp. rewrite Ek.
    rewrite <- C. destruct (Rltb_spec 0 (k_frac k)) as [L|L]; split; auto; try discriminate; try (intros; lra).
  - clear F. revert ks E F2. induction (read_shp craters) as [|s l IH]; intros ks E F2; inversion F2; subst; [constructor|].
    cbn [mapM] in E. destruct (shp_crater g r p s) as [k0|] eqn:Ek; [|discriminate]. cbn [bind] in E.
    destruct (mapM (shp_crater g r p) l) as [l0|] eqn:El; [|discriminate]. cbn [bind] in E. injection E as -> ->.
    assert (K : kp s = Rltb 0 (k_frac y)) by (unfold kp; now rewrite Ek). cbn [filter]. rewrite K.
    destruct (Rltb_spec 0 (k_frac y)) as [L|L]; [constructor; [now apply H1|]|]; now apply IH.
Qed.
(** the outlines are those of the files, in longitude and latitude *)
Theorem C88_positions :
  forall f, Forall2 (Forall2 (Forall2 (fun p q => q = match sf_projection f with Some t => t p | None => p end))) (sf_shapes f) (read_shp f).
Proof.
  intros f. unfold read_shp. destruct (sf_projection f) as [t|].
  - assert (M : forall X Y (h : X -> Y) (Q : X -> Y -> Prop) l, (forall x, Q x (h x)) -> Forall2 Q l (map h l)) by (intros X Y h Q l H; induction l; cbn; constructor; auto).
    apply M. intros s. apply M. intros r. apply M. reflexivity.
  - assert (M : forall X (Q : X -> X -> Prop) l, (forall x, Q x x) -> Forall2 Q l l) by (intros X Q l H; induction l; constructor; auto).
    apply M. intros s. apply M. intros r. apply M. reflexivity.
Qed.
(** the area is that of all shapes of the area file, each with its holes *)
Theorem C88_area :
  forall P (g : geometry P) craters area s, read_shapefiles g craters area = Ok s ->
    sc_area s = area_of g (sc_polygon s) (sf_radius area) /\
    exists ps, sc_polygon s = multipolygon_of g ps /\
      Forall2 (fun shape p => forall exterior holes, shape = exterior :: holes -> p = polygon_of g exterior holes) (read_shp area) ps.
Proof.
  intros P g craters area s E. unfold read_shapefiles in E. destruct (negb (Reqb (sf_radius craters) (sf_radius area))); [discriminate|].
  destruct (mapM _ (read_shp craters)) as [ks|]; [|discriminate]. cbn [bind] in E. injection E as <-. cbn [sc_area sc_polygon]. split; [reflexivity|].
  eexists. split; [reflexivity|]. induction (read_shp area) as [|a l IH]; cbn; constructor; auto. intros e h ->. reflexivity.
Qed.
(** files for different bodies are refused *)
Theorem C88_radii_must_agree :
  forall P (g : geometry P) craters area, sf_radius craters <> sf_radius area -> read_shapefiles g craters area = Err ValueError.
Proof. intros P g craters area H. unfold read_shapefiles. now rewrite (Reqb_false _ _ H). Qed.
(** the area of a crater decides its diameter: larger outlines have larger diameters *)
Theorem C88_larger_areas :
  forall r d d', 0 < r -> 0 <= d -> d < d' -> d' <= 2 * PI * r -> cap_area r d < cap_area r d'.
Proof.
  intros r d d' Hr H0 H H1. unfold cap_area. apply Rmult_lt_compat_l; [pose proof PI_RGT_0; assert (0 < r ^ 2) by nra; nra|].
  assert (cos (d' / (2 * r)) < cos (d / (2 * r))); [|lra].
  assert (A : forall z, z / (2 * r) * (2 * r) = z) by (intros; field; lra).
  apply cos_decreasing_1.
  - apply Rmult_le_pos; [exact H0|]. apply Rlt_le, Rinv_0_lt_compat. lra.
  - apply (Rmult_le_reg_r (2 * r)); [lra|]. rewrite A. lra.
  - apply Rmult_le_pos; [lra|]. apply Rlt_le, Rinv_0_lt_compat. lra.
  - apply (Rmult_le_reg_r (2 * r)); [lra|]. rewrite A. lra.
  - apply (Rmult_lt_reg_r (2 * r)); [lra|]. now rewrite !A.
Qed.
(** an outline of no area that is not covered ends the reading *)
Theorem C88_flat_outline_refuted :
  forall P (g : geometry P) r p s, 0 < r -> area_of g (outline g s) r = 0 -> covered_by g (outline g s) p = false -> shp_crater g r p s = Err ZeroDivision.
Proof.
  intros P g r p s Hr A V. unfold shp_crater. fold (outline g s). rewrite A, V. unfold cap_diameter.
  replace (1 - 0 / (2 * PI * r ^ 2)) with 1 by (unfold Rdiv; ring). rewrite (Rleb_true (-1) 1), (Rleb_true 1 1) by lra. cbn [andb bind].
  destruct (centroid_of g (outline g s)). now rewrite (Reqb_true 0 0).
Qed.

(** a library for examples: a polygon is an area and a mark *)
Definition toy : geometry (R * bool) :=
  mkGeometry (R * bool) (fun r _ => (INR (length r), Nat.eqb (length r) 3)) (fun l => (1, true)) (fun p r => Rmax 0 (Rmin (fst p) (4 * PI * r ^ 2)))
    (fun _ => (10, 20)) (fun c p => snd c) (fun c p => (fst c / 2, true)) (fun _ _ => false).
Lemma toy_measures r : 0 < r -> measures toy r.
Proof.
  intros Hr c p. cbn [toy area_of intersection_of fst]. pose proof PI_RGT_0. assert (0 < r ^ 2) by nra. assert (0 < 4 * PI * r ^ 2) by nra.
  set (G := 4 * PI * r ^ 2) in *. destruct c as (a & b). cbn [fst]. unfold Rmax, Rmin. repeat destruct Rle_dec; lra.
Qed.
Example C88_hypotheses_met :
  let sq := [(0, 0); (0, 1); (1, 0)] in
  let craters := mkShapefile 10 None [[sq]; [sq ++ [(1, 1)]]] in let area := mkShapefile 10 None [[sq]] in
  0 < sf_radius craters /\ measures toy (sf_radius craters) /\ Forall (fun s => 0 < area_of toy (outline toy s) 10) (read_shp craters) /\
  covered_by toy (outline toy [sq]) (1, true) = true /\ covered_by toy (outline toy [sq ++ [(1, 1)]]) (1, true) = false.
Proof.
  cbv zeta. cbn [sf_radius]. split; [lra|]. split; [apply toy_measures; lra|]. split; [|split; reflexivity].
  pose proof PI2_3_2 as HP. unfold PI2 in HP.
  repeat constructor; cbn [toy area_of outline polygon_of concat app length fst INR]; unfold Rmax, Rmin; repeat destruct Rle_dec; lra.
Qed.

(** ** C89: the limits in which random points are drawn *)
Theorem C89_vertices_inside :
  forall P (g : geometry P) p vs l, limits g p vs = Ok l -> Forall on_globe vs ->
    ~ (covers_point g p (0, 90) = true /\ covers_point g p (0, -90) = true) ->
    Forall (in_limits l) vs /\
    (covers_point g p (0, 90) = true -> snd (snd l) = 90 /\ fst l = (-180, 180)) /\
    (covers_point g p (0, -90) = true -> fst (snd l) = -90 /\ fst l = (-180, 180)).
Proof.
  intros P g p vs l E F NB. unfold limits in E. destruct vs as [|v r]; [discriminate|]. cbv zeta in E.
  set (minx := list_min (fst v) (map fst r)) in *. set (maxx := list_max (fst v) (map fst r)) in *.
  set (miny := list_min (snd v) (map snd r)) in *. set (maxy := list_max (snd v) (map snd r)) in *.
  assert (B : forall q, In q (v :: r) -> minx <= fst q <= maxx /\ miny <= snd q <= maxy /\ on_globe q).
  { intros q I. rewrite Forall_forall in F. pose proof (in_map fst _ _ I) as IX. pose proof (in_map snd _ _ I) as IY. cbn [map] in IX, IY.
    repeat split; try apply list_min_le; try apply list_max_ge; auto; apply (F q I). }
  assert (E' : l = if covers_point g p (0, -90) then (-180, 180, (-90, maxy)) else if covers_point g p (0, 90) then (-180, 180, (miny, 90)) else (minx, maxx, (miny, maxy))) by (injection E as <-; reflexivity).
  clear E. subst l. unfold in_limits. rewrite Forall_forall.
  destruct (covers_point g p (0, -90)), (covers_point g p (0, 90)); try (exfalso; apply NB; now split); cbn [fst snd];
    (split; [intros q I; destruct (B q I) as (X & Y & (G1 & G2)); lra|]); split; intros H; try discriminate; auto.
Qed.
(** an area around both poles loses the cap around the north pole *)
Theorem C89_both_poles_refuted :
  exists (g : geometry (R * bool)) p vs l, limits g p vs = Ok l /\ Forall on_globe vs /\ covers_point g p (0, 90) = true /\ ~ in_limits l (0, 90).
Proof.
  exists (mkGeometry (R * bool) (polygon_of toy) (multipolygon_of toy) (area_of toy) (centroid_of toy) (covered_by toy) (intersection_of toy) (fun _ _ => true)), (0, true).
  exists [(0, 10); (20, 10); (10, 30)]. eexists. split; [reflexivity|]. split; [repeat constructor; cbn; lra|]. split; [reflexivity|].
  unfold in_limits. cbn. unfold Rmax. repeat destruct Rle_dec; lra.
Qed.
(** an edge of the area runs along a great circle, and may leave the latitudes of its ends *)
Lemma sqrt3_sq : sqrt 3 * sqrt 3 = 3. Proof. apply sqrt_sqrt. lra. Qed.
Theorem C89_edges_refuted :
  exists vs a b q, nth_error vs 0 = Some a /\ nth_error vs 1 = Some b /\ Forall on_globe vs /\ on_arc a b q /\ on_globe q /\
    forall P (g : geometry P) p l, (forall x, covers_point g p x = false) -> limits g p vs = Ok l -> ~ in_limits l q.
Proof.
  set (t := 2 * sqrt 3). set (phi := atan t * 180 / PI). pose proof PI_RGT_0 as HP. pose proof sqrt3_sq as S3. pose proof (sqrt_lt_R0 3 ltac:(lra)) as S0.
  assert (DP : deg phi = atan t) by (unfold deg, phi; field; lra).
  assert (T60 : atan (sqrt 3) = PI / 3). { rewrite <- tan_PI3. apply atan_tan. lra. }
  assert (PH : 60 < phi < 90).
  { pose proof (atan_increasing (sqrt 3) t ltac:(unfold t; lra)) as A. rewrite T60 in A. pose proof (atan_bound t) as (_ & B).
    unfold phi. split; apply (Rmult_lt_reg_r (PI / 180)); try lra; replace (atan t * 180 / PI * (PI / 180)) with (atan t) by (field; lra); lra. }
  exists [(-60, 60); (60, 60); (0, 50)], (-60, 60), (60, 60), (0, phi). split; [reflexivity|]. split; [reflexivity|].
  split; [repeat constructor; cbn; lra|]. split; [|split].
  - assert (SQ : sqrt (1 + t²) = sqrt 13). { f_equal. unfold t, Rsqr. nra. }
    pose proof (sqrt_lt_R0 13 ltac:(lra)) as S13.
    exists (2 / sqrt 13), (2 / sqrt 13). split; [apply Rlt_le, Rdiv_lt_0_compat; lra|]. split; [apply Rlt_le, Rdiv_lt_0_compat; lra|].
    unfold direction, plus, scale. cbn [fst snd]. rewrite DP.
    assert (D60 : deg 60 = PI / 3) by (unfold deg; field). assert (DM : deg (-60) = - (PI / 3)) by (unfold deg; field). assert (D0 : deg 0 = 0) by (unfold deg; field).
    rewrite D60, DM, D0, cos_neg, sin_neg, cos_0, sin_0, cos_PI3, sin_PI3, cos_atan, sin_atan, SQ. unfold t. f_equal; [f_equal|]; field; lra.
  - unfold on_globe. cbn [fst snd]. lra.
  - intros P g p l N E. unfold limits in E. rewrite !N in E. cbn [map fst snd list_min list_max fold_right] in E.
    assert (E' : l = (Rmin 60 (Rmin 0 (-60)), Rmax 60 (Rmax 0 (-60)), (Rmin 60 (Rmin 50 60), Rmax 60 (Rmax 50 60)))) by (injection E as <-; reflexivity). subst l. clear E.
    unfold in_limits. cbn [fst snd]. intros (_ & _ & H). rewrite (Rmax_right 50 60), (Rmax_left 60 60) in H by lra. lra.
Qed.
(** across the meridian of 180 degrees the limits are those of the rest of the globe *)
Theorem C89_antimeridian_refuted :
  exists vs a b q, nth_error vs 0 = Some a /\ nth_error vs 1 = Some b /\ Forall on_globe vs /\ on_arc a b q /\ on_globe q /\
    forall P (g : geometry P) p l, (forall x, covers_point g p x = false) -> limits g p vs = Ok l -> ~ in_limits l q.
Proof.
  exists [(120, 0); (-120, 0); (-120, 10)], (120, 0), (-120, 0), (180, 0). split; [reflexivity|]. split; [reflexivity|].
  split; [repeat constructor; cbn; lra|]. split; [|split].
  - exists 1, 1. split; [lra|]. split; [lra|]. unfold direction, plus, scale. cbn [fst snd].
    assert (A : deg 120 = 2 * (PI / 3)) by (unfold deg; field). assert (B : deg (-120) = - (2 * (PI / 3))) by (unfold deg; field).
    assert (C : deg 180 = PI) by (unfold deg; field). assert (D : deg 0 = 0) by (unfold deg; field).
    rewrite A, B, C, D, cos_neg, sin_neg, cos_0, sin_0, cos_PI, sin_PI, cos_2PI3, sin_2PI3. f_equal; [f_equal|]; lra.
  - unfold on_globe. cbn. lra.
  - intros P g p l N E. unfold limits in E. rewrite !N in E. cbn [map fst snd list_min list_max fold_right] in E.
    assert (E' : fst l = (Rmin (-120) (Rmin (-120) 120), Rmax (-120) (Rmax (-120) 120))) by (injection E as <-; reflexivity).
    destruct l as (lx & ly). cbn [fst] in E'. subst lx. unfold in_limits. cbn [fst snd]. intros ((_ & H) & _). rewrite (Rmax_right (-120) 120), (Rmax_right (-120) 120) in H by lra. lra.
Qed.
Example C89_hypotheses_met :
  exists l, limits toy (0, true) [(10, 10); (20, 10); (15, 30)] = Ok l /\ Forall on_globe [(10, 10); (20, 10); (15, 30)] /\ in_limits l (15, 30).
Proof.
  eexists. split; [reflexivity|]. split; [repeat constructor; cbn; lra|]. unfold in_limits. cbn. unfold Rmax, Rmin. repeat destruct Rle_dec; lra.
Qed.

(** ** C90: points in space *)
Theorem C90_on_the_sphere :
  forall planet p, llr2xyz planet (fst p) (snd p) None = scale planet (direction p) /\ dot (direction p) (direction p) = 1.
Proof.
  intros planet (lon & lat). cbn [fst snd]. split.
  - unfold llr2xyz, direction, scale, radians, deg. cbn [fst snd]. f_equal. f_equal; ring.
  - unfold direction, dot. cbn [fst snd]. set (a := deg lat). set (b := deg lon). pose proof (sin2_cos2 a) as A. pose proof (sin2_cos2 b) as B. unfold Rsqr in *.
    replace (cos a * cos b * (cos a * cos b) + cos a * sin b * (cos a * sin b) + sin a * sin a) with (cos a * cos a * (sin b * sin b + cos b * cos b) + sin a * sin a) by ring. rewrite B. lra.
Qed.
(** the distance of two points through the sphere follows from the angle between them, by the cosine rule *)
Theorem C90_distance :
  forall planet p q, let d := minus (llr2xyz planet (fst p) (snd p) None) (llr2xyz planet (fst q) (snd q) None) in
    dot d d = 2 * planet ^ 2 * (1 - (sin (deg (snd p)) * sin (deg (snd q)) + cos (deg (snd p)) * cos (deg (snd q)) * cos (deg (fst p) - deg (fst q)))).
Proof.
  intros planet p q. cbv zeta. destruct (C90_on_the_sphere planet p) as (-> & A). destruct (C90_on_the_sphere planet q) as (-> & B).
  rewrite cos_minus. destruct p as (x & y), q as (u & v). unfold direction, dot, minus, plus, scale in *. cbn [fst snd] in *.
  set (cy := cos (deg y)) in *. set (sy := sin (deg y)) in *. set (cx := cos (deg x)) in *. set (sx := sin (deg x)) in *.
  set (cv := cos (deg v)) in *. set (sv := sin (deg v)) in *. set (cu := cos (deg u)) in *. set (su := sin (deg u)) in *.
  transitivity (planet ^ 2 * ((cy * cx * (cy * cx) + cy * sx * (cy * sx) + sy * sy) + (cv * cu * (cv * cu) + cv * su * (cv * su) + sv * sv)
     - 2 * (sy * sv + cy * cv * (cx * cu + sx * su)))); [ring|]. rewrite A, B. ring.
Qed.
Example C90_hypotheses_met : let d := minus (llr2xyz 10 0 0 None) (llr2xyz 10 90 0 None) in dot d d = 200.
Proof.
  pose proof (C90_distance 10 (0, 0) (90, 0)) as E. cbn [fst snd] in E. cbv zeta in E |- *. rewrite E.
  replace (deg 0) with 0 by (unfold deg; field). replace (deg 90) with (PI / 2) by (unfold deg; field). rewrite sin_0, cos_0.
  replace (0 - PI / 2) with (- (PI / 2)) by ring. rewrite cos_neg, cos_PI2. ring.
Qed.

(** ** C91: the rims *)
Theorem C91_rims :
  forall proj ns cs, (0 < ns)%nat -> (forall o q, snd (proj o) (fst (proj o) q) = q) ->
    Forall2 (fun c r => length r = S ns /\ hd (0, 0) r = last r (0, 0) /\
      exists o : Z * Z, Rabs (fst (snd c) - IZR (fst o)) <= 5 / 2 /\ Rabs (snd (snd c) - IZR (snd o)) <= 5 / 2 /\
        (on_globe (snd c) -> on_globe (IZR (fst o), IZR (snd o))) /\
        forall j, (j <= ns)%nat ->
          let q := snd (proj o) (nth j r (0, 0)) in let m := snd (proj o) (snd c) in
          q = (fst m + fst c * 1000 / 2 * cos (2 * PI * INR j / INR ns), snd m + fst c * 1000 / 2 * sin (2 * PI * INR j / INR ns)))
      cs (find_rims proj ns cs).
Proof.
  intros proj ns cs Hn IV. unfold find_rims. rewrite rims_cache by constructor. induction cs as [|c cs IH]; [constructor|]. cbn [map]. constructor; [|exact IH]. clear IH cs.
  assert (LEN : length (rim proj ns c) = S ns) by (unfold rim; now rewrite map_length, circle_length).
  set (o := origin_of (fst (snd c)) (snd (snd c))).
  assert (NTH : forall j, (j <= ns)%nat -> nth j (rim proj ns c) (0, 0) =
     fst (proj o) (fst (snd (proj o) (snd c)) + cos (2 * PI * INR j / INR ns) * (fst c * 1000 / 2), snd (snd (proj o) (snd c)) + sin (2 * PI * INR j / INR ns) * (fst c * 1000 / 2))).
  { intros j Hj. unfold rim. fold o. cbv zeta.
    rewrite (nth_indep _ _ (fst (proj o) (fst (snd (proj o) (snd c)) + fst (0, 0) * (fst c * 1000 / 2), snd (snd (proj o) (snd c)) + snd (0, 0) * (fst c * 1000 / 2)))) by (rewrite map_length, circle_length; lia).
    rewrite (map_nth (fun e => fst (proj o) (fst (snd (proj o) (snd c)) + fst e * (fst c * 1000 / 2), snd (snd (proj o) (snd c)) + snd e * (fst c * 1000 / 2)))).
    rewrite circle_nth by exact Hj. reflexivity. }
  split; [exact LEN|]. split.
  - assert (H0 : hd (0, 0) (rim proj ns c) = nth 0 (rim proj ns c) (0, 0)) by (destruct (rim proj ns c); reflexivity).
    assert (HL : last (rim proj ns c) (0, 0) = nth ns (rim proj ns c) (0, 0)).
    { revert LEN. clear. generalize (rim proj ns c). intros l. revert ns. induction l as [|x l IH]; intros ns H; [discriminate|]. injection H as H.
      destruct l as [|y l]; [cbn in H; subst ns; reflexivity|]. destruct ns as [|k]; [discriminate|]. cbn [last nth]. apply (IH k). exact H. }
    rewrite H0, HL, !NTH by lia.
    assert (A : 2 * PI * INR 0 / INR ns = 0) by (cbn [INR]; unfold Rdiv; ring). assert (B : 2 * PI * INR ns / INR ns = 2 * PI) by (field; apply not_0_INR; lia).
    rewrite A, B, cos_0, sin_0, cos_2PI, sin_2PI. reflexivity.
  - exists o. destruct (origin_near (fst (snd c)) (snd (snd c))) as (A & B). fold o in A, B. split; [exact A|]. split; [exact B|]. split.
    + intros G. apply origin_on_globe. destruct c as (d & (x & y)). exact G.
    + intros j Hj. cbv zeta. rewrite NTH by exact Hj. rewrite IV. f_equal; ring.
Qed.
(** so all points of a rim are one crater radius from the centre, in the projection *)
Theorem C91_radius :
  forall m d a, 0 <= d -> apart (fst m + d * 1000 / 2 * cos a, snd m + d * 1000 / 2 * sin a) m = d * 1000 / 2.
Proof.
  intros m d a H. unfold apart. cbn [fst snd]. pose proof (sin2_cos2 a) as S. unfold Rsqr in *.
  match goal with |- sqrt ?e = _ => replace e with ((d * 1000 / 2) * (d * 1000 / 2)) end; [apply sqrt_square; lra|].
  transitivity ((d * 1000 / 2) * (d * 1000 / 2) * (sin a * sin a + cos a * cos a)); [rewrite S; ring|ring].
Qed.
(** the rim of a crater does not depend on the other craters *)
Theorem C91_rims_independent :
  forall proj ns a c b, nth (length a) (find_rims proj ns (a ++ c :: b)) [] = hd [] (find_rims proj ns [c]).
Proof.
  intros. unfold find_rims. rewrite !rims_cache by constructor. rewrite map_app, app_nth2; rewrite map_length; [|lia]. now rewrite Nat.sub_diag.
Qed.
Example C91_hypotheses_met :
  let proj := fun o : Z * Z => ((fun q : pt => (fst q / 1000, snd q / 1000)), (fun q : pt => (fst q * 1000, snd q * 1000))) in
  (forall o q, snd (proj o) (fst (proj o) q) = q) /\ length (find_rims proj 100 [(1, (12, 13)); (2, (11, 14)); (3, (50, 60))]) = 3%nat.
Proof. cbv zeta. cbn [fst snd]. split; [intros _ (x & y); cbn; f_equal; field|]. unfold find_rims. rewrite rims_cache by constructor. reflexivity. Qed.

(** ** C92: the map shows everything *)
Theorem C92_frame :
  forall (exteriors rims : list ring) (own : bool), exteriors <> [] -> Forall (fun r : ring => r <> []) exteriors -> Forall (fun r : ring => r <> []) rims ->
    let pts := concat exteriors ++ concat rims in let m := if own then 1 / 10 else 2 / 100 in
    exists x0 x1 y0 y1, spans (map fst pts) x0 x1 /\ spans (map snd pts) y0 y1 /\
      map_frame exteriors rims own = Ok ((x0 - m * (x1 - x0), x1 + m * (x1 - x0)), (y0 - m * (y1 - y0), y1 + m * (y1 - y0))).
Proof.
  intros es rs own N Fe Fr pts m.
  assert (NE : forall (f : pt -> R) l, Forall (fun r : ring => r <> []) l -> Forall (fun r => r <> []) (map (map f) l)).
  { intros f l F. rewrite Forall_map. eapply Forall_impl; [|exact F]. intros r H E. apply map_eq_nil in E. contradiction. }
  assert (NN : forall (f : pt -> R), map (map f) es <> []) by (intros f E; apply map_eq_nil in E; contradiction).
  destruct (extent_spans (map (map fst) es) (map (map fst) rs) (NN fst) (NE fst _ Fe) (NE fst _ Fr)) as (x0 & x1 & EX & SX).
  destruct (extent_spans (map (map snd) es) (map (map snd) rs) (NN snd) (NE snd _ Fe) (NE snd _ Fr)) as (y0 & y1 & EY & SY).
  rewrite <- !concat_map, <- map_app in SX, SY. exists x0, x1, y0, y1. split; [exact SX|]. split; [exact SY|].
  assert (OX : x0 <= x1) by (destruct SX as (A & B & C); exact (proj1 (C x1 B))). assert (OY : y0 <= y1) by (destruct SY as (A & B & C); exact (proj1 (C y1 B))).
  unfold map_frame. rewrite EX, EY. cbn [bind]. fold m. rewrite !widened_ok by assumption. reflexivity.
Qed.
(** hence every point drawn is inside, and if the drawing has any width, off the edge *)
Theorem C92_inside :
  forall exteriors rims own x y q, exteriors <> [] -> Forall (fun r : ring => r <> []) exteriors -> Forall (fun r : ring => r <> []) rims ->
    map_frame exteriors rims own = Ok (x, y) -> (exists r, In r (exteriors ++ rims) /\ In q r) ->
    fst x <= fst q <= snd x /\ fst y <= snd q <= snd y /\ (fst x < snd x -> fst x < fst q < snd x) /\ (fst y < snd y -> fst y < snd q < snd y).
Proof.
  intros es rs own x y q N Fe Fr E (r & I & J). destruct (C92_frame es rs own N Fe Fr) as (x0 & x1 & y0 & y1 & (_ & _ & SX) & (_ & _ & SY) & E').
  rewrite E in E'. clear E. set (m := if own then 1 / 10 else 2 / 100) in E'.
  assert (Ex : x = (x0 - m * (x1 - x0), x1 + m * (x1 - x0))) by congruence. assert (Ey : y = (y0 - m * (y1 - y0), y1 + m * (y1 - y0))) by congruence. subst x y. clear E'. cbn [fst snd].
  assert (Hm : 0 < m) by (unfold m; destruct own; lra).
  assert (Q : In q (concat es ++ concat rs)). { rewrite <- concat_app. apply in_concat. exists r. auto. }
  pose proof (SX _ (in_map fst _ _ Q)) as BX. pose proof (SY _ (in_map snd _ _ Q)) as BY. clear - BX BY Hm.
  assert (PX : 0 <= m * (x1 - x0)) by (apply Rmult_le_pos; lra). assert (PY : 0 <= m * (y1 - y0)) by (apply Rmult_le_pos; lra).
  split; [lra|]. split; [lra|].
  assert (G : forall a b, a <= b -> 0 <= m * (b - a) -> a - m * (b - a) < b + m * (b - a) -> 0 < m * (b - a)).
  { intros a b L K H. destruct (Req_dec a b) as [Z|Z]; [subst; replace (m * (b - b)) with 0 in H by ring; lra|]. apply Rmult_lt_0_compat; lra. }
  split; intros H; [pose proof (G x0 x1 ltac:(lra) PX H)|pose proof (G y0 y1 ltac:(lra) PY H)]; lra.
Qed.
Example C92_hypotheses_met : map_frame [[(0, 0); (10, 0); (0, 20)]] [[(10, 5)]] true = Ok ((-1, 11), (-2, 22)).
Proof.
  destruct (C92_frame [[(0, 0); (10, 0); (0, 20)]] [[(10, 5)]] true) as (x0 & x1 & y0 & y1 & (A & B & C) & (D & E & F) & ->);
    [discriminate|repeat constructor; discriminate|repeat constructor; discriminate|].
  cbn in A, B, C, D, E, F.
  pose proof (C 0 ltac:(auto)). pose proof (C 10 ltac:(auto)). pose proof (F 0 ltac:(auto)). pose proof (F 20 ltac:(auto)).
  assert (x0 = 0) by intuition lra. assert (x1 = 10) by intuition lra. assert (y0 = 0) by intuition lra. assert (y1 = 20) by intuition lra. subst.
  f_equal. f_equal; f_equal; lra.
Qed.

Print Assumptions C88_craters.
Print Assumptions C88_positions.
Print Assumptions C88_area.
Print Assumptions C88_radii_must_agree.
Print Assumptions C88_larger_areas.
Print Assumptions C88_flat_outline_refuted.
Print Assumptions C89_vertices_inside.
Print Assumptions C89_both_poles_refuted.
Print Assumptions C89_edges_refuted.
Print Assumptions C89_antimeridian_refuted.
Print Assumptions C90_on_the_sphere.
Print Assumptions C90_distance.
Print Assumptions C91_rims.
Print Assumptions C91_radius.
Print Assumptions C91_rims_independent.
Print Assumptions C92_frame.
Print Assumptions C92_inside.
