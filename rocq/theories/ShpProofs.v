(** Lemmas about shapefiles written: names, the projection text and rings. *)
From Coq Require Import String Ascii List Arith ZArith Reals Bool Lia Lra.
From Verif Require Import Base NumModel NumLemmas StrModel StrSpec StrProofs StrProofs2 StrProps CliModel CliProofs CliProofs2 FmtModel FmtSpec FmtProofs TsModel
  SccModel SccProofs3 MapModel MapSpec MapProofs MainModel MainProofs MainProps ShpModel ShpSpec.
Import ListNotations.
Local Open Scope R_scope.

(** ** The projection text *)
Lemma spheroid_digits d t : all_digits d -> spheroid (d ++ t) = spheroid t.
Proof.
  induction 1 as [|c d C D IH]; [reflexivity|]. cbn [app spheroid].
  assert (E : starts_with (L "SPHEROID[") (c :: d ++ t) = false).
  { destruct (starts_with (L "SPHEROID[") (c :: d ++ t)) eqn:E; [|reflexivity]. apply starts_app in E as (x & E). injection E as -> _. discriminate. }
  now rewrite E.
Qed.
Lemma spheroid_step c t : starts_with (L "SPHEROID[") (c :: t) = false -> spheroid (c :: t) = spheroid t.
Proof. intros E. cbn [spheroid]. now rewrite E. Qed.
Lemma digits_no_comma d : all_digits d -> ~ In (ch ",") d.
Proof. intros A I. unfold all_digits in A. rewrite Forall_forall in A. apply A in I. discriminate. Qed.
Lemma wkt_spheroid d : all_digits d -> spheroid (wkt_of d) = Some (L """Sphere_" ++ d ++ L """, " ++ d ++ L ", 0]], PRIMEM[""Greenwich"", 0], UNIT[""Degree"", 0.0174532925199433]]").
Proof.
  intros A. unfold wkt_of.
  set (u := L ", 0]], PRIMEM[""Greenwich"", 0], UNIT[""Degree"", 0.0174532925199433]]").
  set (t3 := d ++ L """, " ++ d ++ u). set (t2 := d ++ L """, SPHEROID[""Sphere_" ++ t3). set (t1 := d ++ L """, DATUM[""Sphere_" ++ t2).
  cbn [L list_ascii_of_string app]. repeat (rewrite spheroid_step by reflexivity). unfold t1. rewrite spheroid_digits by exact A.
  cbn [L list_ascii_of_string app]. repeat (rewrite spheroid_step by reflexivity). unfold t2. rewrite spheroid_digits by exact A.
  cbn [L list_ascii_of_string app]. repeat (rewrite spheroid_step by reflexivity). reflexivity.
Qed.
Lemma prj_radius_ok m : (0 <= m)%Z -> prj_radius (wkt_of (dec_str m)) = Ok (IZR m / 1000).
Proof.
  intros H. destruct (dec_str_spec m H) as (A & N & _). unfold prj_radius. rewrite (wkt_spheroid _ A). pose proof (digits_no_comma _ A) as NC.
  set (d := dec_str m) in *. set (u := L ", 0]], PRIMEM[""Greenwich"", 0], UNIT[""Degree"", 0.0174532925199433]]").
  assert (E : L """Sphere_" ++ d ++ L """, " ++ d ++ u = (L """Sphere_" ++ d ++ L """") ++ ch "," :: (ch " " :: d) ++ u).
  { rewrite <- !app_assoc. reflexivity. }
  rewrite E, split_chr_app.
  2: { intros I. apply in_app_or in I as [I|I]; [revert I; noins|]. apply in_app_or in I as [I|I]; [contradiction|revert I; noins]. }
  change u with (ch "," :: tl u). rewrite split_chr_app.
  2: { intros [I|I]; [discriminate|contradiction]. }
  cbn [rev app]. assert (I : int_of (TStr (ch " " :: d)) = Ok m).
  { pose proof (int_of_str m H) as Q. unfold int_str in Q. destruct (Z.ltb_spec m 0); [lia|]. fold d in Q. unfold int_of in *.
    assert (S1 : strip is_space (ch " " :: d) = strip is_space d) by reflexivity. now rewrite S1. }
  rewrite I. reflexivity.
Qed.
(** metres in the text *)
Definition metres (r : R) : Z := round_even (r * 1000).
Lemma round_even_dist x : Rabs (IZR (round_even x) - x) <= 1 / 2.
Proof.
  unfold round_even. destruct (Rfloor_spec x) as (A & B). 
  destruct (Rltb_spec (x - IZR (Rfloor x)) (1 / 2)) as [E1|E1]; [apply Rabs_le; lra|].
  destruct (Rltb_spec (1 / 2) (x - IZR (Rfloor x))) as [E2|E2]; [rewrite plus_IZR; apply Rabs_le; lra|].
  destruct (Z.even (Rfloor x)); [|rewrite plus_IZR]; apply Rabs_le; lra.
Qed.
Lemma metres_nonneg r : 0 <= r -> (0 <= metres r)%Z.
Proof.
  intros H. unfold metres. pose proof (round_even_dist (r * 1000)) as D. apply Rabs_le_inv in D.
  destruct (Z_lt_le_dec (round_even (r * 1000)) 0) as [Q|Q]; [|exact Q]. exfalso. apply Zlt_le_succ in Q. apply IZR_le in Q. rewrite succ_IZR in Q. lra.
Qed.
Lemma radius_text_ok r : 0 <= r -> radius_text r = dec_str (metres r).
Proof.
  intros H. unfold radius_text, fmt_f, metres, sign. destruct (Rltb_spec (r * 1000) 0) as [E|E]; [nra|]. cbn [app].
  rewrite Rabs_pos_eq by nra. cbn [Z.of_nat]. unfold ten. cbn [powerRZ]. rewrite Rmult_1_r. rewrite app_nil_r. f_equal. apply Z.div_1_r.
Qed.

(** ** Names *)
Lemma shp_word : short_word (L "shp"). Proof. split; [cbn; lia|repeat (constructor; [reflexivity|]); constructor]. Qed.
Lemma plain_tag m t : plain_name m -> Forall (fun c => is_word c = true) t -> plain_name (m ++ t).
Proof. intros P T. apply Forall_app. split; [exact P|]. eapply Forall_impl; [|exact T]. auto. Qed.
Lemma tagged_name d m t : directory d -> plain_name m -> filename (d ++ m ++ L ".shp") (L "pn1e") (Some t) None 4 = Ok (d ++ m ++ t ++ L ".shp").
Proof.
  intros D P. change (d ++ m ++ L ".shp") with (d ++ m ++ "."%char :: L "shp"). known D P shp_word t. f_equal.
Qed.
Lemma beside d m t : directory d -> plain_name m -> filename (d ++ m ++ L ".shp") (L "pn1") (Some t) None 4 = Ok (d ++ m ++ t).
Proof.
  intros D P. change (d ++ m ++ L ".shp") with (d ++ m ++ "."%char :: L "shp"). known D P shp_word t. f_equal. cbn. now rewrite app_nil_r.
Qed.
Lemma crater_tag_word : Forall (fun c => is_word c = true) (L "_CRATER"). Proof. repeat (constructor; [reflexivity|]); constructor. Qed.
Lemma area_tag_word : Forall (fun c => is_word c = true) (L "_AREA"). Proof. repeat (constructor; [reflexivity|]); constructor. Qed.

(** ** The files *)
Definition row_of proj (c : crater) : crater_row :=
  mkRow (c_diam c) (c_lon c) (c_lat c) (L "standard") (rim proj 100 (c_diam c, (c_lon c, c_lat c))).
Lemma rows_map proj cs : crater_rows proj cs = map (row_of proj) cs.
Proof.
  unfold crater_rows, find_rims. rewrite rims_cache by constructor. induction cs as [|c cs IH]; [reflexivity|]. cbn [map combine fst snd]. now rewrite IH.
Qed.
Definition crater_files proj (s : spatial) (d m : str) : list (str * shp_content) :=
  [(d ++ m ++ L "_CRATER.shp", Craters (map (row_of proj) (sp_craters s)));
   (d ++ m ++ L "_CRATER.prj", Projection (wkt_of (dec_str (metres (sp_radius s))))); (d ++ m ++ L "_CRATER.qml", Style (L "_CRATER.qml"))].
Lemma write_shapefiles_ok proj listing s d m : directory d -> plain_name m -> 0 <= sp_radius s ->
  write_shapefiles proj listing s (d ++ m ++ L ".shp") =
    match polygon_to_pts listing (sp_polygons s) with
    | Err x => (crater_files proj s d m ++ [(d ++ m ++ L "_AREA.shp", Opened)], Some x)
    | Ok l => (crater_files proj s d m ++ [(d ++ m ++ L "_AREA.shp", Outlines (outline_rows l));
                 (d ++ m ++ L "_AREA.prj", Projection (wkt_of (dec_str (metres (sp_radius s))))); (d ++ m ++ L "_AREA.qml", Style (L "_AREA.qml"))], None)
    end.
Proof.
  intros D P R0. unfold write_shapefiles. pose proof (plain_tag m _ P crater_tag_word) as PC. pose proof (plain_tag m _ P area_tag_word) as PA.
  rewrite (tagged_name d m (L "_CRATER") D P). cbn [bind]. rewrite (app_assoc m (L "_CRATER")), !(beside d _ _ D PC). cbn [bind].
  rewrite (tagged_name d m (L "_AREA") D P). cbn [bind]. rewrite (app_assoc m (L "_AREA")), !(beside d _ _ D PA). cbn [bind].
  rewrite radius_text_ok by exact R0. rewrite rows_map. unfold crater_files. rewrite <- !app_assoc. reflexivity.
Qed.
