(** Writing spatial counts as shapefiles and reading them again: Spatialcount.py writeSHPfiles, polygon_to_pts, read_shp.  Definitions only. *)
From Coq Require Import String Ascii List ZArith Reals Bool.
From Verif Require Import Base NumModel StrModel CliModel FmtModel TsModel SccModel MapModel MainModel.
Import ListNotations.
Local Open Scope R_scope.

(** Spatialcount.py 266-268: a shape of the file of craters: Diam_km, x_coord, y_coord, tag and the rim.  (The number of decimals kept by the fields, 261-263, is left out.) *)
Record crater_row := mkRow { row_diam : R; row_lon : R; row_lat : R; row_tag : str; row_rim : ring }.
(** Spatialcount.py 255-284: what is in a file written.  The files .shx and .dbf beside each .shp are left out. *)
Inductive shp_content :=
| Craters (rows : list crater_row)                   (* 260-269 *)
| Opened                                             (* 275: an area file that was opened, but not completed *)
| Outlines (rows : list (str * list ring))           (* 275-282: area_name and rings; the field area stays empty *)
| Projection (wkt : str)                             (* 270, 283 *)
| Style (name : str).                                (* 271, 284: a copy of a file in config *)

(** Spatialcount.py 294: the radius in metres *)
Definition radius_text (r : R) : str := fmt_f 0 (r * 1000).
(** Spatialcount.py 295 *)
Definition wkt_of (rs : str) : str :=
  L "GEOGCS[""Spherical_GCS_" ++ rs ++ L """, DATUM[""Sphere_" ++ rs ++ L """, SPHEROID[""Sphere_" ++ rs ++ L """, " ++ rs
  ++ L ", 0]], PRIMEM[""Greenwich"", 0], UNIT[""Degree"", 0.0174532925199433]]".

(** ** Spatialcount.py 315-331: polygon_to_pts, called without argument.  The area is the library's merger of the parts (104, 151); written as WKB (323) one part is a
    polygon and several are a multipolygon, which has no exterior ring (325), so that .coords fails (326).  [listing] is how the library lists the vertices of a ring.  An area
    without parts is taken to fail like several. *)
Definition polygon_to_pts (listing : ring -> ring) (parts : list (ring * list ring)) : res (list (list ring)) :=
  match parts with
  | [(e, hs)] => Ok [listing e :: map listing hs]
  | _ => Err AttributeError
  end.

(** Spatialcount.py 265-268 *)
Definition crater_rows (proj : Z * Z -> projection) (cs : list crater) : list crater_row :=
  map (fun p => mkRow (c_diam (fst p)) (c_lon (fst p)) (c_lat (fst p)) (L "standard") (snd p))
      (combine cs (find_rims proj 100 (map (fun c => (c_diam c, (c_lon c, c_lat c))) cs))).
(** Spatialcount.py 279-281 *)
Definition outline_rows (d : list (list ring)) : list (str * list ring) :=
  map (fun p => (L "Area_" ++ int_str (Z.of_nat (S (fst p))), snd p)) (combine (seq 0 (length d)) d).
(** ** Spatialcount.py 254-284: writeSHPfiles: the files written, in order, and the exception, if any *)
Definition write_shapefiles (proj : Z * Z -> projection) (listing : ring -> ring) (s : spatial) (name : str) : list (str * shp_content) * option exn :=
  match (do! fc <- filename name (L "pn1e") (Some (L "_CRATER")) None 4;
         do! pc <- filename fc (L "pn1") (Some (L ".prj")) None 4;
         do! qc <- filename fc (L "pn1") (Some (L ".qml")) None 4; Ok (fc, pc, qc)) with
  | Err x => ([], Some x)
  | Ok (fc, pc, qc) =>
      let wkt := wkt_of (radius_text (sp_radius s)) in
      let written := [(fc, Craters (crater_rows proj (sp_craters s))); (pc, Projection wkt); (qc, Style (L "_CRATER.qml"))] in
      match (do! fa <- filename name (L "pn1e") (Some (L "_AREA")) None 4;
             do! pa <- filename fa (L "pn1") (Some (L ".prj")) None 4;
             do! qa <- filename fa (L "pn1") (Some (L ".qml")) None 4; Ok (fa, pa, qa)) with
      | Err x => (written, Some x)
      | Ok (fa, pa, qa) =>
          match polygon_to_pts listing (sp_polygons s) with
          | Err x => (written ++ [(fa, Opened)], Some x)
          | Ok d => (written ++ [(fa, Outlines (outline_rows d)); (pa, Projection wkt); (qa, Style (L "_AREA.qml"))], None)
          end
      end
  end.

(** ** Reading them again *)
(** Spatialcount.py 120: the library's reading of the text, as far as needed: what follows SPHEROID[ *)
Fixpoint spheroid (s : str) : option str :=
  match s with
  | [] => None
  | c :: t => if starts_with (L "SPHEROID[") s then Some (skipn 9 s) else spheroid t
  end.
(** Spatialcount.py 120-121: semi_major_metre, the second entry of SPHEROID, in km; only whole numbers of metres, as written by 295, are modelled *)
Definition prj_radius (wkt : str) : res R :=
  match spheroid wkt with
  | None => Err OtherException
  | Some t => match split_chr (ch ",") [] t with
              | _ :: a :: _ => do! m <- int_of (TStr a); Ok (IZR m / 1000)
              | _ => Err OtherException
              end
  end.
(** Spatialcount.py 118-122: a file found among those written *)
Definition content (fs : list (str * shp_content)) (name : str) : option shp_content :=
  match find (fun f => seqb (fst f) name) fs with Some f => Some (snd f) | None => None end.
(** Spatialcount.py 116-132: read_shp of a file written as above, which is geographic: its shapes *)
Definition stored_shapes (c : shp_content) : res (list (list ring)) :=
  match c with
  | Craters rows => Ok (map (fun r => [row_rim r]) rows)
  | Outlines rows => Ok (map snd rows)
  | _ => Err OtherException
  end.
(** Spatialcount.py 116-132 *)
Definition load_shp (fs : list (str * shp_content)) (name : str) : res shapefile :=
  do! p <- filename name (L "pn1") (Some (L ".prj")) None 4;
  match content fs p with
  | Some (Projection wkt) =>
      do! r <- prj_radius wkt;
      match content fs name with
      | Some c => do! l <- stored_shapes c; Ok (mkShapefile r None l)
      | None => Err FileNotFound
      end
  | _ => Err FileNotFound
  end.
(** ** Spatialcount.py 33-40, 134-188: the count in a pair of shapefiles; the file of the outlines is found by its name *)
Definition load_count {P} (g : geometry P) (fs : list (str * shp_content)) (name : str) : res (shp_count P) :=
  do! a <- area_file name;
  do! sc <- load_shp fs name;
  do! sa <- load_shp fs a;
  read_shapefiles g sc sa.
