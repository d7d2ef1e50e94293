(** Spatial counts from shapefiles, crater rims and the map: Spatialcount.py.  Definitions only. *)
From Coq Require Import String Ascii List ZArith Reals Bool.
From Verif Require Import Base NumModel StrModel CliModel FmtModel PlotModel SccModel.
Import ListNotations.
Local Open Scope R_scope.

(** Spatialcount.py 82, 130, 359: a point: (longitude, latitude) in degrees, or (x, y) in a projection *)
Definition pt := (R * R)%type.
(** Spatialcount.py 84-107, 144-179, 193-204: what the libraries spherely and shapely provide, for polygons represented as [P]; areas are in units of the radius squared. *)
Record geometry (P : Type) := mkGeometry {
  polygon_of : ring -> list ring -> P;          (* sph.create_polygon *)
  multipolygon_of : list P -> P;                (* sph.create_multipolygon *)
  area_of : P -> R -> R;                        (* sph.area, with the radius *)
  centroid_of : P -> pt;                        (* sph.centroid *)
  covered_by : P -> P -> bool;                  (* sph.covered_by *)
  intersection_of : P -> P -> P;                (* sph.intersection *)
  covers_point : P -> pt -> bool }.             (* sph.covers *)
Arguments polygon_of {P}. Arguments multipolygon_of {P}. Arguments area_of {P}. Arguments centroid_of {P}.
Arguments covered_by {P}. Arguments intersection_of {P}. Arguments covers_point {P}.

(** Spatialcount.py 117-132: a shapefile as its reader delivers it: the radius of the ellipsoid in its .prj file (km), the projection to longitude and
    latitude unless it is geographic, and for each shape its parts, the first the exterior.  (Files that cannot be read, and
    shapes of several exteriors, which shapely takes apart, are not modelled: each exterior is a shape here.) *)
Record shapefile := mkShapefile { sf_radius : R; sf_projection : option (pt -> pt); sf_shapes : list (list ring) }.
(** ** Spatialcount.py 116-132: read_shp *)
Definition read_shp (f : shapefile) : list (list ring) :=
  match sf_projection f with
  | None => sf_shapes f
  | Some t => map (map (map t)) (sf_shapes f)
  end.

(** Spatialcount.py 182-186: a crater that is kept *)
Record counted := mkCounted { k_diam : R; k_frac : R; k_lon : R; k_lat : R }.
(** Spatialcount.py 138-154, 184-186: what is set *)
Record shp_count (P : Type) := mkShpCount { sc_radius : R; sc_polygon : P; sc_area : R; sc_craters : list counted }.
Arguments sc_radius {P}. Arguments sc_polygon {P}. Arguments sc_area {P}. Arguments sc_craters {P}. Arguments mkShpCount {P}.

(** Spatialcount.py 166: the diameter, along the surface, of the cap of that area; math.acos fails outside [-1, 1] *)
Definition cap_diameter (r a : R) : res R :=
  let x := 1 - a / (2 * PI * r ^ 2) in
  if Rleb (-1) x && Rleb x 1 then Ok (2 * r * acos x) else Err ValueError.
(** Spatialcount.py 161-180: one crater; its rings are taken as one outline.  An area of zero is modelled as an error of the division. *)
Definition shp_crater {P} (g : geometry P) (r : R) (p : P) (shape : list ring) : res counted :=
  let c := polygon_of g (concat shape) [] in
  let a := area_of g c r in
  do! d <- cap_diameter r a;
  let (x, y) := centroid_of g c in
  if covered_by g c p then Ok (mkCounted d 1 x y)
  else if Reqb a 0 then Err ZeroDivision
  else do! f <- af2lf (area_of g (intersection_of g c p) r / a); Ok (mkCounted d f x y).
(** Spatialcount.py 142-151: the area *)
Definition shp_area {P} (g : geometry P) (shapes : list (list ring)) : P :=
  multipolygon_of g (map (fun s => polygon_of g (hd [] s) (tl s)) shapes).
(** ** Spatialcount.py 134-186: readSHPfiles *)
Definition read_shapefiles {P} (g : geometry P) (craters area : shapefile) : res (shp_count P) :=
  let rc := sf_radius craters in
  let ra := sf_radius area in
  if negb (Reqb rc ra) then Err ValueError else
  let p := shp_area g (read_shp area) in
  do! ks <- mapM (shp_crater g rc p) (read_shp craters);
  Ok (mkShpCount rc p (area_of g p ra) (filter (fun k => Rltb 0 (k_frac k)) ks)).

(** ** Spatialcount.py 190-202: find_enclosing_polygon; [vs] are the vertices the library lists for the polygon *)
Definition limits {P} (g : geometry P) (p : P) (vs : list pt) : res (pt * pt) :=
  match vs with
  | [] => Err ValueError
  | v :: r =>
    let minx := list_min (fst v) (map fst r) in let maxx := list_max (fst v) (map fst r) in
    let miny := list_min (snd v) (map snd r) in let maxy := list_max (snd v) (map snd r) in
    let l0 := ((minx, maxx), (miny, maxy)) in
    let l1 := if covers_point g p (0, 90) then ((-180, 180), (miny, 90)) else l0 in
    Ok (if covers_point g p (0, -90) then ((-180, 180), (-90, maxy)) else l1)
  end.

(** ** Spatialcount.py 49-56: llr2xyz; a radius of 0 counts as none *)
Definition radians (x : R) : R := x * PI / 180.
(** Spatialcount.py 49-56 *)
Definition llr2xyz (planet : R) (lon lat : R) (r : option R) : R * R * R :=
  let r := match r with Some r => if Reqb r 0 then planet else r | None => planet end in
  (r * cos (radians lat) * cos (radians lon), r * cos (radians lat) * sin (radians lon), r * sin (radians lat)).

(** ** Spatialcount.py 286-313: find_rims.  [projection o] is the equal-area projection of the sphere centred at [o] (longitude, latitude),
    a pair of functions: from the plane (m) to longitude and latitude, and back. *)
Definition projection := ((pt -> pt) * (pt -> pt))%type.
(** Spatialcount.py 303: round() of Python rounds halves to even *)
Definition origin_of (x y : R) : Z * Z := ((round_even (x / 5) * 5)%Z, (round_even (y / 5) * 5)%Z).
(** Spatialcount.py 304: comparison of keys *)
Definition origin_eqb (a b : Z * Z) : bool := Z.eqb (fst a) (fst b) && Z.eqb (snd a) (snd b).
(** Spatialcount.py 292-293 *)
Definition circle (ns : nat) : list pt := map (fun i => (cos (2 * PI * INR i / INR ns), sin (2 * PI * INR i / INR ns))) (seq 0 (S ns)).
(** Spatialcount.py 302-312: the projections made are kept in a dictionary *)
Fixpoint rims_from (proj : Z * Z -> projection) (ns : nat) (cs : list (R * pt)) (t : list ((Z * Z) * projection)) : list ring :=
  match cs with
  | [] => []
  | (d, (x, y)) :: r =>
      let o := origin_of x y in
      let t := match find (fun e => origin_eqb (fst e) o) t with Some _ => t | None => (o, proj o) :: t end in
      match find (fun e => origin_eqb (fst e) o) t with
      | None => []
      | Some (_, (back, to)) =>
          let (dx, dy) := to (x, y) in
          let rad := d * 1000 / 2 in
          map (fun c => back (dx + fst c * rad, dy + snd c * rad)) (circle ns) :: rims_from proj ns r t
      end
  end.
(** Spatialcount.py 301-313 *)
Definition find_rims (proj : Z * Z -> projection) (ns : nat) (cs : list (R * pt)) : list ring := rims_from proj ns cs [].

(** ** 339-413: plot, the frame of the map.  [exteriors] are the outlines of the parts of the area and [rims] those of the craters,
    both projected; [own] says that the map is drawn in the axes of the plot set. *)
(** gm/maths/range.py 15-28: nan for an empty list *)
Definition range (xs : list R) : res (R * R) := match xs with [] => Err NotANumber | x :: l => Ok (list_min x l, list_max x l) end.
(** Spatialcount.py 372-373, 381-382: the range so far, if any, takes part *)
Definition grow (r : option (R * R)) (xs : list R) : res (option (R * R)) :=
  do! q <- range (match r with Some (a, b) => xs ++ [a; b] | None => xs end); Ok (Some q).
(** Spatialcount.py 356, 377: the loops *)
Fixpoint grow_all (r : option (R * R)) (l : list (list R)) : res (option (R * R)) :=
  match l with [] => Ok r | xs :: l => do! q <- grow r xs; grow_all q l end.
(** Spatialcount.py 345, 356-382; list(None) (381-382) fails *)
Definition extent (exteriors rims : list (list R)) : res (R * R) :=
  do! a <- grow_all None exteriors;
  match a with
  | None => Err TypeError
  | Some _ => do! b <- grow_all a rims; match b with Some r => Ok r | None => Err TypeError end
  end.
(** Spatialcount.py 384-385 *)
Definition widened (margin : R) (r : R * R) : res (R * R) :=
  do! q <- range [fst r; snd r]; Ok (fst q + -1 * (snd r - fst r) * margin, snd q + 1 * (snd r - fst r) * margin).
(** Spatialcount.py 384-385, 410-411 *)
Definition map_frame (exteriors rims : list ring) (own : bool) : res ((R * R) * (R * R)) :=
  do! xr <- extent (map (map fst) exteriors) (map (map fst) rims);
  do! yr <- extent (map (map snd) exteriors) (map (map snd) rims);
  let m := if own then 1 / 10 else 2 / 100 in
  do! x <- widened m xr; do! y <- widened m yr; Ok (x, y).
