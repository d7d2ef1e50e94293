(** Spatial crater counts: Spatialcount.py readSCCfile and writeSCCfile.  Definitions only. *)
From Coq Require Import String Ascii List ZArith Reals Bool.
From Verif Require Import Base NumModel BinModel StrModel CliModel FmtModel TsModel IoModel.
Import ListNotations.
Local Open Scope R_scope.

(** Spatialcount.py 24: Craterlist *)
Record crater := mkCrater { c_diam : R; c_frac : R; c_lon : R; c_lat : R }.
(** Spatialcount.py 82-83: a ring of vertices (longitude, latitude) *)
Definition ring := list (R * R).
(** Spatialcount.py 69-108: what readSCCfile sets; polygons of the library spherely are represented by their exterior and holes.  The area, the
    perimeter and the enclosing polygon, which the library computes from them, are left out. *)
Record spatial := mkSpatial { sp_craters : list crater; sp_radius : R; sp_polygons : list (ring * list ring) }.

(** ** Spatialcount.py 60: re.sub(r"a[-_]axis radius", "oct_a_axis_radius", s) *)
Definition axis_at (s : str) : bool := starts_with (L "a-axis radius") s || starts_with (L "a_axis radius") s.
(** Spatialcount.py 60: [skip] characters belong to the last match *)
Fixpoint sub_axis (skip : nat) (s : str) : str :=
  match s with
  | [] => []
  | c :: t =>
      match skip with
      | S k => sub_axis k t
      | O => if axis_at s then L "oct_a_axis_radius" ++ sub_axis 12 t else c :: sub_axis 0 t
      end
  end.
(** Spatialcount.py 78, 82: int(v), without underscores *)
Definition int_of (v : tsval) : res Z :=
  match v with
  | TStr s =>
      let '(neg, t) := py_sign (strip is_space s) in
      match span is_digit t with
      | ([], _) => Err ValueError
      | (k, []) => Ok (if neg then (- nat_text k)%Z else nat_text k)
      | _ => Err ValueError
      end
  | _ => Err TypeError
  end.
(** Spatialcount.py 78, 82: a column of unit_boundary *)
Definition list_column (c : tsval) (k : str) : res (list tsval) := do! v <- sub c k; elements v.
(** Spatialcount.py 78: b == 'int' *)
Definition is_text (w : str) (v : tsval) : bool := match v with TStr s => seqb s w | _ => false end.
(** Spatialcount.py 78: sorted(set(...)) of pairs (number, internal) *)
Definition tag_leb (p q : Z * bool) : bool :=
  Z.ltb (fst p) (fst q) || Z.eqb (fst p) (fst q) && (negb (snd p) || snd q).
(** Spatialcount.py 78: equality in the set *)
Definition tag_eqb (p q : Z * bool) : bool := Z.eqb (fst p) (fst q) && Bool.eqb (snd p) (snd q).
(** Spatialcount.py 78: set(...) *)
Fixpoint unique (l : list (Z * bool)) : list (Z * bool) :=
  match l with [] => [] | x :: t => if existsb (tag_eqb x) t then unique t else x :: unique t end.
(** Spatialcount.py 83: groupby *)
Definition same_point (p q : R * R) : bool := Reqb (fst p) (fst q) && Reqb (snd p) (snd q).
(** Spatialcount.py 83 *)
Fixpoint drop_repeats (l : ring) : ring :=
  match l with
  | [] => []
  | p :: t => match t with q :: _ => if same_point p q then drop_repeats t else p :: drop_repeats t | [] => [p] end
  end.
(** Spatialcount.py 82-83: the vertices with number i *)
Definition ring_number (lon lat : list tsval) (ids : list Z) (i : Z) : res ring :=
  do! pts <- mapM (fun t => do! x <- float_of (fst (fst t)); do! y <- float_of (snd (fst t)); Ok (x, y))
                  (filter (fun t => Z.eqb (snd t) i) (combine (combine lon lat) ids));
  Ok (drop_repeats pts).
(** Spatialcount.py 85, 100-102: d[i] *)
Definition ring_get (d : list (Z * ring)) (i : Z) : res ring :=
  match find (fun p => Z.eqb (fst p) i) d with Some p => Ok (snd p) | None => Err KeyError end.
(** ** Spatialcount.py 59-104: readSCCfile.  [within] is the test of the library whether one polygon lies in another; the
    library accepts all rings here. *)
Definition read_spatial (within : ring -> ring -> bool) (fs : files) (name : str) : res spatial :=
  do! ls <- read_textfile fs name false true true;
  do! o <- read_structure (sub_axis 0 (join [nl] ls));
  do! c <- (match o with Some d => Ok d | None => Err TypeError end);
  do! cr <- dict_get c (L "crater");
  do! diam <- float_column cr (L "diam");
  do! frac <- (if has (TDict c) (L "fraction") then float_column cr (L "fraction") else Ok (map (fun _ => 1) diam));
  do! lon <- float_column cr (L "lon");
  do! lat <- float_column cr (L "lat");
  let q := sorted_positions diam in
  do! d1 <- take_at diam q; do! f1 <- take_at frac q; do! x1 <- take_at lon q; do! y1 <- take_at lat q;
  do! rv <- (match lookup c (L "a_axis_radius") with
             | Some v => Ok v
             | None => dict_get c (L "oct_a_axis_radius")
             end);
  do! radius <- (match rv with TStr s => py_float (hd [] (split_chr (ch " ") [] s)) | _ => Err AttributeError end);
  do! b <- dict_get c (L "unit_boundary");
  do! subs <- list_column b (L "sub_area"); do! tags <- list_column b (L "tag");
  do! ids <- mapM int_of subs;
  let z := sort tag_leb (unique (combine ids (map (is_text (L "int")) tags))) in
  do! vlon <- list_column b (L "lon"); do! vlat <- list_column b (L "lat");
  do! d <- mapM (fun p => do! r <- ring_number vlon vlat ids (fst p); Ok (fst p, r)) z;
  (* 86-93: the range is only initialised for number 1, which comes first if present *)
  do! _ <- (match z with (i, _) :: _ => if Z.eqb i 1 then Ok tt else Err NameError | [] => Ok tt end);
  do! polys <- mapM (fun p =>
      do! shell <- ring_get d (fst p);
      do! later <- mapM (fun p' => ring_get d (fst p')) (skipn (Z.to_nat (fst p)) z);
      Ok (shell, filter (fun r => within r shell) later))
    (filter (fun p => negb (snd p)) z);
  Ok (mkSpatial (map (fun t => mkCrater (fst (fst (fst t))) (snd (fst (fst t))) (snd (fst t)) (snd t))
                   (combine (combine (combine d1 f1) x1) y1)) radius polys).

(** ** Spatialcount.py 219-222: the character between columns; writeSCCfile is 208-251.  A shape of the area file is the list of its parts. *)
Definition tab : ascii := ascii_of_nat 9.
(** Spatialcount.py 212-218: number, tag and vertex of each line *)
Fixpoint part_vertices (i : Z) (first : bool) (parts : list ring) : list (Z * str * (R * R)) :=
  match parts with
  | [] => []
  | r :: rest => map (fun p => (i, if first then L "ext" else L "int", p)) r ++ part_vertices (i + 1) false rest
  end.
(** Spatialcount.py 209-218 *)
Fixpoint shape_vertices (i : Z) (shapes : list (list ring)) : list (Z * str * (R * R)) :=
  match shapes with
  | [] => []
  | s :: rest => part_vertices i true s ++ shape_vertices (i + Z.of_nat (length s)) rest
  end.
(** Spatialcount.py 219 *)
Definition boundary_row (it : nat * (Z * str * (R * R))) : str :=
  let '(k, (a, b, (x, y))) := it in
  pad_right 5 (int_str (Z.of_nat k)) ++ [tab] ++ pad_right 5 (int_str a) ++ [tab] ++ pad_right 4 b ++ [tab] ++
  pad_left 23 (fmt_f 15 x) ++ [tab] ++ pad_left 23 (fmt_f 15 y).
(** Spatialcount.py 219-220 *)
Definition boundary_rows (v : list (Z * str * (R * R))) : list str := map boundary_row (combine (seq 1 (length v)) v).
(** Spatialcount.py 222 *)
Definition crater_row (c : crater) : str :=
  pad_right 12 (fmt_g 7 (c_diam c)) ++ [tab] ++ pad_left 9 (fmt_g 3 (c_frac c)) ++ [tab] ++
  pad_left 23 (fmt_f 15 (c_lon c)) ++ [tab] ++ pad_left 23 (fmt_f 15 (c_lat c)) ++ [tab] ++ L "1".
(** Spatialcount.py 226-246; [from] are the two comments with dates and file names *)
Definition scc_lines (version : str) (from : str * str) (radius area perimeter : R) (v : list (Z * str * (R * R))) (n : Z) (craters : list crater)
  : list str :=
  [L "# Spatial crater count"; L "craterstats_version = " ++ version; L "#"; L "# Derived from:"; L "# " ++ fst from; L "# " ++ snd from; L "#";
   L "a_axis_radius = " ++ fmt_g 6 radius ++ L " <km>"; L "Total_area = " ++ fmt_g 6 area ++ L " <km2>";
   L "Total_perimeter = " ++ fmt_g 6 perimeter ++ L " <km>"; L "#";
   L "#"; L "# Extra lines for OpenCraterTool compatibility:"; L "a-axis radius = " ++ fmt_g 6 radius ++ L " <km>"] ++
  map (fun i => L "# Area_name " ++ int_str (Z.of_nat i) ++ L " = NULL") (seq 1 (Z.to_nat n)) ++
  [L "#"; L "unit_boundary = {vertex, sub_area, tag, lon, lat"] ++ boundary_rows v ++
  [L "}"; L "crater = {diam, fraction, lon, lat, topo_scale_factor"] ++ map crater_row craters ++ [L "}"].
(** Spatialcount.py 208-249 *)
Definition write_scc (version : str) (from : str * str) (fs : files) (name : str) (radius area perimeter : R)
  (shapes : list (list ring)) (craters : list crater) : res files :=
  let v := shape_vertices 1 shapes in
  match rev v with
  | [] => Err IndexError    (* 228: sub_area[-1] *)
  | (n, _, _) :: _ => Ok (write_textfile fs name (scc_lines version from radius area perimeter v n craters) false)
  end.
