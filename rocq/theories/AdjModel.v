(** Randomnessanalysis.py: the standard deviation of adjacent area (sdaa 638-659), the outlines of the cells on the map (oplot_voronoi 78-114), lines to the neighbours
    (oplot_neighbours 66-76), one trial (evaluate_randomness 467-476, run_trial 478-481), and trials one after the other (montecarlo_serial 521-537).
    The geometry library is a parameter: points, shapes, the Voronoi cells of points of the unit sphere, intersection, area, and the geodesics of a sphere. *)
From Coq Require Import String Ascii List ZArith Reals Bool.
From Verif Require Import Base NumModel StrModel RaModel.
Import ListNotations.
Local Open Scope R_scope.

(** math.atan2, Randomnessanalysis.py 652 *)
Definition atan2 (y x : R) : R :=
  if Rltb 0 x then atan (y / x)
  else if Rltb x 0 then (if Rleb 0 y then atan (y / x) + PI else atan (y / x) - PI)
  else if Rltb 0 y then PI / 2 else if Rltb y 0 then - (PI / 2) else 0.
(** a vector, Randomnessanalysis.py 644 *)
Definition xyz : Type := R * R * R.
(** Randomnessanalysis.py 643-644: the unit vector of a place in degrees *)
Definition to_xyz (p : R * R) : xyz :=
  let x := radians (fst p) in
  let y := radians (snd p) in
  (cos y * cos x, cos y * sin x, sin y).
(** Randomnessanalysis.py 652: the place, in degrees, of a unit vector *)
Definition to_lonlat (v : xyz) : R * R :=
  let '(x, y, z) := v in (degrees (atan2 y x), degrees (asin z)).
(** Randomnessanalysis.py 648-651: the vertices, and for each point those around its cell; only indices of vertices are in them *)
Record diagram := mkDiagram { v_vertices : list xyz; v_regions : list (list Z) }.

Section Adjacent.
Context {Point Shape : Type}.
(** sph.get_x, sph.get_y, Randomnessanalysis.py 643 *)
Variable lonlat : Point -> R * R.
(** SphericalVoronoi with sort_vertices_of_regions, Randomnessanalysis.py 648-649; it refuses some points *)
Variable voronoi : list xyz -> res diagram.
(** sph.create_polygon, sph.intersection, sph.area of a given radius, Randomnessanalysis.py 653-656 *)
Variable create_polygon : list (R * R) -> res Shape.
Variable intersection : Shape -> Shape -> res Shape.
Variable area : R -> Shape -> R.
(** Randomnessanalysis.py 654: self.polygon *)
Variable polygon : Shape.
(** Randomnessanalysis.py 656: self.planetary_radius *)
Variable radius : R.

(** sdaa, Randomnessanalysis.py 638-659; np.std of nothing is nan *)
Definition sdaa (pts : list Point) : res (R * list Shape) :=
  do! sv <- voronoi (map (fun p => to_xyz (lonlat p)) pts);
  do! xyz_polygons <- mapM (fun region => mapM (fun id => pyindex (v_vertices sv) id) region) (v_regions sv);
  let ll_polygons := map (map to_lonlat) xyz_polygons in
  do! sph_polygons0 <- mapM create_polygon ll_polygons;
  do! sph_polygons <- mapM (intersection polygon) sph_polygons0;
  let areas := map (area radius) sph_polygons in
  match areas with [] => Err NotANumber | _ => Ok (std areas, sph_polygons) end.

(** ** evaluate_randomness, Randomnessanalysis.py 467-476: the measure and what to draw of it *)
Variables (dist : Point -> Point -> R) (inside : Point -> bool) (pix : Point -> Z) (cone : Point -> R -> list Z) (neighbours : Z -> res (list Z)).
(** Randomnessanalysis.py 471-475; an unknown measure leaves the result undefined *)
Definition evaluate_randomness (fuel : nat) (measure : str) (pts : list Point) (ids : list Z) (h : list (Z * list Point)) : option (res (R * (list Point + list Shape))) :=
  if seqb measure (L "m2cnd") then
    match kth_nearest_neighbour Point dist cone neighbours radius fuel pts ids h 2 with
    | None => None
    | Some r => Some (do! (m, p2) <- r; Ok (m, inl p2))
    end
  else if seqb measure (L "sdaa") then Some (do! (m, p2) <- sdaa pts; Ok (m, inr p2))
  else Some (Err NameError).
(** run_trial, Randomnessanalysis.py 478-481, given what the generator draws; [rate] is area / enclosing_area *)
Definition run_trial (fuel fuel' : nat) (measure : str) (b : R) (n : Z) (rate : R) (batch : nat -> Z -> list Point) : option (res R) :=
  match sprinkle_discs Point dist inside pix cone radius fuel n b rate batch with
  | None => None
  | Some (Err e) => Some (Err e)
  | Some (Ok (pts, ids, h)) =>
      match evaluate_randomness fuel' measure pts ids h with
      | None => None
      | Some r => Some (do! (m, _) <- r; Ok m)
      end
  end.
End Adjacent.

(** ** montecarlo_serial, Randomnessanalysis.py 521-537: the measures, and the numbers put in the queue; [trial] is run_trial (478-481) with the state of the generator *)
Fixpoint serial_from {Measure Rng} (trial : nat -> Rng -> Measure * Rng) (g : Rng) (indices : list nat) : list Measure * list nat :=
  match indices with
  | [] => ([], [])
  | i :: r =>
      let '(m, g) := trial i g in
      let '(ms, ps) := serial_from trial g r in
      (m :: ms, (i + 1)%nat :: ps)
  end.
(** Randomnessanalysis.py 525-537 *)
Definition montecarlo_serial {Measure Rng} (trial : nat -> Rng -> Measure * Rng) (g : Rng) (trials : nat) : list Measure * list nat :=
  serial_from trial g (seq 0 trials).

(** ** oplot_voronoi, Randomnessanalysis.py 78-114.  A shape from the geometry library: one polygon or several, each with its outer ring (87-89) *)
Inductive geometry := Single (ring : list (R * R)) | Several (rings : list (list (R * R))).
(** Randomnessanalysis.py 89 *)
Definition flatten (shapes : list geometry) : list (list (R * R)) :=
  flat_map (fun s => match s with Several g => g | Single r => [r] end) shapes.
(** Randomnessanalysis.py 91-92: the parts of a side *)
Definition fractions : list R := linspace 0 (1 - 1 / 20) 20.
(** Randomnessanalysis.py 97 *)
Definition interp_threshold : R := 2 * PI / 1800.
Section Outline.
(** geod.inv and geod.fwd on the unit sphere, Randomnessanalysis.py 93, 103-105: azimuth and distance from one place to another; the place at a distance in a direction *)
Variable inv : R * R -> R * R -> R * R.
Variable fwd : R * R -> R -> R -> R * R.
(** Randomnessanalysis.py 103-110: what one side adds *)
Definition side (p q : R * R) : list (R * R) :=
  let '(azimuth, distance) := inv p q in
  if Rltb interp_threshold distance then map (fun f => fwd p azimuth (distance * f)) fractions else [p].
(** Randomnessanalysis.py 99-110 *)
Definition outline (ring : list (R * R)) : list (R * R) :=
  flat_map (fun i => side (nth i ring (0, 0)) (nth ((i + 1) mod length ring) ring (0, 0))) (seq 0 (length ring)).
(** Randomnessanalysis.py 98-114: what is drawn of the cells; [ortho] is self.ortho_proj *)
Definition oplot_voronoi (ortho : R * R -> R * R) (shapes : list geometry) : list (list (R * R)) :=
  map (fun ring => map ortho (outline ring)) (flatten shapes).
End Outline.
(** ** oplot_neighbours, Randomnessanalysis.py 73-76: a line from each crater to its neighbour *)
Definition oplot_neighbours (ortho : R * R -> R * R) (craters neighbours : list (R * R)) : list ((R * R) * (R * R)) :=
  map (fun p => (ortho (fst p), ortho (snd p))) (combine craters neighbours).
