(** The epochs on a crater diagram: Epochs.py oplot.  Definitions only. *)
From Coq Require Import String Ascii List ZArith Reals Bool.
From Verif Require Import Base NumModel ChronModel ProdModel EpModel OverModel.
Import ListNotations.
Local Open Scope R_scope.

(** Epochs.py 146, 149: an area given by its outline in the colour with a place in the list of greys, or a line; points in data coordinates with the logarithm of the diameter *)
Inductive epoch_element := Area (outline : list (R * R)) (grey : Z) | Boundary (line : list (R * R)).
(** Epochs.py 140-141: cps.ef is None if no equilibrium function is chosen *)
Definition epoch_isochrons (pf : productionfn) (cf : chron) (pres : string) (ef : option productionfn) (time : list R) : res (list (list (R * R))) :=
  mapM (fun t => getisochron pf pres (cf_a0 cf t) ef) (tl time).
(** Epochs.py 144-149: [colour] from the second on, [boundary] from the first on *)
Fixpoint epoch_areas (colour : list Z) (boundary : list bool) (iso : list (list (R * R))) {struct iso} : res (list epoch_element) :=
  match iso with
  | a :: ((b :: _) as r) =>
      match colour, boundary with
      | c :: cs, bd :: bs => do! rest <- epoch_areas cs bs r;
                             Ok (Area (logged (a ++ rev b)) (3 - c)%Z :: (if bd then [Boundary (logged a)] else []) ++ rest)
      | _, _ => Err IndexError
      end
  | _ => Ok []
  end.
(** Epochs.py 133-149: [f] is what decode_formatting returns *)
Definition epochs_oplot (pf : productionfn) (cf : chron) (pres : string) (ef : option productionfn) (time : list R) (f : res formats) : res (list epoch_element) :=
  do! iso <- epoch_isochrons pf cf pres ef time;
  do! f <- f;
  epoch_areas (tl (f_colour f)) (f_boundary f) iso.
