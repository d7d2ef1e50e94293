(** The isochrons of the option isochrons and their labels: Craterplotset.py plot_isochrons.  Definitions only. *)
From Coq Require Import String Ascii List ZArith Reals Bool.
From Verif Require Import Base NumModel StrModel FmtModel ChronModel ProdModel EpModel OverModel.
Import ListNotations.
Local Open Scope R_scope.

(** Craterplotset.py 586-593: the text with the logarithms of its place, its angle in degrees, whether it ends above the place, and whether it is small *)
Record iso_label := mkLabel { lb_x : R; lb_y : R; lb_angle : R; lb_text : str; lb_above : bool; lb_small : bool }.
(** np.mean, in Craterplotset.py 581 *)
Definition mean (l : list R) : R := fold_right Rplus 0 l / INR (length l).
(** Craterplotset.py 576-578: the logarithms of the diameters at the places that the label may have; [l] has the logarithms of the diameters and (positive) densities, [aspect] is data_aspect *)
Definition label_places (xr yr : R * R) (aspect : R) (l : list (R * R)) : res (list R) :=
  let top := filter (fun p => Rltb (Rabs (snd p - (snd yr - 1 / 10 * aspect))) (1 / 10)) l in
  let left_ := match l with
               | [] => Err IndexError
               | p0 :: _ => Ok (map fst (filter (fun p => Rltb (Rabs (fst p - Rmax (fst xr + 15 / 100) (fst p0))) (1 / 10)) l))
               end in
  match top with
  | [] => left_
  | p :: _ => if Rltb (fst p) (fst xr) then left_ else Ok (map fst top)
  end.
(** Craterplotset.py 582, 584: the logarithm of a density, which is positive *)
Definition log_density_at (pf : productionfn) (pres : string) (a0 x : R) : res R :=
  do! v <- evaluate pf pres (pow10 x) (Some a0); match v with Some y => Ok (log10 y) | None => Err NotANumber end.
(** Craterplotset.py 570-593 for one isochron: its curve, and its label if it has one.  The second argument of arctan2 is positive *)
Definition plot_isochron (pf : productionfn) (cf : chron) (pres : string) (ef : option productionfn) (xr yr : R * R) (aspect : R) (i : isochron) : res (list (R * R) * option iso_label) :=
  let '(t, hide, above, small) := i in
  let a0 := cf_a0 cf t in
  do! iso <- getisochron pf pres a0 ef;
  do! q <- label_places xr yr aspect (map (fun p => (log10 (fst p), log10 (snd p))) iso);
  match q with
  | [] => Ok (logged iso, None)
  | _ =>
      if hide then Ok (logged iso, None) else
      let sx := mean q in
      do! y0 <- log_density_at pf pres a0 sx;
      let sy := y0 - 5 / 100 in
      do! y1 <- log_density_at pf pres a0 (sx + 3 / 10);
      do! txt <- str_age t 0 0 {| sf := 3; FmtModel.unit := None; simple := true; no_error := false; mu := false; mathml := false |};
      Ok (logged iso, Some (mkLabel sx sy (atan ((y1 - sy) / (3 / 10 * aspect)) * 180 / PI) txt above small))
  end.
(** Craterplotset.py 569-593 *)
Definition plot_isochrons (pf : productionfn) (cf : chron) (pres : string) (ef : option productionfn) (xr yr : R * R) (aspect : R) (option_text : str) : res (list (list (R * R) * option iso_label)) :=
  mapM (plot_isochron pf cf pres ef xr yr aspect) (parse_isochrons option_text).
