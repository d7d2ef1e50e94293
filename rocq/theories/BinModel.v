(** Cratercount.generate_bins and apply_binning.  Definitions only. *)
From Coq Require Import String List ZArith Reals Bool.
From Verif Require Import Base NumModel.
Import ListNotations.
Local Open Scope R_scope.

(** Cratercount.py 15: allowed binnings *)
Definition BINNINGS : list string :=
  ["pseudo-log"; "20/decade"; "10/decade"; "x2"; "root-2"; "4th root-2"; "none"]%string.

(** Cratercount.py 257-262: dictionary bins_per_decade *)
Definition bins_per_decade (b : string) : option R :=
  if String.eqb b "x2" then Some (1 / log10 2)
  else if String.eqb b "root-2" then Some (2 / log10 2)
  else if String.eqb b "4th root-2" then Some (4 / log10 2)
  else if String.eqb b "10/decade" then Some 10
  else if String.eqb b "20/decade" then Some 20
  else None.

(** Cratercount.py 253 *)
Definition pseudo_log_mantissas : list R :=
  [1; 11/10; 12/10; 13/10; 14/10; 15/10; 17/10; 2; 25/10; 3; 35/10; 4; 45/10; 5; 6; 7; 8; 9].

(** Cratercount.py 243-249: log10 of the extreme diameters (gm.range), moved by eps.
    The empty list gives [0,0]. *)
Definition bins_r10 (d : list R) (expand : bool) : R * R :=
  let '(a, b) := match d with
                 | [] => (0, 0)
                 | x :: r => (log10 (list_min x r), log10 (list_max x r))
                 end in
  let eps := 1 / 1000 in
  if expand then (a, b + eps) else (a + eps, b - eps).

(** gm/maths/range.py 18-28 with outer=True on a two-element array: floor of the
    smaller, ceiling of the larger. *)
Definition range_outer (x y : R) : R * R := (IZR (Rfloor (Rmin x y)), IZR (Rceil (Rmax x y))).

(** Cratercount.py 252-255: the pseudo-log boundaries of all decades needed *)
Definition all_bins_pseudo_log (r0 r1 : R) : list R :=
  let b := zrange (Rfloor r0) (Rceil (r1 + 1 / 10)) in
  flat_map (fun e => map (fun a => pow10 (IZR e) * a) pseudo_log_mantissas) b.

(** Cratercount.py 264-266: logarithmic boundaries *)
Definition all_bins_log (bpd offset r0 r1 : R) : list R :=
  let '(f, c) := range_outer (r0 * bpd + offset) (r1 * bpd + offset) in
  let br0 := f - offset in
  let br1 := c - offset in
  map (fun b0 => pow10 (b0 / bpd)) (arange br0 (br1 + 1)).

(** Cratercount.py 268-270: the bins needed.  [Nat.pred] is np.clip(q[0]-1,0,None). *)
Definition needed_bins (bins : list R) (r0 r1 : R) : list R :=
  slice bins (Nat.pred (searchsorted bins (pow10 r0))) (S (searchsorted bins (pow10 r1))).

(** Cratercount.py 233-270 generate_bins.  An unknown binning raises KeyError (262). *)
Definition generate_bins (binning : string) (d : list R) (offset : R) (expand : bool)
  : res (list R) :=
  let '(r0, r1) := bins_r10 d expand in
  if String.eqb binning "none" then Ok d
  else if String.eqb binning "pseudo-log" then Ok (needed_bins (all_bins_pseudo_log r0 r1) r0 r1)
  else match bins_per_decade binning with
       | None => Err KeyError
       | Some bpd => Ok (needed_bins (all_bins_log bpd offset r0 r1) r0 r1)
       end.

(** The dictionary self.binned (Cratercount.py 303-311) *)
Record binned := mkBinned {
  b_dmin : list R; b_dmax : list R; b_width : list R; b_dmean : list R;
  b_n : list R; b_nevent : list R; b_ncum : list R; b_ncum_event : list R }.

(** bins[:-1], as in Cratercount.py 298, 303 *)
Definition edges_lo (bins : list R) : list R := removelast bins.
(** bins[1:], as in Cratercount.py 298, 304 *)
Definition edges_hi (bins : list R) : list R := tl bins.

(** Cratercount.py 309-310: np.flip(np.cumsum(np.flip(h))) *)
Definition flip_cumsum (h : list R) : list R := rev (cumsum (rev h)).

(** Cratercount.py 273-312 apply_binning, as a function of the crater list
    (diameter, fraction); it returns self.binned and self.reverse_indices (the latter
    is left untouched by 'none', shown here as None).
    'none' on an empty list fails to unpack zip(): ValueError. *)
Definition apply_binning (craters : list (R * R)) (binning : string) (offset : R)
  : res (binned * option (list nat)) :=
  if negb (existsb (String.eqb binning) BINNINGS) then Err OtherException
  else if String.eqb binning "none" then
    match craters with
    | [] => Err ValueError
    | _ =>
        let s := sort pair_leb craters in
        let bins := map fst s in
        let h := map snd s in
        let h_event := map (fun _ => 1) s in
        Ok (mkBinned bins bins (map (fun _ => 0) craters) bins h h_event
              (flip_cumsum h) (flip_cumsum h_event), None)
    end
  else
    do! bins <- generate_bins binning (map fst craters) offset true;
    let h_event := histogram bins (map (fun c => (fst c, 1)) craters) in
    let h := histogram bins craters in
    let lo := edges_lo bins in
    let hi := edges_hi bins in
    Ok (mkBinned lo hi
          (map (fun p => snd p - fst p) (combine lo hi))
          (map (fun p => sqrt (snd p * fst p)) (combine lo hi))
          h h_event (flip_cumsum h) (flip_cumsum h_event),
        Some (map (fun c => digitize bins (fst c)) craters)).
