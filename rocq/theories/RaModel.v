(** Randomnessanalysis.py: random populations, neighbour search, the pool of worker processes, the shared progress counter,
    statistics, bins, stored trials, panels.  Definitions only. *)
From Coq Require Import String Ascii List ZArith Reals Bool Ratan.
From Verif Require Import Base NumModel BinModel StrModel FmtModel CliModel PlotModel.
Import ListNotations.
Local Open Scope R_scope.

(** ** Cells of the grid and the points in them: the dictionary hpd, in order of insertion *)
Section Geometry.
Variable Point : Type.
(** what is taken from spherely and astropy_healpix: sph.distance in km; sph.within(pt, polygon); lonlat_to_healpix;
    cone_search_lonlat with the radius in radians; the neighbours of one cell (some cells have one neighbour less, which the
    library shows as cell -1, and the neighbours of -1 are an error) *)
Variable dist : Point -> Point -> R.
Variable inside : Point -> bool.
Variable pix : Point -> Z.
Variable cone : Point -> R -> list Z.
Variable neighbours : Z -> res (list Z).
Variable radius : R.                      (* planetary_radius *)

(** Randomnessanalysis.py 557, 571-581: hpd *)
Definition cells := list (Z * list Point).
(** Randomnessanalysis.py 571-573, 595-596: hpd[id], if there *)
Fixpoint cell_get (h : cells) (id : Z) : option (list Point) :=
  match h with [] => None | (k, l) :: r => if Z.eqb k id then Some l else cell_get r id end.
(** Randomnessanalysis.py 573, 579-581: hpd[id] = l *)
Fixpoint cell_set (h : cells) (id : Z) (l : list Point) : cells :=
  match h with
  | [] => [(id, l)]
  | (k, l0) :: r => if Z.eqb k id then (k, l) :: r else (k, l0) :: cell_set r id l
  end.

(** *** sprinkle_discs_pp 548-587 *)
(** Randomnessanalysis.py 570-574: one cell; the state is hpd and count *)
Definition erase_in (diam : R) (pt : Point) (s : cells * Z) (id : Z) : cells * Z :=
  match cell_get (fst s) id with
  | None => s
  | Some l =>
      let l' := filter (fun e => Rltb (diam / 2) (dist pt e)) l in
      (cell_set (fst s) id l', (snd s + Z.of_nat (length l') - Z.of_nat (length l))%Z)
  end.
(** Randomnessanalysis.py 577-582 *)
Definition add_point (pt : Point) (s : cells * Z) : cells * Z :=
  (match cell_get (fst s) (pix pt) with
   | None => cell_set (fst s) (pix pt) [pt]
   | Some l => cell_set (fst s) (pix pt) (l ++ [pt])
   end, (snd s + 1)%Z).
(** Randomnessanalysis.py 565-582: one point inside the polygon *)
Definition place (diam : R) (s : cells * Z) (pt : Point) : cells * Z :=
  add_point pt (fold_left (erase_in diam pt) (cone pt (diam / radius)) s).
(** Randomnessanalysis.py 564-584: the points of one batch *)
Fixpoint place_all (n : Z) (diam : R) (s : cells * Z) (l : list Point) : cells * Z :=
  match l with
  | [] => s
  | pt :: r =>
      if inside pt then
        let s := place diam s pt in
        if Z.leb n (snd s) then s else place_all n diam s r
      else place_all n diam s r
  end.
(** Randomnessanalysis.py 560-584: [batch i z] are the z points drawn in round i; [rate] is area / enclosing_area (not zero); [None] if the loop has
    not ended after [fuel] rounds *)
Fixpoint fill (fuel : nat) (i : nat) (n : Z) (diam rate : R) (batch : nat -> Z -> list Point) (s : cells * Z) : option (cells * Z) :=
  match fuel with
  | O => None
  | S fuel =>
      if Z.ltb (snd s) n then
        let z := (Rfloor (12 / 10 * IZR (n - snd s) / rate) + 10)%Z in
        fill fuel (S i) n diam rate batch (place_all n diam s (batch i z))
      else Some s
  end.
(** Randomnessanalysis.py 548-587; unpacking zip() of no points fails *)
Definition sprinkle_discs (fuel : nat) (n : Z) (diam rate : R) (batch : nat -> Z -> list Point) : option (res (list Point * list Z * cells)) :=
  match fill fuel 0 n diam rate batch ([], 0%Z) with
  | None => None
  | Some (h, _) =>
      let items := flat_map (fun p => map (fun e => (e, fst p)) (snd p)) h in
      match items with
      | [] => Some (Err ValueError)
      | _ => Some (Ok (map fst items, map snd items, h))
      end
  end.

(** *** kth_nearest_neighbour_pp 589-635 *)
(** Randomnessanalysis.py 594-596 (kth_nearest_neighbour_pp 589-635) *)
Definition in_zone (h : cells) (zone : list Z) : list Point :=
  flat_map (fun id => match cell_get h id with Some l => l | None => [] end) zone.
(** Randomnessanalysis.py 593-598 *)
Definition get_kth (h : cells) (k : nat) (pt : Point) (zone : list Z) : res (R * Point) :=
  let dist_pt := map (fun e => (dist pt e, e)) (in_zone h zone) in
  pyindex (sort (fun a b => Rleb (fst a) (fst b)) dist_pt) (Z.of_nat k).
(** Randomnessanalysis.py 595, 607-617: membership in a set of cells *)
Definition isin (l : list Z) (x : Z) : bool := existsb (Z.eqb x) l.
(** Randomnessanalysis.py 611 *)
Definition union (a b : list Z) : list Z := a ++ filter (fun x => negb (isin a x)) (nodup Z.eq_dec b).
(** Randomnessanalysis.py 617 *)
Definition minus (a b : list Z) : list Z := filter (fun x => negb (isin b x)) (nodup Z.eq_dec a).
(** Randomnessanalysis.py 610-617; [None] if the loop has not ended after [fuel] rounds *)
Fixpoint grow (fuel : nat) (h : cells) (k : nat) (locality outer : list Z) : option (res (list Z)) :=
  match fuel with
  | O => None
  | S fuel =>
      let locality := union locality outer in
      if Nat.leb (k + 1) (length (in_zone h locality)) then Some (Ok locality)
      else match mapM neighbours outer with
           | Err e => Some (Err e)
           | Ok ns => grow fuel h k locality (minus (concat ns) locality)
           end
  end.
(** Randomnessanalysis.py 607-628: one point *)
Definition nearest (fuel : nat) (h : cells) (k : nat) (id : Z) (pt : Point) : option (res (R * Point)) :=
  match grow fuel h k [] [id] with
  | None => None
  | Some locality =>
      Some (do! locality <- locality;
            do! (d0, _) <- get_kth h k pt locality;
            get_kth h k pt (cone pt (d0 / radius)))
  end.
(** Randomnessanalysis.py 606-628: the loop *)
Fixpoint each (fuel : nat) (h : cells) (k : nat) (l : list (Z * Point)) : option (res (list (R * Point))) :=
  match l with
  | [] => Some (Ok [])
  | (id, pt) :: r =>
      match nearest fuel h k id pt with
      | None => None
      | Some (Err e) => Some (Err e)
      | Some (Ok p) => match each fuel h k r with
                       | None => None
                       | Some q => Some (do! q <- q; Ok (p :: q))
                       end
      end
  end.
(** Randomnessanalysis.py 589-635: the mean distance (nan for no points) and the neighbours *)
Definition kth_nearest_neighbour (fuel : nat) (pts : list Point) (ids : list Z) (h : cells) (k : nat) : option (res (R * list Point)) :=
  match each fuel h k (combine ids pts) with
  | None => None
  | Some q => Some (do! q <- q;
                    match q with
                    | [] => Err NotANumber
                    | _ => Ok (Rsum (map fst q) / INR (length q), map snd q)
                    end)
  end.

(** *** Randomnessanalysis.py 132-136: the cells of the craters of a bin, one crater *)
Definition add_cell (h : cells) (pt : Point) : cells := fst (add_point pt (h, 0%Z)).
(** Randomnessanalysis.py 131-136 *)
Definition cells_of (pts : list Point) : cells := fold_left add_cell pts [].
(** Randomnessanalysis.py 129-137 *)
Definition bin_points (pts : list Point) : res (list Point * list Z * cells) :=
  match pts with [] => Err ValueError | _ => Ok (pts, map pix pts, cells_of pts) end.
End Geometry.
Arguments cell_get {Point}.
Arguments cell_set {Point}.

(** random_points_pp, Randomnessanalysis.py 540-546: one point for two uniform random numbers; degrees.  [xr] and [yr] are the limits *)
Definition radians (x : R) : R := x * PI / 180.
(** np.degrees, Randomnessanalysis.py 544 *)
Definition degrees (x : R) : R := x * 180 / PI.
(** Randomnessanalysis.py 544-545: np.random.uniform(a, b) for a number u in 0 .. 1 *)
Definition uniform (a b u : R) : R := a + (b - a) * u.
(** Randomnessanalysis.py 540-546 *)
Definition random_point (xr yr : R * R) (u v : R) : R * R :=
  let y0 := sin (radians (fst yr)) in
  let y1 := sin (radians (snd yr)) in
  (uniform (fst xr) (snd xr) v, degrees (asin (uniform y0 y1 u))).
(** Randomnessanalysis.py 55-64, establish_hpx: 2**round(log2(sqrt(n_hpx/12))) *)
Definition nside (planetary_radius area n : R) : R :=
  let area_globe := 4 * PI * planetary_radius ^ 2 in
  let desired_nbins := n / 10 in
  let desired_bin_area := area / desired_nbins in
  let desired_n_hpx := area_globe / desired_bin_area in
  powerRZ 2 (round_even (ln (sqrt (desired_n_hpx / 12)) / ln 2)).

(** ** Randomnessanalysis.py 489-519, montecarlo_pp: what a worker does.  The executor hands the trials to its worker processes in the order of submission; a worker runs one at a
    time; results come back in any order and are kept by the futures.  Each process has its own copy of the random generator. *)
Inductive action := Take (w : nat) | Finish (w : nat).
Section Pool.
Variables Measure Rng : Type.
(** run_trial 480-483, given the index and the state of the generator *)
Variable trial : nat -> Rng -> Measure * Rng.
(** the generator of each process at its start.  With the start method fork it is the copy of that of the parent. *)
Variable start : nat -> Rng.
(** Randomnessanalysis.py 505-510: the state of the executor: the next trial, what each worker does, its generator, the results *)
Record pool := mkPool { p_next : nat; p_busy : nat -> option (nat * Measure); p_rng : nat -> Rng; p_done : list (nat * Measure) }.
(** one entry of such a state changes (Randomnessanalysis.py 505-510) *)
Definition set_at {A} (f : nat -> A) (w : nat) (a : A) : nat -> A := fun v => if Nat.eqb v w then a else f v.
(** Randomnessanalysis.py 505-510, 483-487: one action; [None] for an action that cannot happen *)
Definition step (workers trials : nat) (p : pool) (a : action) : option pool :=
  match a with
  | Take w =>
      match p_busy p w with
      | Some _ => None
      | None => if Nat.ltb w workers && Nat.ltb (p_next p) trials then
                  let '(m, r) := trial (p_next p) (p_rng p w) in
                  Some (mkPool (S (p_next p)) (set_at (p_busy p) w (Some (p_next p, m))) (set_at (p_rng p) w r) (p_done p))
                else None
      end
  | Finish w =>
      match p_busy p w with
      | None => None
      | Some t => Some (mkPool (p_next p) (set_at (p_busy p) w None) (p_rng p) (p_done p ++ [t]))
      end
  end.
(** Randomnessanalysis.py 505-510: a schedule of actions *)
Fixpoint exec (workers trials : nat) (p : pool) (l : list action) : option pool :=
  match l with [] => Some p | a :: r => match step workers trials p a with Some p => exec workers trials p r | None => None end end.
(** Randomnessanalysis.py 505-510: the state at the start *)
Definition pool0 : pool := mkPool 0 (fun _ => None) start [].
(** Randomnessanalysis.py 517: future.result() of trial i: [None] while it is not there *)
Fixpoint result (d : list (nat * Measure)) (i : nat) : option Measure :=
  match d with [] => None | (k, m) :: r => if Nat.eqb k i then Some m else result r i end.
(** Randomnessanalysis.py 515-518: the results in the order of the futures *)
Fixpoint collect (d : list (nat * Measure)) (l : list nat) : option (list Measure) :=
  match l with
  | [] => Some []
  | i :: r => match result d i, collect d r with Some m, Some ms => Some (m :: ms) | _, _ => None end
  end.
(** Randomnessanalysis.py 505-519 *)
Definition montecarlo (workers trials : nat) (schedule : list action) : option (list Measure) :=
  match exec workers trials pool0 schedule with
  | None => None
  | Some p => collect (p_done p) (seq 0 trials)
  end.
(** Randomnessanalysis.py 33, 505: all processors but one; a pool of no workers is refused *)
Definition montecarlo_pp (cpus trials : nat) (schedule : list action) : option (res (list Measure)) :=
  match cpus - 1 with
  | O => Some (Err ValueError)
  | S w => match montecarlo (S w) trials schedule with Some m => Some (Ok m) | None => None end
  end%nat.
End Pool.

(** ** Randomnessanalysis.py 483-487, run_trial_wrapper: progress.value += 1 on a manager's value is a read and, later, a write *)
Inductive access := Read (w : nat) | Write (w : nat).
(** Randomnessanalysis.py 486: one of the two *)
Definition access_step (s : Z * (nat -> option Z)) (a : access) : option (Z * (nat -> option Z)) :=
  match a with
  | Read w => match snd s w with None => Some (fst s, set_at (snd s) w (Some (fst s))) | Some _ => None end
  | Write w => match snd s w with Some v => Some ((v + 1)%Z, set_at (snd s) w None) | None => None end
  end.
(** Randomnessanalysis.py 486: any number of them, of any workers *)
Fixpoint accesses (s : Z * (nat -> option Z)) (l : list access) : option (Z * (nat -> option Z)) :=
  match l with [] => Some s | a :: r => match access_step s a with Some s => accesses s r | None => None end end.
(** Randomnessanalysis.py 503 *)
Definition progress0 : Z * (nat -> option Z) := (0%Z, fun _ => None).

(** ** np.mean, Randomnessanalysis.py 183; calculate_stats is 171-186; nan where the trials do not vary *)
Definition mean (m : list R) : R := Rsum m / INR (length m).
(** np.std, Randomnessanalysis.py 183 *)
Definition std (m : list R) : R := sqrt (Rsum (map (fun x => (x - mean m) ^ 2) m) / INR (length m)).
(** Randomnessanalysis.py 175 *)
Record stats := mkStats { s_m0 : R; s_mn : R; s_sd : R; s_n_sigma : option R; s_percentile : R }.
(** Randomnessanalysis.py 182-186 *)
Definition calculate_stats (m0 : R) (m : list R) : res stats :=
  match m with
  | [] => Err NotANumber
  | _ =>
      let mn := mean m in
      let sd := std m in
      let n_sigma := if Reqb sd 0 then None else Some ((m0 - mn) / sd) in
      let percentile := INR (searchsorted (sort Rleb m) m0) / INR (length m) * 100 in
      Ok (mkStats m0 mn sd n_sigma percentile)
  end.

(** ** Bins *)
(** Randomnessanalysis.py 119, 151: the name of a bin *)
Definition bin_key (b : R) : str := fmt_g 3 (ln b / ln 2).
(** Randomnessanalysis.py 117-129: the craters of a bin.  The crater list is (diameter, fraction) and whatever else; [bd], [ri] are from
    apply_binning('root-2') (37-38) *)
Definition bin_craters {A} (bd : binned) (ri : list nat) (craters : list A) (bin : str) : res (list A) :=
  let bin_keys := map bin_key (b_dmin bd) in
  do! keys <- mapM (fun i => pyindex bin_keys (Z.of_nat i - 1)) ri;
  Ok (map snd (filter (fun p => seqb (fst p) bin) (combine keys craters))).
(** Randomnessanalysis.py 144-146 *)
Definition min_count (measure : str) : res Z :=
  if seqb measure (L "sdaa") then Ok 4%Z else if seqb measure (L "m2cnd") then Ok 3%Z else Err NameError.
(** Randomnessanalysis.py 140-160: the trials of a measure; [run b n] is montecarlo_pp *)
Definition montecarlo_split {M} (measure : str) (run : R -> Z -> M) (bd : binned) : res (list (str * M)) :=
  match b_dmin bd with
  | [] => Ok []
  | _ =>
  do! least <- min_count measure;
  Ok (fold_left (fun d p => let '(b, n) := p in if Rleb (IZR least) n then dict_set d (bin_key b) (run b (Rfloor n)) else d)
                (combine (b_dmin bd) (b_nevent bd)) [])
  end.

(** ** Randomnessanalysis.py 162-169, run_montecarlo: stored trials *)
Record record := mkRecord { n_trials : Z; trials : list (str * list R) }.
(** Randomnessanalysis.py 32, 168: self.montecarlo *)
Definition store := list (str * record).
(** Randomnessanalysis.py 167: measure in self.montecarlo *)
Fixpoint stored (s : store) (k : str) : option record :=
  match s with [] => None | (k', r) :: s => if seqb k' k then Some r else stored s k end.
(** Randomnessanalysis.py 167-169; [compute measure n] are the trials of montecarlo_split *)
Definition run_montecarlo (compute : str -> Z -> list (str * list R)) (s : store) (n : Z) (measure : str) : store :=
  match stored s measure with
  | Some r => if Z.leb n (n_trials r) then s else dict_set s measure (mkRecord n (compute measure n))
  | None => dict_set s measure (mkRecord n (compute measure n))
  end.

(** cli.py 208-209 and 406-411: which measures are run, in the order Python goes through the set.  -measure is split at commas and
    put into the settings by construct_cps_dict; randomness_analysis checks the names, unless the value is empty *)
Definition chosen_measures (default : list str) (arg : option str) : res (list str) :=
  match arg with
  | None => Ok default
  | Some a =>
      let chosen := nodup (list_eq_dec ascii_dec) (split_chr (ch ",") [] a) in
      match a with
      | [] => Ok chosen
      | _ => if forallb (fun m => existsb (seqb m) [L "m2cnd"; L "sdaa"]) chosen then Ok chosen else Err SysExit
      end
  end.
(** cli.py 405 *)
Definition chosen_trials (default : Z) (arg : option Z) : Z :=
  match arg with Some n => if Z.eqb n 0 then default else n | None => default end.

(** ** Randomnessanalysis.py 320-324 (plot_montecarlo_split, 319-343): the panels, as position (column, row) in a square of dim panels a side, row 0 lowest *)
Definition select_bins {A} (bins : list A) (selection : option (list Z)) : list A * bool :=
  match selection with
  | None | Some [] => (bins, true)
  | Some sel =>
      (flat_map (fun i => if Z.leb 1 i && Z.leb i (Z.of_nat (length bins)) then
                            match nth_error bins (Z.to_nat (i - 1)) with Some b => [b] | None => [] end else []) sel,
       existsb (Z.eqb 0) sel)
  end.
(** Randomnessanalysis.py 325 *)
Definition panel_dim (n_bins : nat) (n_sigma : bool) : Z := Rceil (sqrt (INR n_bins + (if n_sigma then 1 else 0))).
(** Randomnessanalysis.py 330 *)
Definition panel (dim i : Z) : Z * Z := ((i mod dim)%Z, (dim - 1 - i / dim)%Z).
(** Randomnessanalysis.py 325, 339-343 *)
Definition panels (n_bins : nat) (n_sigma : bool) : list (Z * Z) :=
  let dim := panel_dim n_bins n_sigma in
  map (fun i => panel dim (Z.of_nat i)) (seq 0 n_bins) ++ (if n_sigma then [panel dim (dim ^ 2 - 1)] else []).
