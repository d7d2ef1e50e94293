(** Scales and axes: gm/maths/scl.py, gm/plotting/ticks.py, gm/misc/iterator_with_progress.py, miscellaneous.py
    fractional_crater_transform, Craterplotset.py calculate_time_axis_params.  Definitions only. *)
From Coq Require Import String Ascii List ZArith Reals Bool.
From Verif Require Import Base NumModel StrModel FmtModel.
Import ListNotations.
Local Open Scope R_scope.

(** np.clip, as in scl.py 48, Craterplotset.py 324-325 *)
Definition clip (lo hi x : R) : R := Rmin (Rmax x lo) hi.
(** scl.py 51: conversion to an integer type: towards zero *)
Definition truncate (x : R) : R := IZR (if Rltb x 0 then - Rfloor (- x) else Rfloor x)%Z.

(** ** scl.py 19-41: the names of types, here and in [scl] 7-51.  [x_int] and the flag of [out_range] say whether the first element has an integer type; all other types are
    taken as real numbers.  Single precision is not modelled.  A division by zero gives nan. *)
Inductive type_name := Byte | Int16 | UInt16 | OtherName.
(** scl.py 28-41 *)
Definition out_bounds (t : option type_name) : R * R :=
  match t with
  | Some UInt16 => (0, 65536 - / 10 ^ 2)
  | Some Int16 => (-32768, 32768 - / 10 ^ 2)
  | Some Byte => (0, 256 - / 10 ^ 5)
  | _ => (0, 100 - / 10 ^ 5)
  end.
(** scl.py 7-51 *)
Definition scl (x : list R) (x_int : bool) (in_range : option (R * R)) (out_range : option (R * R * bool)) (tname : option type_name) : res (list R) :=
  match x with
  | [] => match tname, out_range with None, None => Err IndexError | _, _ => Err ValueError end
  | x0 :: r =>
      let '(mn, mx) := match in_range with Some p => p | None => (list_min x0 r, list_max x0 r) end in
      let '(a, b) := match out_range with Some (p, _) => p | None => out_bounds tname end in
      do! whole <- (match tname, out_range with
                    | None, None => Ok x_int
                    | None, Some (_, i) => Ok i
                    | Some (Byte | Int16 | UInt16), None => Ok true
                    | Some _, _ => Err NameError       (* dtype is not set *)
                    end);
      if Reqb mx mn then Err NotANumber
      else let y := map (fun v => clip 0 1 ((v - mn) / (mx - mn))) x in
           Ok (map (fun t => let o := a + t * (b - a) in if whole : bool then truncate o else o) y)
  end.

(** ** miscellaneous.py 35-55 *)
(** miscellaneous.py 48-51 *)
Definition area_fraction (lf : R) : R :=
  let d := 1 - 2 * lf in
  let theta := 2 * acos d in
  1 / (2 * PI) * (theta - sin theta).
(** miscellaneous.py 45 *)
Definition fraction_lf : res (list R) := scl (map INR (seq 0 100)) true None (Some (0, 1, false)) None.
(** miscellaneous.py 46, 53-55 *)
Definition af2lf (af : R) : res R :=
  do! lf <- fraction_lf;
  interp af (combine (map area_fraction lf) lf).

(** ** iterator_with_progress.py 18-23, with a queue.  (Without one the third-party progressbar iterates.)
    One call of next() on the generator: what it does, and the rest. *)
Inductive event (A : Type) := Report (k : Z) (total : option Z) | Item (i : Z) (x : A) | Stop.
Arguments Report {A} k total.
Arguments Item {A} i x.
Arguments Stop {A}.
(** iterator_with_progress.py 20-22 *)
Definition next {A} (total : option Z) (rest : list (Z * A)) : list (event A) * list (Z * A) :=
  match rest with
  | (i, x) :: r => ([Report (i + 1) total; Item i x], r)
  | [] => ([Stop], [])
  end.
(** iterator_with_progress.py 19-23: a consumer that asks [k] times *)
Fixpoint consume {A} (total : option Z) (k : nat) (rest : list (Z * A)) : list (event A) :=
  match k with
  | O => []
  | S k => let '(ev, r) := next total rest in ev ++ consume total k r
  end.
(** enumerate(), as the callers of iterator_with_progress.py 5 use it *)
Definition enumerate {A} (l : list A) : list (Z * A) := combine (map Z.of_nat (seq 0 (length l))) l.

(** ** ticks.py 10-50 *)
(** ticks.py 31-34: the exponent and the nice fraction of an estimate *)
Definition nice_step (estimate : R) : res (Z * R) :=
  let e := Rfloor (log10 estimate) in
  let fraction := estimate / ten e in
  do! nice <- pyindex [1; 2; 5; 10] (Z.of_nat (searchsorted [0; 1; 2; 5] fraction) - 1);
  Ok (e, nice).
(** ticks.py 27-41: the loop, [None] if it has not ended after [fuel] rounds *)
Fixpoint ticks_loop (fuel : nat) (lo hi : R) (max_ticks : Z) (multiplier : R) : option (res (list R * R)) :=
  match fuel with
  | O => None
  | S fuel =>
      match nice_step ((hi - lo) / (IZR max_ticks * multiplier)) with
      | Err x => Some (Err x)
      | Ok (e, nice) =>
          let step := nice * ten e in
          let i0 := Rfloor (lo / step) in
          let i1 := Rceil (hi / step) in
          let ticks := map (fun i => IZR i * step) (zrange i0 (i1 + 1)) in
          if Z.leb (Z.of_nat (length ticks)) max_ticks then Some (Ok (ticks, nice))
          else ticks_loop fuel lo hi max_ticks (multiplier * (9 / 10))
      end
  end.
(** ticks.py 43-48 *)
Definition minor_ticks (nice : R) (n_ticks : nat) (max_minor : Z) : res Z :=
  let choice := if Reqb nice 2 then [1; 2; 4; 10]%Z else [1; 2; 5; 10]%Z in
  if Nat.eqb n_ticks 1 then Err ZeroDivision
  else let b := IZR max_minor / (INR n_ticks - 1) in
       pyindex choice (Z.of_nat (searchsorted (map IZR choice) b)).
(** ticks.py 21-50: a vector of no or equal values ends in np.arange(nan).  The second result is the number of minor ticks per tick. *)
Definition ticks (fuel : nat) (x : list R) (max_ticks : option Z) (max_minor : option Z) : option (res (list R * option Z)) :=
  let max_ticks := match max_ticks with None => 5%Z | Some n => if Z.eqb n 0 then 5%Z else n end in
  let max_ticks := Z.max max_ticks 2 in
  match x with
  | [] => Some (Err ValueError)
  | x0 :: r =>
      let lo := list_min x0 r in
      let hi := list_max x0 r in
      if Reqb lo hi then Some (Err ValueError)
      else match ticks_loop fuel lo hi max_ticks 1 with
           | None => None
           | Some (Err e) => Some (Err e)
           | Some (Ok (t, nice)) =>
               match max_minor with
               | None => Some (Ok (t, None))
               | Some m => if Z.eqb m 0 then Some (Ok (t, None))
                           else Some (do! k <- minor_ticks nice (length t) m; Ok (t, Some k))
               end
           end
  end.

(** ** Craterplotset.py 313-362: calculate_time_axis_params, what it sets *)
Record time_axis := { ta_min : R; ta_max : R; ta_crossover : bool; ta_switch : R; ta_log_min : option R; ta_linear : R;
                      ta_minor : Z; ta_ticks : list R; ta_labels : list str }.
(** Craterplotset.py 352-353 *)
Definition time_labels (tickv : list R) : res (list str) :=
  match rev (map (fmt_g 2) tickv) with
  | [] => Err IndexError
  | s :: r => Ok (rev ((s ++ L " Ga") :: r))
  end.
(** Craterplotset.py 341-342, 347-348, 355: xfrac_linear *)
Definition divide_units (lin log : R) : res R := if Reqb (lin + log) 0 then Err NotANumber else Ok (lin / (lin + log)).
(** Craterplotset.py 327-362; the plot dimensions (315-325) are left out; [fuel] is for [ticks] *)
Definition time_axis_params (fuel : nat) (x0 x1 : R) : option (res time_axis) :=
  let t_max := clip 3 (9 / 2) (Rmax x0 x1) in
  let t_min := clip 0 (t_max - 1 / 10) (Rmin x0 x1) in
  if Rltb t_min 1 && negb (Reqb t_min 0) then
    let t_min := ten (Rfloor (log10 t_min)) in
    let tickv := filter (fun e => Rleb e t_max) [3; 7 / 2; 4] in
    let log_min := log10 t_min in
    Some (do! labels <- time_labels tickv;
          do! f <- divide_units (Rmax (t_max - 3) 0 / (7 / 10)) (log10 3 - log_min);
          Ok {| ta_min := t_min; ta_max := t_max; ta_crossover := true; ta_switch := 3; ta_log_min := Some log_min;
                ta_linear := f; ta_minor := 5; ta_ticks := tickv; ta_labels := labels |})
  else
    match ticks fuel [t_min; t_max] (Some 6%Z) (Some 12%Z) with
    | None => None
    | Some r =>
        Some (do! (t, minor) <- r;
              do! minor <- (match minor with Some k => Ok k | None => Err TypeError end);
              let tickv := filter (fun e => Rleb t_min e && Rleb e t_max) t in
              do! labels <- time_labels tickv;
              do! f <- divide_units 1 0;
              Ok {| ta_min := t_min; ta_max := t_max; ta_crossover := false; ta_switch := t_min; ta_log_min := None;
                    ta_linear := f; ta_minor := minor; ta_ticks := tickv; ta_labels := labels |})
    end.
