(** What a diagram consists of and in which order it is drawn: Craterplotset.py draw.  Definitions only. *)
From Coq Require Import String Ascii List ZArith Reals Bool Arith.
From Verif Require Import Base NumModel StrModel FmtModel SetModel ProdModel DenModel DiagModel.
Import ListNotations.
Local Open Scope R_scope.

(** Craterplotset.py 470-551: what draw asks for.  [Space] are the axes, with the age axis or not; [Functions] the names of the functions; [Epochs] the epochs of the view; [Curve] a curve of densities, bold or grey, with its label;
    [Equilibrium] the line of the equilibrium function; [Isochrons] those listed; [Plot] what the plot of that index adds (OverModel, SeqModel); [Legend] the legend (LegModel) *)
Inductive part := Space (age_axis : bool) | Functions (text : str) | Epochs | Curve (label : option str) (main : bool) | Equilibrium | Isochrons | Plot (i : nat) | Legend.
(** Craterplotset.py 32-69: what draw reads; the functions are None if not set; [ds_bins] has the binning of each plot *)
Record draw_set := mkDs { ds_view : view; ds_legend : str; ds_ref : R; ds_ratio : res R; ds_ep : option str; ds_ef : option str; ds_pf : option str; ds_cf : option str; ds_isochrons : bool; ds_bins : list string }.
(** Craterplotset.py 476 *)
Definition age_view (v : view) : bool := match v with SequenceView | UncertaintyView => true | _ => false end.
(** Craterplotset.py 512 *)
Definition crater_view (v : view) : bool := match v with Diagram p => negb (is_time p) | _ => false end.
(** Craterplotset.py 499 *)
Definition time_view (v : view) : bool := match v with Diagram p => is_time p | _ => false end.
(** Craterplotset.py 529 *)
Definition binned_view (v : view) : bool := match v with Diagram Differential | Diagram Rplot | Diagram Hartmann => true | _ => false end.
(** the truth value of an object that may be None (Craterplotset.py 486, 501, 513, 515, 522) *)
Definition given {A} (o : option A) : bool := match o with Some _ => true | None => false end.
(** Craterplotset.py 499-510; the chronology is needed for its curve *)
Definition time_parts (s : draw_set) : res (list part) :=
  if time_view (ds_view s) then
    match ds_cf s with
    | None => Err AttributeError
    | Some _ =>
        Ok ((if given (ds_ep s) then [Epochs] else []) ++
            (if negb (Reqb (ds_ref s) 1) then [Curve (Some (L "N(>" ++ fmt_g 6 (ds_ref s) ++ L " km)")) true; Curve (Some (L "N(>1 km)")) false] else [Curve None true]))
    end
  else Ok [].
(** Craterplotset.py 512-520 *)
Definition crater_parts (s : draw_set) : list part :=
  if crater_view (ds_view s) then
    (if given (ds_ep s) then [Epochs] else []) ++ (if given (ds_ef s) then [Equilibrium] else []) ++ (if ds_isochrons s then [Isochrons] else [])
  else [].
(** Craterplotset.py 522 *)
Definition sequence_parts (s : draw_set) : list part :=
  match ds_view s with SequenceView => if given (ds_ep s) then [Epochs] else [] | _ => [] end.
(** Craterplotset.py 529 for one plot *)
Definition plot_part (v : view) (ib : nat * string) : list part :=
  if negb (binned_view v && String.eqb (snd ib) "none") then [Plot (fst ib)] else [].
(** Craterplotset.py 527-530 *)
Definition plot_parts (s : draw_set) : list part :=
  if crater_view (ds_view s) || (match ds_view s with SequenceView => true | _ => false end)
  then concat (map (plot_part (ds_view s)) (rev (combine (seq 0 (length (ds_bins s))) (ds_bins s))))
  else [].
(** Craterplotset.py 470-551; nothing is shown if one of the parts fails *)
Definition draw (s : draw_set) : res (list part) :=
  do! _ <- ds_ratio s;
  do! names <- function_legend (ds_legend s) (ds_view s) (ds_ep s) (ds_ef s) (ds_pf s) (ds_cf s) (ds_ref s);
  do! time <- time_parts s;
  Ok ([Space (age_view (ds_view s))] ++ (match names with Some (t, _, _) => [Functions t] | None => [] end) ++ time ++ crater_parts s ++ sequence_parts s ++ plot_parts s ++ [Legend]).
