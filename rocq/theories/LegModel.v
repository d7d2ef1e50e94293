(** Model of the legend of a crater plot and of the summary table of ages:
    Craterplot.py make_legend_label, Craterplotset.py draw (legend) and create_summary_table. *)
From Coq Require Import String List Ascii ZArith Reals Bool.
Import ListNotations.
From Verif Require Import Base StrModel NumModel FmtModel CliModel.
Local Open Scope R_scope.

(** constants.py 13: OPLOT_TYPES_SHORT *)
Inductive ptype := Tdata | Tcfit | Tdfit | Tpoisson | Tbpoisson.
(** Craterplot.py 238, Craterplotset.py 667 *)
Definition is_fit (t : ptype) : bool := match t with Tdata => false | _ => true end.
(** Craterplot.py 80-81, 91-92: a count of craters is a numpy integer if it was made by binning diameters, and a float if it was read from a binned
    file (Cratercount.py 106-118). *)
Inductive count := Whole (z : Z) | Float (x : R).
(** the number itself, as in Craterplot.py 249 *)
Definition count_value (c : count) : R := match c with Whole z => IZR z | Float x => x end.

(** Craterplot.py 18-66, 69-97: one overplot with its count; [p_range] has None for an infinite upper end;
    [p_bins] is the range of the bins of 258 ([generate_bins], modelled in BinModel); the result of [calculate_age]
    is in n, n_event, t, a0 and bin_range (None for Poisson ages). *)
Record cplot := mkPlot {
  p_type : ptype; p_hide : bool; p_nobin : bool; p_name : str; p_source : str; p_binning : str;
  p_area : R; p_perimeter : option R; p_buffered : bool; p_prebinned : bool;
  p_n : R; p_nevent : count; p_range : R * option R; p_bins : res (R * R); p_binrange : option (R * R); p_resurf : Z;
  p_t : R * R * R; p_a0 : R * R * R }.

(** t[0], a0[0] (Craterplot.py 203, 261; Craterplotset.py 721-723) *)
Definition t0 {A} (t : A * A * A) : A := fst (fst t).
(** t[1], a0[1] (Craterplot.py 203, 261; Craterplotset.py 721-723) *)
Definition t1 {A} (t : A * A * A) : A := snd (fst t).
(** t[2], a0[2] (Craterplot.py 203, 261; Craterplotset.py 721-723) *)
Definition t2 {A} (t : A * A * A) : A := snd t.
(** scientific_notation.py 24: unit km2 *)
Definition km2 : str * str := (L "$ km$^{2}", L "<msup><mtext>&#8239;km</mtext><mtext>2</mtext></msup>").
(** scientific_notation.py 23: unit km-2 *)
Definition km_2 : str * str := (L "$ km$^{-2}", L "<msup><mtext>&#8239;km</mtext><mtext>-2</mtext></msup>").
(** Craterplot.py 261, Craterplotset.py 723 *)
Definition density_text (a0 : R * R * R) (mathml : bool) : res str :=
  scientific_notation (pow10 (t0 a0)) (Some (pow10 (t2 a0), pow10 (t1 a0))) 3 false mathml km_2.

(** ** Craterplot.py 235-273: make_legend_label, for presentations other than sequence (whose extra entries A and a, 239-244,
    are left out); [legend] is the string of the option, [ref] the reference diameter *)
Definition has (legend : str) (c : ascii) : bool := mem c legend.
(** Craterplot.py 246-253 *)
Definition count_label (p : cplot) : res str :=
  do! s <- (if p_buffered p then Ok (fmt_f 1 (count_value (p_nevent p)))
            else if Rltb (Rabs (count_value (p_nevent p) - p_n p)) (1 / 1000) then Ok (fmt_g 6 (p_n p))
            else match p_nevent p with
                 | Whole z => Ok (fmt_f 1 (p_n p) ++ L " (of " ++ int_str z ++ L ")")
                 | Float _ => Err ValueError      (* format code d for a float *)
                 end);
  Ok (s ++ L " craters" ++ (if p_buffered p || match p_type p with Tbpoisson => true | _ => false end then L " (buffered)" else [])).
(** Craterplot.py 255-259 *)
Definition range_label (p : cplot) : res str :=
  if negb (p_prebinned p) && match p_type p with Tpoisson | Tbpoisson => true | _ => false end
  then diameter_range (fst (p_range p)) (snd (p_range p)) 2
  else do! b <- p_bins p; diameter_range (fst b) (Some (snd b)) 2.
(** Craterplot.py 245, 254, 260, 265-269: an entry that is wanted or not *)
Definition when (b : bool) (m : res (list str)) : res (list str) := if b then m else Ok [].
(** Craterplot.py 244-271: a list of one text *)
Definition one (m : res str) : res (list str) := do! s <- m; Ok [s].
(** Craterplot.py 236-273 *)
Definition make_legend_label (legend : str) (ref : R) (p : cplot) : res (list str) :=
  if is_fit (p_type p) then
    do! c <- when (has legend (ch "c")) (one (count_label p));
    do! r <- when (has legend (ch "r")) (one (range_label p));
    do! n <- when (has legend (ch "N")) (one (do! s <- density_text (p_a0 p) false; Ok (L "N(" ++ fmt_g 6 ref ++ L ")=" ++ s)));
    Ok (c ++ r ++ n)
  else
    do! n <- when (has legend (ch "n")) (one (match p_name p with [] => filename (p_source p) (L "n") None None 4 | nm => Ok nm end));
    do! a <- when (has legend (ch "a")) (one (scientific_notation (p_area p) None 3 false false km2));
    do! q <- when (has legend (ch "p"))
                  (match p_perimeter p with
                   | Some x => if Reqb x 0 then Ok [] else one (do! s <- scientific_notation x None 3 false false ([], []); Ok (s ++ L " km"))
                   | None => Ok []
                   end);
    Ok (n ++ a ++ q).

(** ** Craterplotset.py 527-551 with Craterplot.py 172-231: the labelled lines in drawing order, and the legend.
    A drawn series is the fitted line or the symbols of the i-th plot.  [bins_needed] is whether the presentation is
    differential, R-plot or Hartmann.  matplotlib leaves a series out of the legend if its label is None, empty or begins
    with an underscore. *)
Inductive part := Line | Symbols.
(** Craterplotset.py 533: a handle and its label *)
Definition series := (nat * part * str)%type.
(** Craterplotset.py 533: what get_legend_handles_labels of matplotlib leaves in *)
Definition visible (s : series) : bool := match snd s with [] => false | c :: _ => negb (aeqb c (ch "_")) end.
(** Craterplotset.py 528-530, Craterplot.py 172, 200, 229-231 *)
Definition draw_plot (bins_needed : bool) (legend : str) (ref : R) (ip : nat * cplot) : res (list series) :=
  let (i, p) := ip in
  if p_hide p || (bins_needed && p_nobin p) then Ok [] else
  do! lbl <- make_legend_label legend ref p;
  let sym := (i, Symbols, join (L ", ") lbl) in
  Ok (if is_fit (p_type p) then [(i, Line, L "fit"); sym] else [sym]).
(** Craterplotset.py 533: what is drawn, the h of the code *)
Definition handle := (nat * part)%type.
(** Craterplotset.py 534-547: [crN] is the test of 542 *)
Fixpoint aggregate (crN : bool) (skip : bool) (l : list series) : res (list (list handle * str)) :=
  match l with
  | [] => Ok []
  | s :: r =>
      if skip then aggregate crN false r
      else if seqb (snd s) (L "fit") then
        do! e <- (if crN then match r with [] => Err IndexError | s' :: _ => Ok [([fst s; fst s'], snd s')] end else Ok []);
        do! es <- aggregate crN true r; Ok (e ++ es)
      else do! es <- aggregate crN false r; Ok (([fst s], snd s) :: es)
  end.
(** Craterplotset.py 527-550 *)
Definition legend_entries (bins_needed : bool) (legend : str) (ref : R) (plots : list cplot) : res (list (list handle * str)) :=
  do! ss <- mapM (draw_plot bins_needed legend ref) (rev (combine (seq 0 (length plots)) plots));
  do! es <- aggregate (has legend (ch "c") || has legend (ch "r") || has legend (ch "N")) false (filter visible (concat ss));
  Ok (rev es).

(** ** Craterplotset.py 660-743: create_summary_table.  What calculate_age needs is in the record (it may fail: the list is
    of results); str() of n, n_event is the external [show]; writing the text to f_out is left out.
    sort_order (676-677): the position in the list sorted by falling age, equal ages in plot order. *)
Definition method (t : ptype) : str :=
  match t with Tdata => L "data" | Tcfit => L "c-fit" | Tdfit => L "d-fit" | Tpoisson => L "poisson" | Tbpoisson => L "b-poisson" end.
(** Craterplotset.py 676-677: the position in the sorted list *)
Fixpoint index_of (i : nat) (l : list nat) : nat := match l with [] => O | j :: r => if Nat.eqb i j then O else S (index_of i r) end.
(** Craterplotset.py 676-677 *)
Definition sort_orders (ages : list R) : list nat :=
  let order := map fst (sort (fun a b => Rleb (snd b) (snd a)) (combine (seq 0 (length ages)) ages)) in
  map (fun i => index_of i order) (seq 0 (length ages)).
(** Craterplotset.py 692, 718: format code .2e *)
Definition fmt_2e (x : R) : str := let '(m, e) := fmt_e 3 x in m ++ exp_str e.
(** Craterplotset.py 679-705 *)
Definition summary_head (ref : R) : list str :=
  let nd := L "N(" ++ fmt_g 6 ref ++ L ")" in
  [L "Name"; L "Area"; L "Binning"; L "d_min"; L "d_max"; L "Method"; L "Resurf"; L "N"; L "N_event"; L "Sort_order";
   L "Age"; L "Age-"; L "Age+"; L "a0"; L "a0-"; L "a0+"; nd; nd ++ L "-"; nd ++ L "+"; L "Source"; L " "; L "Range";
   L "Age"; nd; L "Age"; nd].
Section Summary.
Variable show : count -> str.
Variable show_n : R -> str.
(** Craterplotset.py 709-731; the texts 711-729 of one plot *)
Definition summary_row (use_bins mu : bool) (order : nat) (p : cplot) : res (list str) :=
  do! name <- match p_name p with [] => filename (p_source p) (L "n") None None 4 | nm => Ok nm end;
  do! r <- (if use_bins then match p_binrange p with Some (a, b) => Ok (a, Some b) | None => Err TypeError end else Ok (p_range p));
  do! txt <- diameter_range (fst r) (snd r) 2;
  let style m := {| sf := 3; unit := None; simple := false; no_error := false; mu := mu; mathml := m |} in
  let t := p_t p in
  do! m0 <- str_age (t0 t) (t2 t - t0 t) (t0 t - t1 t) (style true);
  do! m1 <- density_text (p_a0 p) true;
  do! l0 <- str_age (t0 t) (t2 t - t0 t) (t0 t - t1 t) (style false);
  do! l1 <- density_text (p_a0 p) false;
  let three {A} (f : A -> str) (v : A * A * A) := [f (t0 v); f (t1 v); f (t2 v)] in
  Ok ([name; fmt_g 5 (p_area p); p_binning p; fmt_g 2 (fst r); match snd r with Some b => fmt_g 2 b | None => L "inf" end;
       method (p_type p); int_str (p_resurf p); show_n (p_n p); show (p_nevent p); int_str (Z.of_nat order)]
      ++ three (fmt_g 3) t ++ three (fmt_g 4) (p_a0 p) ++ three (fun e => fmt_2e (pow10 e)) (p_a0 p)
      ++ [p_source p; L " "; txt; m0; m1; l0; l1]).
(** Craterplotset.py 665-731; [use_bins] is the test of 684, where d is the last plot of the loop 666-672 *)
Definition summary_table (mu : bool) (ref : R) (plots : list (res cplot)) : res (option (list (list str))) :=
  do! s <- mapM (fun p => p) (filter (fun p => match p with Ok p => is_fit (p_type p) | Err _ => true end) plots);
  match rev s with
  | [] => Ok None
  | last :: _ =>
      let use_bins := match p_type last with Tcfit | Tdfit => negb (Z.eqb (p_resurf last) 1) | _ => false end in
      do! rows <- mapM (fun op => summary_row use_bins mu (fst op) (snd op)) (combine (sort_orders (map (fun p => t0 (p_t p)) s)) s);
      Ok (Some (summary_head ref :: map (fun r => r ++ [[dq] ++ L " " ++ [dq]]) rows))
  end.
(** Craterplotset.py 733-734 *)
Definition commas (k : nat) : str := repeat (ch ",") k.
(** Craterplotset.py 706, 731, 733-735: the text of the table *)
Definition summary_text (mu : bool) (ref : R) (plots : list (res cplot)) : res (option str) :=
  do! t <- summary_table mu ref plots;
  match t with
  | None => Ok None
  | Some rows => Ok (Some (join [nl] (
      [commas 20 ++ L "Formatted values [paste MathML into Word using CTRL-SHIFT-V]"; commas 21 ++ L "MathML,,Latex,"]
      ++ map (join (L ",")) rows)))
  end.
End Summary.
