(** Specification vocabulary for the legend and the summary table. *)
From Coq Require Import String List Ascii ZArith Reals.
Import ListNotations.
From Verif Require Import Base StrModel FmtModel FmtSpec CliModel LegModel.
Local Open Scope R_scope.

(** the plots that are drawn, each with its place in the list of overplots, in that order *)
Definition numbered (plots : list cplot) : list (nat * cplot) := combine (seq 0 (length plots)) plots.
Definition drawn (bins_needed : bool) (p : cplot) : Prop := p_hide p = false /\ (bins_needed = true -> p_nobin p = false).
(** the legend option asks for crater counts, diameter ranges or densities: the texts that fits can have *)
Definition asks_for_fits (legend : str) : Prop := In (ch "c") legend \/ In (ch "r") legend \/ In (ch "N") legend.
(** a text that matplotlib and the aggregation take as a label *)
Definition ordinary_label (s : str) : Prop := s <> L "fit" /\ forall r, s <> ch "_" :: r.

(** one entry of the legend: what is shown as its symbol, and the text.  The entry of a plot: for data its symbols,
    if there is any text; for a fit its line and symbols together. *)
Definition entry_of (i : nat) (p : cplot) (text : str) : list (list handle * str) :=
  match p_type p with
  | Tdata => match text with [] => [] | _ => [([(i, Symbols)], text)] end
  | _ => [([(i, Line); (i, Symbols)], text)]
  end.

(** comma-separated text *)
Definition no_comma (s : str) : Prop := ~ In (ch ",") s /\ ~ In nl s.

(** a cell showing a number to k significant figures *)
Definition shows (k : nat) (x : R) (cell : str) : Prop := exists y, significant k x y /\ (numeral cell y \/ exponent_numeral cell y).
(** the cells of the row of plot [p], the [pos]-th oldest, with the diameters [range] *)
Definition row_of (show : count -> str) (show_n : R -> str) (mu : bool) (range : R * option R) (pos : nat) (p : cplot) (row : list str) : Prop :=
  exists name area dmin dmax age agem agep a0 a0m a0p n nm np sort resurf txt m0 m1 l0 l1,
    row = [name; area; p_binning p; dmin; dmax; method (p_type p); resurf; show_n (p_n p); show (p_nevent p); sort;
           age; agem; agep; a0; a0m; a0p; n; nm; np; p_source p; L " "; txt; m0; m1; l0; l1; [dq] ++ L " " ++ [dq]] /\
    match p_name p with [] => filename (p_source p) (L "n") None None 4 = Ok name | nm => name = nm end /\
    shows 5 (p_area p) area /\ shows 2 (fst range) dmin /\ match snd range with Some d => shows 2 d dmax | None => dmax = L "inf" end /\
    integer_numeral resurf (p_resurf p) /\ integer_numeral sort (Z.of_nat pos) /\
    (let '(t, tm, tp) := p_t p in shows 3 t age /\ shows 3 tm agem /\ shows 3 tp agep /\
      str_age t (tp - t) (t - tm) {| sf := 3; unit := None; simple := false; no_error := false; mu := mu; mathml := true |} = Ok m0 /\
      str_age t (tp - t) (t - tm) {| sf := 3; unit := None; simple := false; no_error := false; mu := mu; mathml := false |} = Ok l0) /\
    (let '(a, am, ap) := p_a0 p in shows 4 a a0 /\ shows 4 am a0m /\ shows 4 ap a0p /\
      shows 3 (pow10 a) n /\ shows 3 (pow10 am) nm /\ shows 3 (pow10 ap) np /\
      scientific_notation (pow10 a) (Some (pow10 ap, pow10 am)) 3 false true km_2 = Ok m1 /\
      scientific_notation (pow10 a) (Some (pow10 ap, pow10 am)) 3 false false km_2 = Ok l1) /\
    diameter_range (fst range) (snd range) 2 = Ok txt.
(** the plots that have an age *)
Definition aged (p : cplot) : Prop := p_type p <> Tdata.
Definition is_poisson (p : cplot) : Prop := p_type p = Tpoisson \/ p_type p = Tbpoisson.
(** positions of the plots by falling age, equal ages in the order of the plots *)
Definition age_positions (ages : list R) (pos : list nat) : Prop :=
  length pos = length ages /\ (forall k, In k pos -> (k < length ages)%nat) /\
  forall i j a b k l, (i < j)%nat -> nth_error ages i = Some a -> nth_error ages j = Some b -> nth_error pos i = Some k -> nth_error pos j = Some l ->
    (b <= a <-> (k < l)%nat) /\ (a < b <-> (l < k)%nat).
