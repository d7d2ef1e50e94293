(** What a plot adds to the sequence diagram: Craterplot.py overplot_sequence_element, gm/plotting/mix_colours.py.  Definitions only. *)
From Coq Require Import String Ascii List Arith ZArith Reals Bool.
From Verif Require Import Base NumModel StrModel CliModel FmtModel SetModel LegModel.
Import ListNotations.
Local Open Scope R_scope.

(** a colour in the form of to_rgb of matplotlib, as in gm/plotting/mix_colours.py 15 *)
Definition rgb := (R * R * R)%type.
(** gm/plotting/mix_colours.py 6-16 *)
Definition mix_colours (c1 c2 : rgb) (amount : R) : rgb :=
  let f x y := y * (1 - amount) + x * amount in
  let '(r1, g1, b1) := c1 in let '(r2, g2, b2) := c2 in (f r1 r2, f g1 g2, f b1 b2).
(** the colours black and white of matplotlib, in Craterplot.py 325 *)
Definition black : rgb := (0, 0, 0).
(** the colours black and white of matplotlib, in Craterplot.py 325 *)
Definition white : rgb := (1, 1, 1).
(** Craterplot.py 331: the pieces around each backslash and n, joined by line breaks *)
Definition name_text (name : str) : str := replace2 bsl (ch "n") nl (strip_quotes name).
(** Craterplot.py 235-263 in the sequence presentation, for a fit: the age and area, then what the other presentations have *)
Definition sequence_label (legend : str) (ref : R) (sf : nat) (mu : bool) (p : cplot) : res (list str) :=
  do! age <- when (is_fit (p_type p) && has legend (ch "A"))
                  (one (str_age (t0 (p_t p)) (t2 (p_t p) - t0 (p_t p)) (t0 (p_t p) - t1 (p_t p))
                                {| FmtModel.sf := sf; unit := None; simple := false; no_error := false; FmtModel.mu := mu; mathml := false |}));
  do! area <- when (is_fit (p_type p) && has legend (ch "a")) (one (scientific_notation (p_area p) None 3 false false km2));
  do! rest <- make_legend_label legend ref p;
  Ok (age ++ area ++ rest).
(** Craterplot.py 316-335: what is drawn; the first number of the first three is the part of the age axis, 0 the linear and 1 the logarithmic one.  A violin is at a height with a half height
    (MiniModel has the rest of it); a bar is between two ages and two heights with the colour of its inside; a mark is at an age between two heights; the texts are at a height, the name with its
    right end left of the axes, the label with its left end right of them *)
Inductive seq_element :=
  | Violin (part : nat) (y w0 : R) | Bar (part : nat) (from to top bottom : R) (inside : rgb) | Mark (part : nat) (t top bottom : R) | Name (y : R) (s : str) | Label (y : R) (s : str).
(** Craterplot.py 308 *)
Definition in_sequence (p : cplot) : bool := is_fit (p_type p) && negb (p_hide p).
(** Craterplot.py 318-329 *)
Definition row_graphics (invert : bool) (colour : rgb) (p : cplot) (row : R * R * R) (j : nat) : list seq_element :=
  let '(dy, w0, w) := row in
  match p_type p with
  | Tpoisson | Tbpoisson => [Violin j dy w0]
  | _ => [Bar j (t1 (p_t p)) (t2 (p_t p)) (dy + w) (dy - w) (mix_colours colour (if invert then black else white) (35 / 100)); Mark j (t0 (p_t p)) (dy + w) (dy - w)]
  end.
(** Craterplot.py 172-176, 291-335 for the i-th of the plots, which are different objects (310), with the results of getplotdata and calculate_age (299-306) in p *)
Definition sequence_element (crossover invert : bool) (legend : str) (ref : R) (sf : nat) (mu : bool) (plots : list cplot) (ip : nat * (cplot * rgb)) : res (list seq_element) :=
  let '(i, (p, colour)) := ip in
  if p_hide p then Ok [] else
  if is_fit (p_type p) then
    let row := sequence_row (length (filter in_sequence plots)) (length (filter in_sequence (firstn i plots))) in
    do! lbl <- sequence_label legend ref sf mu p;
    let dy := fst (fst row) in
    Ok (concat (map (row_graphics invert colour p row) (if crossover then [0; 1]%nat else [0]%nat)) ++ [Name dy (name_text (p_name p))]
        ++ match lbl with [] => [] | _ => [Label dy (join [nl] lbl)] end)
  else Ok [].
(** Craterplotset.py 528-530: the plots from the last to the first *)
Definition sequence_elements (crossover invert : bool) (legend : str) (ref : R) (sf : nat) (mu : bool) (plots : list (cplot * rgb)) : res (list seq_element) :=
  do! es <- mapM (sequence_element crossover invert legend ref sf mu (map fst plots)) (rev (combine (seq 0 (length plots)) plots));
  Ok (concat es).
