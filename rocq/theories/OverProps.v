(** C101: a fit is drawn as its isochron over its range, with its age beside its start. *)
From Coq Require Import String Ascii List Arith ZArith Reals Bool Lia Lra.
From Verif Require Import Base NumModel NumLemmas InterpProofs StrModel FmtModel FmtSpec FmtProofs FmtProps CountModel CountProofs2 ProdModel ProdSpec ProdProofs ProdProofs2 ProdProofs3 ProdProps SetModel SetSpec OverModel OverSpec.
Import ListNotations.
Local Open Scope R_scope.

Definition data_diagram (pres : string) : Prop := In pres ["cumulative"; "differential"; "R-plot"; "Hartmann"]%string.
(** the density at the diameter d of the isochron with the given a0 *)
Definition isochron_of (pf : productionfn) (pres : string) (a0 d y : R) : Prop := evaluate pf pres d (Some a0) = Ok (Some y).
(** limits cut to those of the production function *)
Definition within (lo hi x : R) : R := Rmin (Rmax x lo) hi.
Lemma within_spec lo hi x : lo <= hi -> lo <= within lo hi x <= hi.
Proof. intros H. unfold within. split; [apply Rmin_glb; [apply Rmax_r|exact H]|apply Rmin_r]. Qed.
Lemma plotted pf pres a0 r lo hi : built pf -> data_diagram pres -> pf_range pf = Ok (lo, hi) -> 0 < lo <= hi -> a0 <> 0 ->
  exists l, pf_getplotdata pf pres (Some a0) r = Ok l /\
    curve_points (isochron_of pf pres a0) (match r with Some r => within lo hi (fst r) | None => within lo hi lo end) (match r with Some r => within lo hi (snd r) | None => within lo hi hi end) 400 (logged l).
Proof.
  intros B P E (L0 & L1) NZ. unfold pf_getplotdata. cbn [bind]. rewrite E. cbn [bind fst snd].
  set (r1 := match r with Some r => r | None => (lo, hi) end). change (clip lo hi (fst r1)) with (within lo hi (fst r1)). change (clip lo hi (snd r1)) with (within lo hi (snd r1)).
  set (ds := map pow10 (linspace (log10 (within lo hi (fst r1))) (log10 (within lo hi (snd r1))) 400)).
  set (g := fun d => match evaluate pf pres d (Some a0) with Ok (Some y) => y | _ => 0 end).
  assert (G : forall d, evaluate pf pres d (Some a0) = Ok (Some (g d))).
  { intros d. unfold g. rewrite evaluate_value by exact NZ. destruct (value_total pf pres d a0 B P) as (y & ->). reflexivity. }
  rewrite (mapM_map _ (fun d => (d, g d))) by (intros d _; rewrite G; reflexivity).
  eexists. split; [reflexivity|]. assert (LD : length ds = 400%nat) by (unfold ds; now rewrite map_length, linspace_length).
  split; [unfold logged; now rewrite !map_length|]. intros i Hi.
  set (x := log10 (within lo hi (fst r1)) + INR i / INR (400 - 1) * (log10 (within lo hi (snd r1)) - log10 (within lo hi (fst r1)))).
  assert (N : nth_error ds i = Some (pow10 x)).
  { unfold ds. rewrite nth_error_map. rewrite (nth_error_nth' _ 0) by (now rewrite linspace_length). cbn [option_map]. do 2 f_equal. rewrite linspace_nth by exact Hi. unfold x.
    replace (400 - 1)%nat with 399%nat by reflexivity. replace (INR 399) with 399 by (rewrite INR_IZR_INZ; reflexivity). field. }
  exists x, (g (pow10 x)). split; [|split].
  - unfold logged. rewrite map_map, nth_error_map, N. cbn [option_map fst snd]. now rewrite log10_pow10.
  - unfold x, r1. destruct r; reflexivity.
  - apply G.
Qed.

Lemma mag_abs a b : Rmax a b - Rmin a b = Rabs (b - a).
Proof. unfold Rmax, Rmin. destruct (Rle_dec a b); [rewrite Rabs_pos_eq by lra|rewrite Rabs_left by lra]; lra. Qed.
(** ** What is drawn *)
Definition bars_of (o : plot_info) (p : list point) : list element := if op_error_bars o then [ErrorBars (map (fun q => (log10 (pt_d q), pt_y q, pt_err q)) p)] else [].
Definition symbols_of (p : list point) : element := Symbols (map (fun q => (log10 (pt_d q), pt_y q)) p).
(** A hidden plot draws nothing; a plot of data its points, in order, with their errors if wanted *)
Theorem C101_data :
  forall s o data age, (op_hide o = true -> overplot s o data age = Ok []) /\
    (op_hide o = false -> op_fit o = false -> forall p, data = Ok p -> overplot s o data age = Ok (bars_of o p ++ [symbols_of p])).
Proof.
  intros s o data age. unfold overplot. split; [intros ->; reflexivity|]. intros -> -> p ->. reflexivity.
Qed.
(** the age as text *)
Definition age_text (s : set_info) (t tm tp : R) (st : str) : Prop :=
  exists num y n1 y1 n2 y2 f u, best_unit t f u /\ numeral num y /\ significant (si_sigfigs s) (t / f) y /\
    numeral n1 y1 /\ significant (si_sigfigs s - 1) ((tp - t) / f) y1 /\ numeral n2 y2 /\ significant (si_sigfigs s - 1) ((t - tm) / f) y2 /\
    st = L "$" ++ (if si_mu s then mu_sign else []) ++ (num ++ L "^{+" ++ n1 ++ L "}_{-" ++ n2 ++ L "}") ++ L "$ " ++ u.
(** A fit has, between its error bars and its symbols, its isochron if wanted (400 points over the whole range of the production function), the line of the fit (400 points of the same isochron
    from 0.99 of the lower to 1.01 of the upper limit of its range, cut to those of the production function) and its age with errors: to the right of and above the start of that line by a fiftieth of
    the axes, or to the left and below, moved by the offset *)
Theorem C101_fit :
  forall s o p a0 t tm tp lo hi, op_hide o = false -> op_fit o = true ->
    built (si_pf s) -> data_diagram (si_pres s) -> pf_range (si_pf s) = Ok (lo, hi) -> 0 < lo <= hi -> a0 <> 0 -> si_ef s = None -> (2 <= si_sigfigs s)%nat -> t < tp ->
    exists iso line place st, overplot s o (Ok p) (Ok (a0, (t, tm, tp))) =
        Ok (bars_of o p ++ (if op_isochron o then [Isochron iso] else []) ++ [FitLine line] ++ (if op_show_age o then [AgeText place (op_age_left o) st] else []) ++ [symbols_of p]) /\
      curve_points (isochron_of (si_pf s) (si_pres s) a0) lo hi 400 iso /\
      curve_points (isochron_of (si_pf s) (si_pres s) a0) (within lo hi (99 / 100 * fst (op_range o))) (match snd (op_range o) with Fin b => within lo hi (101 / 100 * b) | Inf => hi end) 400 line /\
      age_text s t tm tp st /\
      (exists x y, nth_error line 0 = Some (x, y) /\
         let d := if op_age_left o then - (1 / 50) else 1 / 50 in
         let unit := 1 / (20 * Rmax (Rabs (snd (si_xrange s) - fst (si_xrange s))) 1) in
         place = ((x - fst (si_xrange s)) / (snd (si_xrange s) - fst (si_xrange s)) + d + fst (op_offset o) * unit,
                  (log10 y - fst (si_yrange s)) / (snd (si_yrange s) - fst (si_yrange s)) + d + snd (op_offset o) * unit)).
Proof.
  intros s o p a0 t tm tp lo hi HI FI B P E L NZ EF SF T.
  destruct (plotted (si_pf s) (si_pres s) a0 None lo hi B P E L NZ) as (i & I1 & I2).
  set (r := (fst (op_range o) * (99 / 100), match snd (op_range o) with Fin b => b * (101 / 100) | Inf => hi end)).
  destruct (plotted (si_pf s) (si_pres s) a0 (Some r) lo hi B P E L NZ) as (l & F1 & F2).
  assert (W : forall x, x = lo \/ x = hi -> within lo hi x = x) by (intros x [-> | ->]; unfold within, Rmin, Rmax; repeat destruct (Rle_dec _ _); lra).
  rewrite !W in I2 by auto.
  destruct l as [|start l']; [destruct F2 as (F2 & _); discriminate|]. set (l := start :: l') in *.
  destruct (C27_errors t (tp - t) (t - tm) (si_sigfigs s) (si_mu s) SF ltac:(lra)) as (num & y & n1 & y1 & n2 & y2 & f & u & Q1 & Q2 & Q3 & Q4 & Q5 & Q6 & Q7 & SA).
  eexists (logged i), (logged l), (age_place s o start), _. split; [|split; [exact I2|split; [|split]]].
  - unfold overplot. rewrite HI, FI. cbn [bind fst snd]. fold (bars_of o p). fold (symbols_of p).
    assert (FD : fit_data (si_pf s) (si_pres s) a0 (op_range o) = Ok l) by (unfold fit_data; rewrite E; cbn [bind fst snd]; unfold r in F1; rewrite F1; reflexivity).
    assert (GI : getisochron (si_pf s) (si_pres s) a0 (si_ef s) = Ok i) by (rewrite EF, C24_isochron_without_equilibrium; exact I1).
    rewrite GI, FD. unfold age_string. rewrite SA. destruct (op_isochron o), (op_show_age o); cbn [bind]; unfold l; rewrite <- ?app_assoc; reflexivity.
  - cbn [r fst snd] in F2. replace (99 / 100 * fst (op_range o)) with (fst (op_range o) * (99 / 100)) by ring. destruct (snd (op_range o)) as [b|]; [now rewrite (Rmult_comm (101 / 100) b)|].
    rewrite (W hi) in F2 by auto. exact F2.
  - exists num, y, n1, y1, n2, y2, f, u. repeat (split; [assumption|]). now rewrite <- !app_assoc.
  - exists (log10 (fst start)), (snd start). split; [reflexivity|]. unfold age_place, data_to_axis, decades, mag. cbn [fst snd].
    rewrite mag_abs.
    set (D := Rmax _ 1). assert (1 <= D) by apply Rmax_r. f_equal; (apply f_equal2; [apply f_equal; destruct (op_age_left o); lra|field; lra]).
Qed.

(** ** The offset of the age *)
Definition presentation_name (p : presentation) : string :=
  match p with Cumulative => "cumulative" | Differential => "differential" | Rplot => "R-plot" | Hartmann => "Hartmann" | Chronology => "chronology" | Rate => "rate" end.
(** In axes of at least one decade whose density axis has the automatic proportions (in the Hartmann presentation any), the offset moves the age, on the paper, by as many twentieths of the length
    of a decade of diameter as it says, in both directions *)
Theorem C101_offset :
  forall p s o o' start dims pt l, data_diagram (presentation_name p) -> 0 < pt ->
    1 <= snd (si_xrange s) - fst (si_xrange s) -> 1 <= snd (si_yrange s) - fst (si_yrange s) ->
    (p = Hartmann \/ snd (si_yrange s) - fst (si_yrange s) = IZR (y_per_x p) * (snd (si_xrange s) - fst (si_xrange s))) ->
    plot_layout p (si_xrange s) (si_yrange s) dims pt false = Ok l -> op_offset o = (0, 0) -> op_age_left o' = op_age_left o ->
    let '(_, _, w, h) := l_axes l in
    let decade := fst (on_paper (si_xrange s) (si_yrange s) w h 1 0) - fst (on_paper (si_xrange s) (si_yrange s) w h 0 0) in
    let before := fraction_on_paper w h (age_place s o start) in
    let after := fraction_on_paper w h (age_place s o' start) in
    fst after = fst before + fst (op_offset o') / 20 * decade /\ snd after = snd before + snd (op_offset o') / 20 * decade.
Proof.
  intros p s o o' start dims pt l P PT X Y PR E O AL. unfold plot_layout in E. destruct (match dims with [] => _ | _ => _ end) as [scale|]; [|discriminate]. cbn [bind] in E.
  injection E as <-. cbn [l_axes]. cbv zeta. unfold fraction_on_paper, on_paper, age_place. cbn [fst snd]. rewrite O, AL. cbn [fst snd].
  set (dl := 2 / 100 * _). set (q := data_to_axis _ _ _). unfold decades, mag. rewrite !mag_abs. rewrite !Rabs_pos_eq by lra. rewrite !Rmax_left by lra.
  set (dx := snd (si_xrange s) - fst (si_xrange s)) in *. set (dy := snd (si_yrange s) - fst (si_yrange s)) in *. cbn [andb].
  destruct p; cbn [is_time negb y_per_x] in *.
  all: try (exfalso; cbv in P; repeat (destruct P as [P|P]; [discriminate|]); exact P).
  all: try (destruct PR as [PR|PR]; [discriminate|]; rewrite PR).
  all: split; field; lra.
Qed.
(** With ranges of other proportions the vertical offset has another measure *)
Theorem C101_offset_refuted :
  exists s l, plot_layout Cumulative (si_xrange s) (si_yrange s) [15 / 2; 15 / 2] 9 false = Ok l /\
    forall o o' start, op_offset o = (0, 0) -> op_offset o' = (0, 1) -> op_age_left o' = op_age_left o ->
    let '(_, _, w, h) := l_axes l in
    let decade := fst (on_paper (si_xrange s) (si_yrange s) w h 1 0) - fst (on_paper (si_xrange s) (si_yrange s) w h 0 0) in
    0 < decade /\ snd (fraction_on_paper w h (age_place s o' start)) = snd (fraction_on_paper w h (age_place s o start)) + 4 / 5 * (1 / 20) * decade.
Proof.
  exists (mkSet "cumulative" (-3, 2) (-4, 0) 3 true (Poly [] 1 1) None). eexists. split; [reflexivity|].
  intros o o' start O O' AL. cbn [l_axes]. cbv zeta. unfold fraction_on_paper, on_paper, age_place. cbn [fst snd si_xrange si_yrange]. rewrite O, O', AL. cbn [fst snd].
  set (dl := 2 / 100 * _). set (q := data_to_axis _ _ _). unfold decades, mag. cbn [fst snd]. rewrite !mag_abs. replace (2 - -3) with 5 by ring. replace (0 - -4) with 4 by ring.
  rewrite !Rabs_pos_eq by lra. rewrite !Rmax_left by lra. cbn [is_time negb andb].
  rewrite (Rmin_left (15 / 2 / 5)) by lra. split; [field_simplify; lra|field].
Qed.
Print Assumptions C101_data.
Print Assumptions C101_fit.
Print Assumptions C101_offset.
Print Assumptions C101_offset_refuted.

(** ** The hypotheses can be met *)
Example C101_hypotheses_met :
  let s := mkSet "differential" (-3, 2) (-5, 5) 3 true (Poly [-3; -2] (1 / 100) 300) None in
  built (si_pf s) /\ data_diagram (si_pres s) /\ pf_range (si_pf s) = Ok (1 / 100, 300) /\ (2 <= si_sigfigs s)%nat /\
  (exists l, plot_layout Differential (si_xrange s) (si_yrange s) [15 / 2; 15 / 2] 9 false = Ok l) /\
  snd (si_yrange s) - fst (si_yrange s) = IZR (y_per_x Differential) * (snd (si_xrange s) - fst (si_xrange s)).
Proof.
  cbv zeta. cbn [si_pf si_pres si_sigfigs si_xrange si_yrange fst snd]. split; [constructor|]. split; [right; now left|]. split; [reflexivity|]. split; [lia|]. split; [eexists; reflexivity|]. cbn [y_per_x]. lra.
Qed.
