(** C103: on a crater diagram an epoch is the area between the isochrons of its boundaries. *)
From Coq Require Import String Ascii List Arith ZArith Reals Bool Lia Lra Sorting.Sorted.
From Verif Require Import Base NumModel NumLemmas InterpProofs ChronModel ChronSpec ChronProofs ProdModel ProdSpec ProdProofs ProdProofs2 ProdProofs3 ProdProps CountProofs2 EpModel EpProofs OverModel OverSpec OverProps EpoModel.
Import ListNotations.
Local Open Scope R_scope.

(** the areas and the lines among what is drawn, in order *)
Definition areas (es : list epoch_element) : list (list (R * R) * Z) := flat_map (fun e => match e with Area o g => [(o, g)] | Boundary _ => [] end) es.
Definition boundaries (es : list epoch_element) : list (list (R * R)) := flat_map (fun e => match e with Area _ _ => [] | Boundary l => [l] end) es.
(** the density [y] at the diameter [d] of a surface of the age [t] *)
Definition density_at_age (pf : productionfn) (cf : chron) (pres : string) (t d y : R) : Prop := evaluate pf pres d (Some (log10 (N1 cf t))) = Ok (Some y).
(** the curve of the age [t] over the range of the production function *)
Definition age_curve (pf : productionfn) (cf : chron) (pres : string) (lo hi t : R) (l : list (R * R)) : Prop := curve_points (density_at_age pf cf pres t) lo hi 400 l.

Lemma epoch_areas_ok isos : forall colour boundary, (length isos - 1 <= length colour)%nat -> (length isos - 1 <= length boundary)%nat ->
  exists es, epoch_areas colour boundary isos = Ok es /\ length (areas es) = (length isos - 1)%nat /\
    (forall i, (S i < length isos)%nat -> nth_error (areas es) i = Some (logged (nth i isos [] ++ rev (nth (S i) isos [])), (3 - nth i colour 0)%Z)) /\
    boundaries es = map (fun ib => logged (fst ib)) (filter snd (combine (removelast isos) boundary)).
Proof.
  induction isos as [|a isos IH]; intros colour boundary LC LB.
  { exists []. repeat split; intros; cbn in *; lia. }
  destruct isos as [|b r]. { exists []. repeat split; intros; cbn in *; lia. }
  destruct colour as [|c cs]; [cbn in LC; lia|]. destruct boundary as [|bd bs]; [cbn in LB; lia|].
  destruct (IH cs bs ltac:(cbn [length] in *; lia) ltac:(cbn [length] in *; lia)) as (es & E & L1 & N & B).
  cbn [epoch_areas] in *. rewrite E. cbn [bind]. eexists. split; [reflexivity|].
  assert (AR : forall l, areas ((if bd then [Boundary l] else []) ++ es) = areas es) by (intros l; destruct bd; reflexivity).
  assert (BR : forall l, boundaries ((if bd then [Boundary l] else []) ++ es) = (if bd then [l] else []) ++ boundaries es) by (intros l; destruct bd; reflexivity).
  split; [|split].
  - cbn [areas flat_map app length]. fold (areas ((if bd then [Boundary (logged a)] else []) ++ es)). rewrite AR, L1. cbn [length]. lia.
  - intros i Hi. cbn [areas flat_map app]. fold (areas ((if bd then [Boundary (logged a)] else []) ++ es)). rewrite AR. destruct i as [|i]; [reflexivity|].
    cbn [nth_error nth]. rewrite N by (cbn [length] in *; lia). reflexivity.
  - cbn [boundaries flat_map app]. fold (boundaries ((if bd then [Boundary (logged a)] else []) ++ es)). rewrite BR, B.
    change (removelast (a :: b :: r)) with (a :: removelast (b :: r)). cbn [combine filter snd]. destruct bd; reflexivity.
Qed.
Lemma logged_app l m : logged (l ++ m) = logged l ++ logged m.
Proof. apply map_app. Qed.
Lemma logged_rev l : logged (rev l) = rev (logged l).
Proof. apply map_rev. Qed.

(** an epoch system whose boundaries can be drawn: ages in order, of which none has exactly one crater of 1 km in a km2; a format for each epoch *)
Definition drawable (cf : chron) (time : list R) (f : formats) : Prop :=
  (forall t, In t time -> 0 < t /\ N1 cf t <> 1) /\ (length time <= length (f_colour f))%nat /\ (length time - 1 <= length (f_boundary f))%nat.
(** Each epoch between two boundaries is one area, whose outline goes along the isochron of its younger boundary and back along that of its older one, in the colour given for that epoch; the
    isochron of the younger boundary is drawn if the format of the epoch before has a b *)
Theorem C103_areas :
  forall pf cf pres t0 time f lo hi, built pf -> data_diagram pres -> pf_range pf = Ok (lo, hi) -> 0 < lo <= hi -> positive_coefficients cf -> drawable cf time f ->
    exists es curves, epochs_oplot pf cf pres None (t0 :: time) (Ok f) = Ok es /\ Forall2 (age_curve pf cf pres lo hi) time curves /\
      length (areas es) = (length time - 1)%nat /\
      (forall i, (S i < length time)%nat -> nth_error (areas es) i = Some (nth i curves [] ++ rev (nth (S i) curves []), (3 - nth (S i) (f_colour f) 0)%Z)) /\
      boundaries es = map fst (filter snd (combine (removelast curves) (f_boundary f))).
Proof.
  intros pf cf pres t0 time f lo hi B P E L Hc (HT & LC & LB).
  assert (Q : exists isos, epoch_isochrons pf cf pres None (t0 :: time) = Ok isos /\ Forall2 (age_curve pf cf pres lo hi) time (map logged isos)).
  { unfold epoch_isochrons. cbn [tl]. clear LC LB. induction time as [|t time IH]; [exists []; split; [reflexivity|constructor]|].
    destruct IH as (isos & E1 & E2); [intros u Hu; apply HT; now right|]. destruct (HT t (or_introl eq_refl)) as (T0 & T1).
    assert (NZ : cf_a0 cf t <> 0). { unfold cf_a0. intros Z. apply T1. pose proof (N1_pos cf Hc t T0) as NP. rewrite <- (pow10_log10 (N1 cf t)) by exact NP. rewrite Z. apply pow10_0. }
    destruct (plotted pf pres (cf_a0 cf t) None lo hi B P E L NZ) as (l & P1 & P2).
    assert (W : forall x, x = lo \/ x = hi -> within lo hi x = x) by (intros x [-> | ->]; unfold within, Rmin, Rmax; repeat destruct (Rle_dec _ _); lra). rewrite !W in P2 by auto.
    exists (l :: isos). cbn [mapM]. rewrite C24_isochron_without_equilibrium, P1. cbn [bind]. rewrite E1. split; [reflexivity|]. cbn [map]. constructor; assumption. }
  destruct Q as (isos & E1 & E2). assert (LI : length isos = length time). { rewrite <- (map_length logged). clear - E2. induction E2; cbn [length]; congruence. }
  destruct (epoch_areas_ok isos (tl (f_colour f)) (f_boundary f)) as (es & F1 & F2 & F3 & F4); [destruct (f_colour f); cbn [tl length] in *; lia|lia|].
  exists es, (map logged isos). unfold epochs_oplot. rewrite E1. cbn [bind]. split; [exact F1|]. split; [exact E2|]. split; [lia|]. split.
  - intros i Hi. rewrite F3 by lia. rewrite logged_app, logged_rev. change (@nil (R * R)) with (logged []). rewrite !map_nth. do 2 f_equal. destruct (f_colour f); cbn [tl]; [now destruct i|reflexivity].
  - rewrite F4. clear. revert isos. generalize (f_boundary f) as bs. intros bs isos. revert bs. induction isos as [|a [|b r] IH]; intros bs; try reflexivity.
    change (removelast (a :: b :: r)) with (a :: removelast (b :: r)). cbn [map] in *. change (removelast (logged a :: logged b :: map logged r)) with (logged a :: removelast (logged b :: map logged r)).
    destruct bs as [|x bs]; [reflexivity|]. cbn [combine filter snd]. destruct x; cbn [map fst]; [f_equal|]; apply IH.
Qed.
Print Assumptions C103_areas.

(** At every diameter of the curves, where densities are positive, a density lies between the two sides of the area exactly if its age lies between those of the boundaries *)
Theorem C103_inside :
  forall pf cf pres lo hi ta tb younger older, built pf -> positive_coefficients cf -> 0 < ta < tb -> N1 cf ta <> 1 -> N1 cf tb <> 1 ->
    age_curve pf cf pres lo hi ta younger -> age_curve pf cf pres lo hi tb older ->
    forall j, (j < 400)%nat -> exists x ya yb, nth_error younger j = Some (x, ya) /\ nth_error older j = Some (x, yb) /\
      (0 < ya -> ya < yb /\
        forall t y, 0 < t -> N1 cf t <> 1 -> density_at_age pf cf pres t (pow10 x) y -> (ya <= y <= yb <-> ta <= t <= tb)).
Proof.
  intros pf cf pres lo hi ta tb younger older B Hc T Na Nb (_ & CA) (_ & CB) j Hj.
  destruct (CA j Hj) as (x & ya & A1 & A2 & A3). destruct (CB j Hj) as (x' & yb & B1 & B2 & B3). rewrite <- A2 in B2. subst x'.
  exists x, ya, yb. split; [exact A1|]. split; [exact B1|]. intros Y0.
  assert (NZ : forall t, 0 < t -> N1 cf t <> 1 -> log10 (N1 cf t) <> 0). { intros t T0 N Z. apply N. rewrite <- (pow10_log10 (N1 cf t)) by now apply N1_pos. rewrite Z. apply pow10_0. }
  assert (SC : forall t y, 0 < t -> N1 cf t <> 1 -> density_at_age pf cf pres t (pow10 x) y -> y * N1 cf ta = ya * N1 cf t).
  { intros t y T0 N D. unfold density_at_age in *. rewrite evaluate_value in * by (apply NZ; lra || assumption).
    pose proof (value_scale pf pres (pow10 x) (log10 (N1 cf ta)) (log10 (N1 cf t) - log10 (N1 cf ta)) ya B A3) as VS. replace (log10 (N1 cf ta) + (log10 (N1 cf t) - log10 (N1 cf ta))) with (log10 (N1 cf t)) in VS by ring.
    rewrite D in VS. assert (YE : y = pow10 (log10 (N1 cf t) - log10 (N1 cf ta)) * ya) by congruence. rewrite YE. unfold Rminus. rewrite pow10_plus, pow10_log10 by now apply N1_pos.
    assert (PA : 0 < N1 cf ta) by (apply N1_pos; [exact Hc|lra]). replace (pow10 (- log10 (N1 cf ta))) with (/ N1 cf ta). { field. lra. }
    rewrite <- (pow10_log10 (N1 cf ta)) at 1 by exact PA. unfold pow10. rewrite Ropp_mult_distr_l_reverse. now rewrite exp_Ropp. }
  assert (PA : 0 < N1 cf ta) by (apply N1_pos; [exact Hc|lra]). pose proof (N1_lt cf Hc ta tb ltac:(lra)) as AB. pose proof (SC tb yb ltac:(lra) Nb B3) as SB.
  split; [nra|]. intros t y T0 N D. pose proof (SC t y T0 N D) as ST. split.
  - intros (Q1 & Q2). split; apply (N1_le_inv cf Hc); nra.
  - intros (Q1 & Q2). pose proof (N1_le cf Hc _ _ Q1). pose proof (N1_le cf Hc _ _ Q2). split; nra.
Qed.
Print Assumptions C103_inside.

(** The isochron of the oldest boundary is never drawn, although the chronology diagram has a strong line there *)
Theorem C103_last_boundary_refuted :
  forall pf cf pres lo hi, built pf -> data_diagram pres -> pf_range pf = Ok (lo, hi) -> 0 < lo <= hi -> positive_coefficients cf -> N1 cf 1 <> 1 -> N1 cf 3 <> 1 ->
    let f := mkFormats 60 [0; 1; 2]%Z [false; false; false] [true; true; true] in
    epoch_lines f [0; 1; 3] = Ok [(1, true); (3, true)] /\
    exists es line, epochs_oplot pf cf pres None [0; 1; 3] (Ok f) = Ok es /\ boundaries es = [line] /\ age_curve pf cf pres lo hi 1 line.
Proof.
  intros pf cf pres lo hi B P E L Hc H1 H3 f. split; [reflexivity|].
  destruct (C103_areas pf cf pres 0 [1; 3] f lo hi B P E L Hc) as (es & curves & E1 & E2 & _ & _ & E5).
  { split; [|split; cbn; lia]. intros t [<-|[<-|[]]]; split; try lra; assumption. }
  exists es. inversion E2 as [|t1 l1 ts1 ls1 A1 A2]; subst. inversion A2 as [|t2 l2 ts2 ls2 A3 A4]; subst. inversion A4; subst.
  exists l1. split; [exact E1|]. split; [exact E5|exact A1].
Qed.
Print Assumptions C103_last_boundary_refuted.
Definition met_pf : productionfn := Poly [-3; -3] (1 / 10) 100.
Definition met_cf : chron := mkChron (1 / 1000000) 1 (1 / 1000).
Definition met_formats : formats := mkFormats 60 [0; 1; 2]%Z [false; false; false] [true; false; true].
Example C103_hypotheses_met :
  built met_pf /\ data_diagram "R-plot" /\ pf_range met_pf = Ok (1 / 10, 100) /\ positive_coefficients met_cf /\ drawable met_cf [1; 3] met_formats /\ N1 met_cf 1 <> 1 /\ N1 met_cf 3 <> 1.
Proof.
  pose proof exp_le_3 as E3. pose proof (exp_pos 1) as E0.
  assert (E33 : exp 3 <= 27). { replace 3 with (1 + (1 + 1)) by lra. rewrite !exp_plus. nra. }
  assert (A : N1 met_cf 1 <> 1) by (unfold N1, met_cf; cbn [ch_p0 ch_p1 ch_p3]; rewrite Rmult_1_l; lra).
  assert (B : N1 met_cf 3 <> 1) by (unfold N1, met_cf; cbn [ch_p0 ch_p1 ch_p3]; rewrite Rmult_1_l; pose proof (exp_pos 3); lra).
  split; [constructor|]. split; [right; right; now left|]. split; [reflexivity|]. split; [unfold positive_coefficients; cbn; lra|]. split; [|split; assumption].
  split; [|split; cbn; lia]. intros t [<-|[<-|[]]]; split; try lra; assumption.
Qed.
