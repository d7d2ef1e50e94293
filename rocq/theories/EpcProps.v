(** C117: on a chronology or rate diagram an epoch is the area under the curve between its ages. *)
From Coq Require Import String Ascii List Arith ZArith Reals Bool Lia Lra Sorting.Sorted.
From Verif Require Import Base NumModel NumLemmas InterpProofs StrModel FmtModel FmtSpec FmtProofs ChronModel ChronSpec ChronProofs ProdModel LoadModel LoadProps CliModel IoSpec IoProofs DenModel EpModel EpProofs EpProps CountProofs2 SccProofs3 EpcModel.
Import ListNotations.
Local Open Scope R_scope.

(** ** Vocabulary *)
(** the point (t, y) is on the line through the points *)
Definition on_line (pts : list (R * R)) (t y : R) : Prop :=
  exists j a b, nth_error pts j = Some a /\ nth_error pts (S j) = Some b /\ fst a <= t <= fst b /\ (y - snd a) * (fst b - fst a) = (snd b - snd a) * (t - fst a).
(** the density of craters larger than 1 km of a surface of the age, or its rate *)
Definition density_or_rate (cf : chron) (rate : bool) (t : R) : R := if rate then phi cf t else N1 cf t.
Definition fills (es : list chronology_element) : list (list (R * R * R) * Z) := flat_map (fun e => match e with Fill l g => [(l, g)] | _ => [] end) es.
Definition dividers (es : list chronology_element) : list (R * R * R * bool) := flat_map (fun e => match e with Divider t a b s => [(t, a, b, s)] | _ => [] end) es.
Definition names (es : list chronology_element) : list (R * R * str * Z) := flat_map (fun e => match e with NameAt x y n s => [(x, y, n, s)] | _ => [] end) es.
Definition ages (es : list chronology_element) : list (R * R * str * bool) := flat_map (fun e => match e with AgeAt x y n s => [(x, y, n, s)] | _ => [] end) es.
(** an epoch system that can be shown: ages in order from 0 to at most 5 Ga, formats for all of them, and not more names than ages *)
Definition presentable (time : list R) (epoch : list str) (f : formats) : Prop :=
  StronglySorted Rlt time /\ (2 <= length time)%nat /\ nth 0 time 0 = 0 /\ (forall t, In t time -> 0 <= t <= 5) /\ (length epoch <= length time)%nat /\
  (length time <= length (f_colour f))%nat /\ (length time <= length (f_boundary f))%nat /\ (length time <= length (f_offset f))%nat.

(** ** The curve *)
Lemma density_lt cf rate t u : positive_coefficients cf -> t < u -> density_or_rate cf rate t < density_or_rate cf rate u.
Proof.
  intros Hc H. destruct rate; cbn [density_or_rate]; [|now apply N1_lt]. destruct Hc as (H0 & H1 & H3). unfold phi.
  assert (exp (ch_p1 cf * t) < exp (ch_p1 cf * u)) by (apply exp_increasing; nra). assert (0 < ch_p1 cf * ch_p0 cf) by nra. apply Rplus_lt_compat_r. now apply Rmult_lt_compat_l.
Qed.
Lemma density_le cf rate t u : positive_coefficients cf -> t <= u -> density_or_rate cf rate t <= density_or_rate cf rate u.
Proof. intros Hc [H|H]; [left; now apply density_lt|subst; lra]. Qed.
Lemma density_pos cf rate t : positive_coefficients cf -> 0 < t -> 0 < density_or_rate cf rate t.
Proof. intros Hc H. destruct rate; cbn [density_or_rate]; [now apply phi_pos|now apply N1_pos]. Qed.

Lemma curve_ok cf rate t : positive_coefficients cf -> 0 <= t <= 5 -> exists y, curve_at cf rate t = Ok y /\ on_line (cf_plotdata cf rate true) t y /\
  density_or_rate cf rate (t - age_step) <= y <= density_or_rate cf rate (t + age_step).
Proof.
  intros Hc H. destruct (C95_plotted_curve cf rate) as ((ts & E & LT & NT) & _). unfold curve_at. set (tbl := cf_plotdata cf rate true) in *.
  assert (LB : length tbl = 1000%nat) by (rewrite E, map_length; exact LT).
  assert (NB : forall i, (i < 1000)%nat -> nth i tbl (0, 0) = (5 * INR i / 999, density_or_rate cf rate (5 * INR i / 999))).
  { intros i Hi. rewrite E. rewrite (nth_map_lt _ _ _ 0) by (rewrite LT; exact Hi). rewrite NT by exact Hi. reflexivity. }
  assert (NE : forall i, (i < 1000)%nat -> nth_error tbl i = Some (5 * INR i / 999, density_or_rate cf rate (5 * INR i / 999))).
  { intros i Hi. rewrite (nth_error_nth' _ (0, 0)) by (rewrite LB; exact Hi). now rewrite NB. }
  assert (SS : StronglySorted Rlt (map fst tbl)).
  { apply (SS_of_nth Rlt 0). rewrite map_length, LB. intros i j Hij. rewrite !(nth_map_lt _ _ _ (0, 0)) by (rewrite LB; lia). rewrite !NB by lia. cbn [fst].
    assert (INR i < INR j) by (apply lt_INR; lia). lra. }
  assert (NN : tbl <> []) by (intros Q; rewrite Q in LB; discriminate).
  clear E. clearbody tbl.
  destruct (Rlt_le_dec t 5) as [T|T].
  - assert (F0 : fst (nth 0 tbl (0, 0)) <= t) by (rewrite NB by lia; cbn [fst INR]; lra).
    destruct (interp_segment tbl t (SS_lt_le _ SS) NN F0) as (j & Lj & B1 & B2 & B3). rewrite LB in *.
    assert (SJ : (S j < 1000)%nat). { destruct (Nat.eq_dec (S j) 1000) as [Q|Q]; [|lia]. exfalso. assert (j = 999)%nat by lia. subst j. rewrite NB in B1 by lia. cbn [fst] in B1. replace (INR 999) with 999 in B1 by (rewrite INR_IZR_INZ; reflexivity). lra. }
    destruct (B2 SJ) as (B4 & B5). rewrite (NB j) in B1, B5 by lia. rewrite (NB (S j)) in B4, B5 by lia. cbn [fst snd] in B1, B4, B5. rewrite (S_INR j) in B4, B5.
    set (a := 5 * INR j / 999) in *. set (b := 5 * (INR j + 1) / 999) in *. assert (AB : b - a = age_step) by (unfold a, b, age_step; lra). assert (ST : 0 < age_step) by (unfold age_step; lra).
    eexists. split; [exact B5|]. split.
    + exists j, (a, density_or_rate cf rate a), (b, density_or_rate cf rate b). split; [apply NE; lia|]. split; [rewrite NE by lia; now rewrite S_INR|]. cbn [fst snd]. split; [lra|]. field. lra.
    + pose proof (slope_bounds a (density_or_rate cf rate a) b (density_or_rate cf rate b) t ltac:(lra) (density_le cf rate a b Hc ltac:(lra))) as SB.
      split; [eapply Rle_trans; [|apply SB]; apply density_le; [exact Hc|lra]|eapply Rle_trans; [apply SB|]; apply density_le; [exact Hc|lra]].
  - assert (t = 5) by lra. subst t. exists (density_or_rate cf rate 5). assert (E5 : 5 * INR 999 / 999 = 5) by (replace (INR 999) with 999 by (rewrite INR_IZR_INZ; reflexivity); lra).
    assert (N9 : nth 999 tbl (0, 0) = (5, density_or_rate cf rate 5)) by (rewrite NB by lia; now rewrite E5).
    split; [rewrite (interp_beyond tbl 5 (SS_lt_le _ SS) NN); rewrite LB; cbn [Nat.sub]; rewrite N9; cbn [fst snd]; [reflexivity|lra]|]. split.
    + exists 998%nat. eexists _, (5, density_or_rate cf rate 5). split; [apply NE; lia|]. split; [rewrite NE by lia; now rewrite E5|]. cbn [fst snd]. replace (INR 998) with 998 by (rewrite INR_IZR_INZ; reflexivity). split; [lra|ring].
    + assert (0 < age_step) by (unfold age_step; lra). split; apply density_le; try exact Hc; lra.
Qed.

Lemma mapM_each {A B} (g : A -> res B) (P : A -> B -> Prop) l : (forall x, In x l -> exists y, g x = Ok y /\ P x y) -> exists r, mapM g l = Ok r /\ Forall2 P l r.
Proof.
  induction l as [|x l IH]; intros H; [exists []; split; [reflexivity|constructor]|]. destruct (H x (or_introl eq_refl)) as (y & E & Q). destruct IH as (r & E2 & F); [intros z Z; apply H; now right|].
  exists (y :: r). cbn [mapM]. rewrite E. cbn [bind]. rewrite E2. split; [reflexivity|]. now constructor.
Qed.
Lemma mapM_inv {A B} (g : A -> res B) l r : mapM g l = Ok r -> Forall2 (fun x y => g x = Ok y) l r.
Proof.
  revert r. induction l as [|x l IH]; intros r E; cbn [mapM] in E; [injection E as <-; constructor|]. destruct (g x) as [y|] eqn:EX; [|discriminate]. cbn [bind] in E. destruct (mapM g l) as [ys|]; [|discriminate]. cbn [bind] in E. injection E as <-.
  constructor; [exact EX|now apply IH].
Qed.
Lemma Forall2_nth {A B} (P : A -> B -> Prop) l r : Forall2 P l r -> forall i a, nth_error l i = Some a -> exists b, nth_error r i = Some b /\ P a b.
Proof. induction 1 as [|x y l r Q F IH]; intros [|i] a E; try discriminate; cbn in *; [injection E as <-; eexists; split; [reflexivity|exact Q]|now apply IH]. Qed.
Lemma Forall2_len {A B} (P : A -> B -> Prop) l r : Forall2 P l r -> length l = length r.
Proof. induction 1; cbn; congruence. Qed.

Lemma regions_ok time : forall colour, (length time - 1 <= length colour)%nat -> exists rs, regions colour time = Ok rs /\ length rs = (length time - 1)%nat /\
  forall i, (S i < length time)%nat -> nth_error rs i = Some (nth i time 0, nth (S i) time 0, (3 - nth i colour 0)%Z).
Proof.
  induction time as [|t time IH]; intros colour H; [exists []; repeat split; intros; cbn in *; lia|]. destruct time as [|u r]; [exists []; repeat split; intros; cbn in *; lia|].
  destruct colour as [|c cs]; [cbn in H; lia|]. destruct (IH cs ltac:(cbn [length] in *; lia)) as (rs & E & L1 & N). change (regions (c :: cs) (t :: u :: r)) with (do! rest <- regions cs (u :: r); Ok ((t, u, (3 - c)%Z) :: rest)).
  rewrite E. cbn [bind]. eexists. split; [reflexivity|]. split; [cbn [length] in *; lia|]. intros [|i] Hi; [reflexivity|]. cbn [nth_error nth length] in *. apply N. lia.
Qed.
Lemma lines_ok time : forall boundary, (length time <= length boundary)%nat -> lines boundary time = Ok (combine time boundary).
Proof. induction time as [|t time IH]; intros [|b bs] H; try reflexivity; cbn [length] in H; [lia|]. cbn [lines combine]. rewrite IH by lia. reflexivity. Qed.
Lemma ages_ok time : forall offset, (length time <= length offset)%nat -> written_ages offset time = Ok (flat_map (fun to => if Reqb (fst to) 0 then [] else [(fst to, L " " ++ fmt_g 3 (fst to) ++ L " ", snd to)]) (combine time offset)).
Proof.
  induction time as [|t time IH]; intros [|o os] H; try reflexivity; cbn [length] in H; [lia|]. cbn [written_ages combine flat_map fst snd]. rewrite (IH os) by lia. cbn [tl]. destruct (Reqb t 0); [exact (IH os ltac:(lia))|reflexivity].
Qed.

Lemma flat_map_none {A B} (g : A -> list B) l : (forall x, In x l -> g x = []) -> flat_map g l = [].
Proof. induction l as [|x l IH]; intros H; [reflexivity|]. cbn [flat_map]. rewrite (H x (or_introl eq_refl)), IH by (intros y Y; apply H; now right). reflexivity. Qed.

Lemma flat_map_map_flat {A B C D} (h : C -> list D) (g : B -> C) (f : A -> list B) l : flat_map h (map g (flat_map f l)) = flat_map (fun a => flat_map h (map g (f a))) l.
Proof. induction l as [|x l IH]; [reflexivity|]. simpl. now rewrite map_app, flat_map_app, IH. Qed.
Definition is_fill (e : chronology_element) := match e with Fill _ _ => True | _ => False end.
Definition is_divider (e : chronology_element) := match e with Divider _ _ _ _ => True | _ => False end.

(** everything at once *)
Lemma oplot_ok cf rate x0 time epoch f : positive_coefficients cf -> presentable time epoch f ->
  exists rs fs ds ns, epoch_regions f time = Ok rs /\ mapM (fill_region cf rate) rs = Ok fs /\ mapM (divide_at cf rate) (combine (tl time) (f_boundary f)) = Ok ds /\ chronology_names time x0 epoch = Ok ns /\
    exists es, chronology_oplot cf rate x0 time epoch (Ok f) = Ok es /\ fills es = fills fs /\ dividers es = dividers ds /\
    names es = map (fun te => (fst te - 3 / 100, shown_density cf rate (fst te) * (3 / 2), snd te, f_slant f)) ns /\
    ages es = flat_map (fun to => if Reqb (fst to) 0 then [] else [(fst to, age_height cf rate (nth 1 time 0), L " " ++ fmt_g 3 (fst to) ++ L " ", snd to)]) (combine time (f_offset f)) /\
    Forall is_fill fs /\ Forall is_divider ds.
Proof.
  intros Hc (SS & L2 & Z0 & IN & LE & LC & LB & LO). destruct time as [|t0 [|t1 time]]; [cbn in L2; lia..|].
  unfold epoch_regions. cbn [tl]. destruct (regions_ok (t1 :: time) (tl (f_colour f))) as (rs & ER & LR & NR). { destruct (f_colour f); cbn [length tl] in *; lia. }
  assert (RI : forall r, In r rs -> 0 <= fst (fst r) <= 5 /\ 0 <= snd (fst r) <= 5).
  { intros r I. apply In_nth_error in I as (i & I). assert (Hi : (i < length rs)%nat) by (apply nth_error_Some; congruence). rewrite LR in Hi. rewrite NR in I by (cbn [length] in *; lia). assert (OS : forall a b : R * R * Z, Some a = Some b -> a = b) by congruence. apply OS in I. subst r. cbn [fst snd].
    split; apply IN, in_cons, nth_In; cbn [length] in *; lia. }
  destruct (mapM_each (fill_region cf rate) (fun _ e => is_fill e) rs) as (fs & EF & FF).
  { intros [[a b] g] I. destruct (RI _ I) as (Ha & Hb). cbn [fst snd] in Ha, Hb. unfold fill_region.
    destruct (mapM_each (fun t => do! y <- curve_at cf rate t; Ok (t, y, far_below y)) (fun _ _ => True) (linspace a b 100)) as (l & El & _).
    { intros t T. apply In_nth_error in T as (k & K). assert (Hk : (k < 100)%nat) by (rewrite <- (linspace_length a b 100); apply nth_error_Some; congruence).
      apply (nth_error_nth _ _ 0) in K. rewrite linspace_nth in K by exact Hk. replace (INR (100 - 1)) with 99 in K by (rewrite INR_IZR_INZ; reflexivity).
      assert (0 <= INR k <= 99). { split; [apply pos_INR|]. replace 99 with (INR 99) by (rewrite INR_IZR_INZ; reflexivity). apply le_INR. lia. }
      assert (0 <= t <= 5). { subst t. replace (a + INR k * ((b - a) / 99)) with (a * ((99 - INR k) / 99) + b * (INR k / 99)) by field. assert (0 <= INR k / 99 <= 1) by lra. replace ((99 - INR k) / 99) with (1 - INR k / 99) by field. nra. }
      destruct (curve_ok cf rate t Hc H0) as (y & -> & _). eexists. split; [reflexivity|exact Logic.I]. }
    rewrite El. eexists. split; [reflexivity|exact Logic.I]. }
  destruct (mapM_each (divide_at cf rate) (fun _ e => is_divider e) (combine (t1 :: time) (f_boundary f))) as (ds & ED & FD).
  { intros [t b] I. apply in_combine_l in I. unfold divide_at. cbn [fst snd]. destruct (curve_ok cf rate t Hc) as (y & -> & _); [apply IN; now right|]. eexists. split; [reflexivity|exact Logic.I]. }
  destruct (C81_names_beside_the_chronology (t0 :: t1 :: time) x0 epoch LE) as (ns & EN & _).
  exists rs, fs, ds, ns. split; [exact ER|]. split; [exact EF|]. split; [exact ED|]. split; [exact EN|].
  unfold chronology_oplot. cbn [bind]. unfold epoch_regions, epoch_lines. cbn [tl]. rewrite ER. cbn [bind]. rewrite EF. cbn [bind]. rewrite lines_ok by (cbn [length] in *; lia). cbn [bind]. rewrite ED. cbn [bind]. rewrite EN. cbn [bind].
  change (pyindex (t0 :: t1 :: time) 1) with (@Ok R t1). cbn [bind]. rewrite ages_ok by exact LO. cbn [bind]. eexists. split; [reflexivity|].
  assert (FA : Forall is_fill fs) by (clear - FF; induction FF; constructor; assumption). assert (DA : Forall is_divider ds) by (clear - FD; induction FD; constructor; assumption).
  rewrite Forall_forall in FA, DA.
  assert (N1' : forall X (g : _ -> list X) l, (forall x y n s, g (NameAt x y n s) = []) -> flat_map g (map (name_at cf rate (f_slant f)) l) = []) by (intros X g l H; apply flat_map_none; intros e I; apply in_map_iff in I as (q & <- & _); apply H).
  assert (A1' : forall X (g : _ -> list X) (l : list (R * str * bool)), (forall x y n s, g (AgeAt x y n s) = []) -> flat_map g (map (fun a => AgeAt (fst (fst a)) (age_height cf rate t1) (snd (fst a)) (snd a)) l) = []) by (intros X g l H; apply flat_map_none; intros e I; apply in_map_iff in I as (q & <- & _); apply H).
  split; [|split; [|split; [|split; [|split; [now apply Forall_forall|now apply Forall_forall]]]]].
  - unfold fills. rewrite !flat_map_app, N1', A1' by reflexivity. rewrite !app_nil_r. rewrite (flat_map_none _ ds), app_nil_r; [reflexivity|]. intros e I. apply DA in I. destruct e; cbn in I; try contradiction; reflexivity.
  - unfold dividers. rewrite !flat_map_app, N1', A1' by reflexivity. rewrite !app_nil_r. rewrite (flat_map_none _ fs); [reflexivity|]. intros e I. apply FA in I. destruct e; cbn in I; try contradiction; reflexivity.
  - unfold names. rewrite !flat_map_app, A1' by reflexivity. rewrite app_nil_r, (flat_map_none _ fs), (flat_map_none _ ds); cbn [app].
    + clear. induction ns as [|n ns IH]; [reflexivity|]. cbn [map flat_map app]. unfold name_at at 1. cbn [app]. now rewrite IH.
    + intros e I. apply DA in I. destruct e; cbn in I; try contradiction; reflexivity.
    + intros e I. apply FA in I. destruct e; cbn in I; try contradiction; reflexivity.
  - unfold ages. rewrite !flat_map_app, N1' by reflexivity. rewrite (flat_map_none _ fs), (flat_map_none _ ds); cbn [app].
    + rewrite flat_map_map_flat. apply flat_map_ext. intros n. cbn [nth]. destruct (Reqb (fst n) 0); reflexivity.
    + intros e I. apply DA in I. destruct e; cbn in I; try contradiction; reflexivity.
    + intros e I. apply FA in I. destruct e; cbn in I; try contradiction; reflexivity.
Qed.

(** ** The areas *)
(** One area for each epoch between two boundaries other than the present: at a hundred ages from the younger to the older one it reaches from far below up to the line that is drawn for the chronology (or the rate), which is the true curve
    within one step of 5/999 Ga; in the colour given for that epoch. *)
Theorem C117_areas : forall cf rate x0 time epoch f, positive_coefficients cf -> presentable time epoch f ->
  exists es, chronology_oplot cf rate x0 time epoch (Ok f) = Ok es /\ length (fills es) = (length time - 2)%nat /\
    forall i, (i + 2 < length time)%nat -> exists outline, nth_error (fills es) i = Some (outline, (3 - nth (i + 1) (f_colour f) 0)%Z) /\ length outline = 100%nat /\
      forall k, (k < 100)%nat -> exists t top, nth_error outline k = Some (t, top, top / 100000000000) /\
        t = nth (i + 1) time 0 + INR k / 99 * (nth (i + 2) time 0 - nth (i + 1) time 0) /\ on_line (cf_plotdata cf rate true) t top /\
        density_or_rate cf rate (t - 5 / 999) <= top <= density_or_rate cf rate (t + 5 / 999).
Proof.
  intros cf rate x0 time epoch f Hc PR. destruct (oplot_ok cf rate x0 time epoch f Hc PR) as (rs & fs & ds & ns & ER & EF & ED & EN & es & EO & E1 & E2 & E3 & E4 & F1 & F2).
  destruct PR as (SS & L2 & Z0 & IN & LE & LC & LB & LO). destruct time as [|t0 [|t1 time]]; [cbn in L2; lia..|].
  exists es. split; [exact EO|]. unfold epoch_regions in ER. cbn [tl] in ER. destruct (regions_ok (t1 :: time) (tl (f_colour f))) as (rs' & ER' & LR & NR). { destruct (f_colour f); cbn [length tl] in *; lia. }
  rewrite ER in ER'. injection ER' as <-.
  assert (LF : length (fills fs) = length rs /\ forall i l g, nth_error (fills fs) i = Some (l, g) <-> nth_error fs i = Some (Fill l g)).
  { apply mapM_inv in EF as EF'. assert (LL : length fs = length rs) by (symmetry; apply (Forall2_len _ _ _ EF')). clear - F1 LL. rewrite <- LL. clear LL. induction F1 as [|e fs H F IH]; [split; [reflexivity|intros [|i] l g; split; discriminate]|].
    destruct e as [l g| | |]; try destruct H. cbn [fills flat_map app length]. fold (fills fs). destruct IH as (IH1 & IH2). split; [now f_equal|]. intros [|i] l' g'; cbn [nth_error]; [split; intros Q; injection Q as <- <-; reflexivity|apply IH2]. }
  destruct LF as (LF & NF). rewrite E1. split; [rewrite LF, LR; cbn [length]; lia|].
  intros i Hi. assert (Hi' : (S i < length (t1 :: time))%nat) by (cbn [length] in *; lia). specialize (NR i Hi'). apply mapM_inv in EF. destruct (Forall2_nth _ _ _ EF i _ NR) as (e & NE & FE).
  unfold fill_region in FE. set (a := nth i (t1 :: time) 0) in *. set (b := nth (S i) (t1 :: time) 0) in *.
  assert (AI : 0 <= a <= 5) by (apply IN, in_cons, nth_In; lia). assert (BI : 0 <= b <= 5) by (apply IN, in_cons, nth_In; lia).
  destruct (mapM _ (linspace a b 100)) as [l|] eqn:EL; [|discriminate]. cbn [bind] in FE. injection FE as <-.
  exists l. split. { rewrite NF. rewrite NE. do 2 f_equal. replace (i + 1)%nat with (S i) by lia. destruct (f_colour f) as [|c cs]; [cbn in LC; lia|]. reflexivity. }
  apply mapM_inv in EL. split; [rewrite <- (Forall2_len _ _ _ EL); apply linspace_length|]. intros k Hk.
  assert (NK : nth_error (linspace a b 100) k = Some (a + INR k / 99 * (b - a))).
  { rewrite (nth_error_nth' _ 0) by (rewrite linspace_length; exact Hk). rewrite linspace_nth by exact Hk. replace (INR (100 - 1)) with 99 by (rewrite INR_IZR_INZ; reflexivity). f_equal. field. }
  destruct (Forall2_nth _ _ _ EL k _ NK) as (p & NP & P). set (t := a + INR k / 99 * (b - a)) in *.
  assert (0 <= INR k <= 99). { split; [apply pos_INR|]. replace 99 with (INR 99) by (rewrite INR_IZR_INZ; reflexivity). apply le_INR. lia. }
  assert (TI : 0 <= t <= 5). { assert (0 <= INR k / 99 <= 1) by lra. unfold t. nra. }
  destruct (curve_ok cf rate t Hc TI) as (y & EY & OL & DB). rewrite EY in P. cbn [bind] in P. injection P as <-. exists t, y. split; [exact NP|]. split; [|split; [exact OL|exact DB]].
  unfold t, a, b. replace (i + 1)%nat with (S i) by lia. replace (i + 2)%nat with (S (S i)) by lia. reflexivity.
Qed.
Print Assumptions C117_areas.

(** a dividing line at each boundary except the present, up to the same line, strong if its format has a b *)
Theorem C117_dividers : forall cf rate x0 time epoch f, positive_coefficients cf -> presentable time epoch f ->
  exists es, chronology_oplot cf rate x0 time epoch (Ok f) = Ok es /\ length (dividers es) = (length time - 1)%nat /\
    forall i, (i + 1 < length time)%nat -> exists top, nth_error (dividers es) i = Some (nth (i + 1) time 0, top, top / 100000000000, nth i (f_boundary f) false) /\ on_line (cf_plotdata cf rate true) (nth (i + 1) time 0) top.
Proof.
  intros cf rate x0 time epoch f Hc PR. destruct (oplot_ok cf rate x0 time epoch f Hc PR) as (rs & fs & ds & ns & ER & EF & ED & EN & es & EO & E1 & E2 & E3 & E4 & F1 & F2).
  destruct PR as (SS & L2 & Z0 & IN & LE & LC & LB & LO). destruct time as [|t0 [|t1 time]]; [cbn in L2; lia..|]. cbn [tl] in ED. apply mapM_inv in ED.
  exists es. split; [exact EO|]. rewrite E2.
  assert (LL : length ds = length (t1 :: time)). { rewrite <- (Forall2_len _ _ _ ED), combine_length. cbn [length] in *. lia. }
  assert (LF : length (dividers ds) = length ds /\ forall i t a b s, nth_error (dividers ds) i = Some (t, a, b, s) <-> nth_error ds i = Some (Divider t a b s)).
  { clear - F2. induction F2 as [|e ds H F IH]; [split; [reflexivity|intros [|i] t a b s; split; discriminate]|].
    destruct e as [|t a b s| |]; try destruct H. cbn [dividers flat_map app length]. fold (dividers ds). destruct IH as (IH1 & IH2). split; [now f_equal|]. intros [|i] t' a' b' s'; cbn [nth_error]; [split; intros Q; injection Q as <- <- <- <-; reflexivity|apply IH2]. }
  destruct LF as (LF & NF). split; [rewrite LF, LL; cbn [length]; lia|]. intros i Hi. replace (i + 1)%nat with (S i) by lia. cbn [nth].
  assert (NC : nth_error (combine (t1 :: time) (f_boundary f)) i = Some (nth i (t1 :: time) 0, nth i (f_boundary f) false)).
  { clear - Hi LB. assert (A1 : (i < length (t1 :: time))%nat) by (cbn [length] in *; lia). assert (A2 : (i < length (f_boundary f))%nat) by (cbn [length] in *; lia). clear Hi LB. revert A1 A2. generalize (f_boundary f) as bs. generalize (t1 :: time) as ts. clear. intros ts. revert i.
    induction ts as [|t ts IH]; intros i [|b bs] A1 A2; cbn [length] in *; try lia. destruct i as [|i]; [reflexivity|]. cbn [combine nth_error nth]. apply IH; lia. }
  destruct (Forall2_nth _ _ _ ED i _ NC) as (e & NE & FE). unfold divide_at in FE. cbn [fst snd] in FE.
  destruct (curve_ok cf rate (nth i (t1 :: time) 0) Hc) as (y & EY & OL & _). { apply IN, in_cons, nth_In. cbn [length] in *. lia. }
  rewrite EY in FE. cbn [bind] in FE. injection FE as <-. exists y. split; [|exact OL]. rewrite NF, NE. reflexivity.
Qed.
Print Assumptions C117_dividers.

(** ** The texts *)
(** the name of each epoch begins above the curve, left of the middle of the epoch; that of the oldest one of the middle between its boundary and the left end of the axis *)
Theorem C117_names : forall cf rate x0 time epoch f, positive_coefficients cf -> presentable time epoch f -> 0 <= x0 ->
  exists es, chronology_oplot cf rate x0 time epoch (Ok f) = Ok es /\ length (names es) = length epoch /\
    forall i, (i < length epoch)%nat -> exists x y, nth_error (names es) i = Some (x, y, nth i epoch [], f_slant f) /\
      x = (nth i time 0 + (if Nat.ltb (S i) (length time) then nth (S i) time 0 else x0)) / 2 - 3 / 100 /\ (0 < x -> density_or_rate cf rate x < y).
Proof.
  intros cf rate x0 time epoch f Hc PR X0. destruct (oplot_ok cf rate x0 time epoch f Hc PR) as (rs & fs & ds & ns & ER & EF & ED & EN & es & EO & E1 & E2 & E3 & E4 & F1 & F2).
  destruct PR as (SS & L2 & Z0 & IN & LE & LC & LB & LO). destruct (C81_names_beside_the_chronology time x0 epoch LE) as (ns' & EN' & MS & NX). rewrite EN in EN'. injection EN' as <-.
  exists es. split; [exact EO|]. assert (LN : length ns = length epoch) by (rewrite <- MS; now rewrite map_length). rewrite E3. split; [now rewrite map_length|]. intros i Hi.
  assert (NN : nth_error ns i = Some (nth i ns (0, []))) by (apply nth_error_nth'; lia).
  assert (SN : snd (nth i ns (0, [])) = nth i epoch []). { clear - MS. subst epoch. symmetry. exact (map_nth snd ns (0, []) i). }
  set (m := fst (nth i ns (0, []))) in *. assert (EM := NX i Hi). fold m in EM.
  exists (m - 3 / 100), (shown_density cf rate m * (3 / 2)). split; [|split].
  - rewrite nth_error_map, NN. cbn [option_map]. fold m. now rewrite SN.
  - now rewrite <- EM.
  - intros P. change (shown_density cf rate m) with (density_or_rate cf rate m). pose proof (density_lt cf rate (m - 3 / 100) m Hc ltac:(lra)). pose proof (density_pos cf rate m Hc ltac:(lra)). lra.
Qed.
Print Assumptions C117_names.

(** every boundary except the present has its age, to three figures, below the curve, all at one height; raised if its format has an r *)
Theorem C117_ages : forall cf rate x0 time epoch f, positive_coefficients cf -> presentable time epoch f ->
  exists es h, chronology_oplot cf rate x0 time epoch (Ok f) = Ok es /\ length (ages es) = (length time - 1)%nat /\
    forall i, (i + 1 < length time)%nat -> exists w v, nth_error (ages es) i = Some (nth (i + 1) time 0, h, L " " ++ w ++ L " ", nth (i + 1) (f_offset f) false) /\
      decimal w v /\ significant 3 (nth (i + 1) time 0) v /\ 0 < h < density_or_rate cf rate (nth (i + 1) time 0).
Proof.
  intros cf rate x0 time epoch f Hc PR. destruct (oplot_ok cf rate x0 time epoch f Hc PR) as (rs & fs & ds & ns & ER & EF & ED & EN & es & EO & E1 & E2 & E3 & E4 & F1 & F2).
  destruct PR as (SS & L2 & Z0 & IN & LE & LC & LB & LO). destruct time as [|t0 [|t1 time]]; [cbn in L2; lia..|]. cbn [nth] in Z0. subst t0. cbn [nth] in E4.
  inversion SS as [|? ? SS1 FZ]; subst. inversion SS1 as [|? ? SS2 FT]; subst.
  exists es, (age_height cf rate t1). split; [exact EO|]. destruct (f_offset f) as [|o0 os] eqn:EOF; [cbn in LO; lia|]. change (combine (0 :: t1 :: time) (o0 :: os)) with ((0, o0) :: combine (t1 :: time) os) in E4. cbn [flat_map fst] in E4. destruct (Reqb_spec 0 0) as [_|Q]; [|contradiction]. cbn [app] in E4.
  assert (G : forall ts os h, Forall (Rlt 0) ts -> (length ts <= length os)%nat ->
            let l := flat_map (fun to : R * bool => if Reqb (fst to) 0 then [] else [(fst to, h, L " " ++ fmt_g 3 (fst to) ++ L " ", snd to)]) (combine ts os) in
            length l = length ts /\ forall i, (i < length ts)%nat -> nth_error l i = Some (nth i ts 0, h : R, L " " ++ fmt_g 3 (nth i ts 0) ++ L " ", nth i os false)).
  { clear. induction ts as [|t ts IH]; intros os h F LO; [split; [reflexivity|intros i Hi; cbn in Hi; lia]|]. destruct os as [|o os]; [cbn in LO; lia|]. inversion F as [|? ? F1 F2]; subst. cbn [combine flat_map fst snd].
    destruct (Reqb_spec t 0) as [Q|_]; [lra|]. cbn [app length]. destruct (IH os h F2 ltac:(cbn [length] in LO; lia)) as (I1 & I2). split; [now f_equal|]. intros [|i] Hi; [reflexivity|]. cbn [nth_error nth]. apply I2. cbn [length] in Hi. lia. }
  destruct (G (t1 :: time) os (age_height cf rate t1) FZ ltac:(cbn [length] in *; lia)) as (G1 & G2). cbv zeta in G1, G2. rewrite <- E4 in G1, G2. split; [etransitivity; [exact G1|cbn [length]; lia]|].
  intros i Hi. assert (Hi' : (i < length (t1 :: time))%nat) by (cbn [length] in *; lia). specialize (G2 i Hi'). destruct (fmt_g_decimal 3 (nth i (t1 :: time) 0)) as (v & SG & DV).
  exists (fmt_g 3 (nth i (t1 :: time) 0)), v. replace (i + 1)%nat with (S i) by lia. cbn [nth] in *. split; [exact G2|]. split; [exact DV|]. split; [exact SG|].
  inversion FZ as [|? ? P1 _]; subst. assert (LE1 : t1 <= nth i (t1 :: time) 0). { destruct i as [|i]; [cbn; lra|]. cbn [nth]. rewrite Forall_forall in FT. left. apply FT. apply nth_In. cbn [length] in *. lia. }
  pose proof (density_pos cf rate t1 Hc P1) as DP. pose proof (density_le cf rate _ _ Hc LE1) as DL. cbn [nth] in DL. unfold age_height. destruct rate; cbn [density_or_rate] in *; lra.
Qed.
Print Assumptions C117_ages.

(** ** The reference diameter *)
(** the line that the areas reach is the last curve drawn; at another reference diameter than 1 km that is the grey curve of 1 km and not the main one, whose densities are in another ratio *)
Theorem C117_last_curve : forall cf pf ref rate l, chronology_curves cf pf ref rate = Ok l ->
  (ref = 1 -> l = [(None, cf_plotdata cf rate true)]) /\
  (ref <> 1 -> exists label k, l = [(Some label, map (fun p => (fst p, snd p * k)) (cf_plotdata cf rate true)); (Some (L "N(>1 km)"), cf_plotdata cf rate true)] /\ ref_ratio pf ref = Ok k).
Proof.
  intros cf pf ref rate l. unfold chronology_curves. destruct (ref_ratio pf ref) as [k|]; [|discriminate]. cbn [bind]. assert (OI : forall (A : Type) (a b : A), Ok a = Ok b -> a = b) by congruence. intros E. apply OI in E. subst l.
  destruct (Reqb_spec ref 1) as [Q|Q]; split; intros R; try contradiction; [reflexivity|]. eexists _, k. split; reflexivity.
Qed.
Print Assumptions C117_last_curve.
(** an epoch system with one age cannot be drawn *)
Theorem C117_one_age_refuted : forall cf rate x0 t epoch f, (length epoch <= 1)%nat -> chronology_oplot cf rate x0 [t] epoch (Ok f) = Err IndexError.
Proof.
  intros cf rate x0 t epoch f LE. unfold chronology_oplot, epoch_regions, epoch_lines. cbn [bind tl regions mapM lines]. destruct (C81_names_beside_the_chronology [t] x0 epoch LE) as (ns & -> & _). reflexivity.
Qed.
Print Assumptions C117_one_age_refuted.

(** three ages as of the epochs of Mars, with their formats *)
Example C117_hypotheses_met : presentable [0; 3; 37 / 10] [L "Amazonian"; L "Hesperian"; L "Noachian"] (mkFormats 30 [0; 1; 2]%Z [false; false; true] [true; false; true]) /\ positive_coefficients (mkChron (323 / 10 ^ 17) (693 / 100) (29 / 100000)).
Proof.
  split; [|repeat split; cbn; lra]. unfold presentable. cbn [length nth f_colour f_boundary f_offset]. repeat split; try lia; try lra; try (match goal with H : In _ _ |- _ => cbn in H; destruct H as [<-|[<-|[<-|[]]]]; lra end).
  repeat (constructor; [|repeat (constructor; [lra|]); constructor]). constructor.
Qed.
