(** C104: an isochron has its age beside it, along its direction. *)
From Coq Require Import String Ascii List Arith ZArith Reals Bool Lia Lra.
From Verif Require Import Base NumModel NumLemmas InterpProofs StrModel FmtModel FmtSpec FmtProps ChronModel ChronSpec ChronProofs ProdModel ProdSpec ProdProofs ProdProofs2 ProdProofs3 ProdProps SetModel SetSpec EpModel OverModel OverSpec OverProps EpoModel EpoProps LabModel.
Import ListNotations.
Local Open Scope R_scope.

Lemma least (l : list R) : l <> [] -> exists a, In a l /\ forall x, In x l -> a <= x.
Proof.
  induction l as [|x [|y l] IH]; intros H; [congruence| |].
  - exists x. split; [now left|]. intros z [<-|[]]. lra.
  - destruct IH as (a & A1 & A2); [discriminate|]. destruct (Rle_lt_dec x a) as [L|L].
    + exists x. split; [now left|]. intros z [<-|Z]; [lra|]. specialize (A2 z Z). lra.
    + exists a. split; [now right|]. intros z [<-|Z]; [lra|]. now apply A2.
Qed.
Lemma greatest (l : list R) : l <> [] -> exists a, In a l /\ forall x, In x l -> x <= a.
Proof.
  induction l as [|x [|y l] IH]; intros H; [congruence| |].
  - exists x. split; [now left|]. intros z [<-|[]]. lra.
  - destruct IH as (a & A1 & A2); [discriminate|]. destruct (Rle_lt_dec a x) as [L|L].
    + exists x. split; [now left|]. intros z [<-|Z]; [lra|]. specialize (A2 z Z). lra.
    + exists a. split; [now right|]. intros z [<-|Z]; [lra|]. now apply A2.
Qed.
Lemma sum_bounds a b l : (forall x, In x l -> a <= x <= b) -> a * INR (length l) <= fold_right Rplus 0 l <= b * INR (length l).
Proof.
  induction l as [|x l IH]; intros H; [cbn; lra|]. cbn [fold_right length]. rewrite S_INR. specialize (IH ltac:(intros z Z; apply H; now right)). specialize (H x (or_introl eq_refl)). lra.
Qed.
Lemma mean_between l : l <> [] -> exists a b, In a l /\ In b l /\ a <= mean l <= b.
Proof.
  intros N. destruct (least l N) as (a & A1 & A2), (greatest l N) as (b & B1 & B2). exists a, b. split; [exact A1|]. split; [exact B1|].
  assert (P : 0 < INR (length l)) by (apply lt_0_INR; destruct l; [congruence|cbn; lia]). destruct (sum_bounds a b l) as (S1 & S2). { intros x X. split; [now apply A2|now apply B2]. }
  unfold mean, Rdiv. split.
  - apply (Rmult_le_reg_r (INR (length l))); [exact P|]. rewrite Rmult_assoc, Rinv_l by lra. lra.
  - apply (Rmult_le_reg_r (INR (length l))); [exact P|]. rewrite Rmult_assoc, Rinv_l by lra. lra.
Qed.
(** evenly spaced points come close to any place between their ends *)
Lemma close_sample a b c : a <= c <= b -> b - a <= 70 -> exists i, (i < 400)%nat /\ Rabs (a + INR i / INR (400 - 1) * (b - a) - c) < 1 / 10.
Proof.
  intros C L. replace (INR (400 - 1)) with 399 by (rewrite INR_IZR_INZ; reflexivity). set (s := (b - a) / 399).
  assert (S0 : 0 <= s) by (unfold s, Rdiv; apply Rmult_le_pos; lra). assert (S1 : s < 19 / 100) by (unfold s; lra).
  assert (Q : forall n, (n <= 399)%nat -> c < a + INR n * s \/ a + INR n * s <= c <= b) by (intros n _; destruct (Rlt_le_dec c (a + INR n * s)); [now left|right; lra]).
  assert (K : exists i, (i <= 399)%nat /\ a + INR i * s <= c /\ (i = 399%nat \/ c < a + INR (S i) * s)).
  { assert (G : forall n, (n <= 399)%nat -> exists i, (i <= n)%nat /\ a + INR i * s <= c /\ (i = n \/ c < a + INR (S i) * s)).
    { induction n as [|n IH]; intros Hn; [exists 0%nat; split; [lia|]; cbn [INR]; split; [lra|now left]|]. destruct IH as (i & I1 & I2 & I3); [lia|].
      destruct I3 as [->|I3]; [|exists i; split; [lia|]; split; [exact I2|now right]].
      destruct (Rlt_le_dec c (a + INR (S n) * s)) as [G|G]; [exists n; split; [lia|]; split; [exact I2|now right]|]. exists (S n). split; [lia|]. split; [exact G|now left]. }
    destruct (G 399%nat (le_n _)) as (i & I1 & I2 & I3). exists i. split; [exact I1|]. split; [exact I2|]. exact I3. }
  destruct K as (i & I1 & I2 & I3).
  assert (E : forall k, INR k / 399 * (b - a) = INR k * s) by (intros k; unfold s; field).
  destruct I3 as [->|I3].
  - exists 399%nat. split; [lia|]. rewrite E. replace (INR 399 * s) with (b - a) in * by (rewrite INR_IZR_INZ; unfold s; cbn; field). apply Rabs_def1; lra.
  - rewrite S_INR in I3. destruct (Rle_lt_dec (c - (a + INR i * s)) (s / 2)) as [G|G].
    + exists i. split; [lia|]. rewrite E. apply Rabs_def1; lra.
    + destruct (Nat.eq_dec i 399) as [->|NI].
      * exists 399%nat. split; [lia|]. rewrite E. replace (INR 399 * s) with (b - a) in * by (rewrite INR_IZR_INZ; unfold s; cbn; field). apply Rabs_def1; lra.
      * exists (S i). split; [lia|]. rewrite E, S_INR. apply Rabs_def1; lra.
Qed.
(** an isochron along which densities are positive and fall with the diameter *)
Definition falling (pf : productionfn) (pres : string) (lo hi a0 : R) : Prop :=
  forall d d' y y', lo <= d < d' -> d' <= hi -> isochron_of pf pres a0 d y -> isochron_of pf pres a0 d' y' -> 0 < y' < y.
Lemma filter_first {A} (f : A -> bool) l : forall p r, filter f l = p :: r -> exists i, nth_error l i = Some p /\ forall q, In q (p :: r) -> exists j, (i <= j)%nat /\ nth_error l j = Some q.
Proof.
  induction l as [|x l IH]; intros p r E; [discriminate|]. cbn [filter] in E. destruct (f x).
  - injection E as <- E. exists 0%nat. split; [reflexivity|]. intros q [<-|Q]; [exists 0%nat; split; [lia|reflexivity]|]. rewrite <- E in Q. apply filter_In in Q as (Q & _).
    apply In_nth_error in Q as (j & J). exists (S j). split; [lia|exact J].
  - destruct (IH p r E) as (i & I1 & I2). exists (S i). split; [exact I1|]. intros q Q. destruct (I2 q Q) as (j & J1 & J2). exists (S j). split; [lia|exact J2].
Qed.
Lemma Rltb_iff x y : Rltb x y = true <-> x < y.
Proof. destruct (Rltb_spec x y); split; congruence || lra || (intros; lra). Qed.

(** where the label may be: in the band of a fifth of a decade around the height a tenth of a decade (times the aspect) below the top, or, if the isochron is not there or enters it left of the
    diagram, at its left end or 0.15 decades inside the diagram *)
Definition near_top (yr : R * R) (aspect y : R) : Prop := Rabs (log10 y - (snd yr - 1 / 10 * aspect)) < 1 / 10.
Definition near_left (xr : R * R) (lo x : R) : Prop := Rabs (x - Rmax (fst xr + 15 / 100) (log10 lo)) < 1 / 10.

(** An isochron that falls with the diameter has its age, to six figures, just below the curve (a twentieth of a decade), near the top of the diagram or near its left end; the text runs towards the
    point of the isochron 0.3 decades to the right; a hidden label is not drawn, the curve always is *)
Theorem C104_label :
  forall pf cf pres xr yr aspect t hide above small lo hi, built pf -> data_diagram pres -> pf_range pf = Ok (lo, hi) -> 0 < lo < hi -> log10 hi - log10 lo <= 70 ->
    positive_coefficients cf -> / 10 ^ 9 <= t < 1000 -> N1 cf t <> 1 -> falling pf pres lo hi (log10 (N1 cf t)) -> fst xr + 15 / 100 <= log10 hi ->
    exists curve lab, plot_isochron pf cf pres None xr yr aspect (t, hide, above, small) = Ok (curve, lab) /\ age_curve pf cf pres lo hi t curve /\
      (hide = true -> lab = None) /\
      (hide = false -> exists x ly y y' num n f u, lab = Some (mkLabel x ly (atan ((log10 y' - ly) / (3 / 10 * aspect)) * 180 / PI) (num ++ L " " ++ u) above small) /\
         density_at_age pf cf pres t (pow10 x) y /\ density_at_age pf cf pres t (pow10 (x + 3 / 10)) y' /\ 0 < y /\ ly = log10 y - 1 / 20 /\
         best_unit t f u /\ numeral num n /\ significant 6 (t / f) n /\
         log10 lo <= x <= log10 hi /\
         ((fst xr <= x /\ near_top yr aspect y) \/ near_left xr lo x) /\
         ((exists px py, In (px, py) curve /\ near_top yr aspect py) -> (forall px py, In (px, py) curve -> near_top yr aspect py -> fst xr <= px) -> fst xr <= x /\ near_top yr aspect y)).
Proof.
  intros pf cf pres xr yr aspect t hide above small lo hi B P E LH LL Hc HT N F XR.
  assert (T0 : 0 < t) by (assert (0 < / 10 ^ 9) by (apply Rinv_0_lt_compat, pow_lt; lra); lra).
  assert (NZ : cf_a0 cf t <> 0). { unfold cf_a0. intros Z. apply N. rewrite <- (pow10_log10 (N1 cf t)) by now apply N1_pos. rewrite Z. apply pow10_0. }
  destruct (plotted pf pres (cf_a0 cf t) None lo hi B P E ltac:(lra) NZ) as (iso & I1 & I2).
  assert (W : forall x, x = lo \/ x = hi -> within lo hi x = x) by (intros x [-> | ->]; unfold within, Rmin, Rmax; repeat destruct (Rle_dec _ _); lra). rewrite !W in I2 by auto.
  set (curve := logged iso) in *. exists curve. destruct I2 as (LC & IC).
  assert (LG : log10 lo < log10 hi) by (apply log10_lt; lra).
  set (xs := fun i => log10 lo + INR i / INR (400 - 1) * (log10 hi - log10 lo)) in *.
  assert (XI : forall i, (i < 400)%nat -> log10 lo <= xs i <= log10 hi).
  { intros i Hi. unfold xs. replace (INR (400 - 1)) with 399 by (rewrite INR_IZR_INZ; reflexivity). assert (INR i <= 399) by (replace 399 with (INR 399) by (rewrite INR_IZR_INZ; reflexivity); apply le_INR; lia).
    pose proof (pos_INR i). split; [assert (0 <= INR i / 399 * (log10 hi - log10 lo)) by (apply Rmult_le_pos; lra); lra|]. assert (INR i / 399 * (log10 hi - log10 lo) <= 1 * (log10 hi - log10 lo)) by (apply Rmult_le_compat_r; lra). lra. }
  assert (XM : forall i j, (i <= j)%nat -> xs i <= xs j).
  { intros i j H. apply le_INR in H. unfold xs. replace (INR (400 - 1)) with 399 by (rewrite INR_IZR_INZ; reflexivity). assert (INR i / 399 * (log10 hi - log10 lo) <= INR j / 399 * (log10 hi - log10 lo)) by (apply Rmult_le_compat_r; lra). lra. }
  set (l := map (fun p => (log10 (fst p), log10 (snd p))) iso). assert (LE : l = map (fun p => (fst p, log10 (snd p))) curve) by (unfold l, curve, logged; rewrite map_map; reflexivity).
  (* the points of l *)
  assert (PL : forall j p, nth_error l j = Some p -> (j < 400)%nat /\ fst p = xs j /\ exists y, isochron_of pf pres (cf_a0 cf t) (pow10 (xs j)) y /\ snd p = log10 y /\ In (xs j, y) curve).
  { intros j p J. rewrite LE, nth_error_map in J. destruct (nth_error curve j) as [[px py]|] eqn:EJ; [|discriminate]. assert (JJ : (j < 400)%nat) by (rewrite <- LC; apply nth_error_Some; congruence).
    destruct (IC j JJ) as (x & y & Q1 & Q2 & Q3). rewrite EJ in Q1. injection Q1 as -> ->. injection J as <-. cbn [fst snd]. split; [exact JJ|]. subst x. split; [reflexivity|]. exists y. split; [exact Q3|]. split; [reflexivity|].
    eapply nth_error_In; exact EJ. }
  assert (PN : forall j, (j < 400)%nat -> exists p, nth_error l j = Some p /\ fst p = xs j).
  { intros j JJ. destruct (IC j JJ) as (x & y & Q1 & Q2 & Q3). exists (x, log10 y). split; [rewrite LE, nth_error_map, Q1; reflexivity|]. cbn. exact Q2. }
  (* the density at any place *)
  assert (VT : forall x, exists y, isochron_of pf pres (cf_a0 cf t) x y). { intros x. unfold isochron_of. rewrite evaluate_value by exact NZ. exact (value_total pf pres x _ B P). }
  assert (FN : forall x y z, isochron_of pf pres (cf_a0 cf t) x y -> isochron_of pf pres (cf_a0 cf t) x z -> y = z) by (unfold isochron_of; intros; congruence).
  assert (IN : forall x, log10 lo <= x <= log10 hi -> lo <= pow10 x <= hi).
  { intros x (X1 & X2). rewrite <- (pow10_log10 lo), <- (pow10_log10 hi) by lra. split; now apply pow10_le. }
  assert (PO : forall x y, log10 lo <= x <= log10 hi -> isochron_of pf pres (cf_a0 cf t) (pow10 x) y -> 0 < y).
  { intros x y X I. destruct (IN x X) as (Z1 & Z2). destruct (Rlt_le_dec lo (pow10 x)) as [Z|Z].
    - destruct (VT lo) as (z & ZI). apply (F lo (pow10 x) z y); try assumption; lra.
    - destruct (VT hi) as (z & ZI). destruct (F (pow10 x) hi y z) as (? & ?); try assumption; lra. }
  assert (DE : forall x x' y y', log10 lo <= x <= x' -> x' <= log10 hi -> isochron_of pf pres (cf_a0 cf t) (pow10 x) y -> isochron_of pf pres (cf_a0 cf t) (pow10 x') y' -> log10 y' <= log10 y).
  { intros x x' y y' X X' I I'. destruct (Rle_lt_or_eq_dec x x') as [G|G]; [lra| |subst x'; right; f_equal; now apply (FN (pow10 x))].
    destruct (IN x ltac:(lra)), (IN x' ltac:(lra)). destruct (F (pow10 x) (pow10 x') y y') as (Y0 & Y1); try assumption; [split; [lra|now apply pow10_lt]|]. left. apply log10_lt; lra. }
  set (T := snd yr - 1 / 10 * aspect). set (C := Rmax (fst xr + 15 / 100) (log10 lo)).
  set (fb := fun p : R * R => Rltb (Rabs (snd p - T)) (1 / 10)).
  (* the places *)
  assert (PP : exists q, label_places xr yr aspect l = Ok q /\ q <> [] /\ (forall x, In x q -> log10 lo <= x <= log10 hi) /\
            ((forall x, In x q -> fst xr <= x /\ exists y, isochron_of pf pres (cf_a0 cf t) (pow10 x) y /\ Rabs (log10 y - T) < 1 / 10) \/
             ((forall x, In x q -> Rabs (x - C) < 1 / 10) /\
              ~ ((exists px py, In (px, py) curve /\ near_top yr aspect py) /\ (forall px py, In (px, py) curve -> near_top yr aspect py -> fst xr <= px))))).
  { unfold label_places. fold T. change (fun p : R * R => Rltb (Rabs (snd p - T)) (1 / 10)) with fb.
    destruct (PN 0%nat ltac:(lia)) as (p0 & P0 & P0').
    assert (P0x : fst p0 = log10 lo) by (rewrite P0'; unfold xs; cbn [INR]; unfold Rdiv; rewrite !Rmult_0_l; ring).
    assert (LEFT : exists q, match l with [] => Err IndexError | p0 :: _ => Ok (map fst (filter (fun p => Rltb (Rabs (fst p - Rmax (fst xr + 15 / 100) (fst p0))) (1 / 10)) l)) end = Ok q /\ q <> [] /\
              (forall x, In x q -> log10 lo <= x <= log10 hi) /\ (forall x, In x q -> Rabs (x - C) < 1 / 10)).
    { destruct l as [|p l'] eqn:EL; [discriminate|]. rewrite <- EL in *. assert (p = p0) by (rewrite EL in P0; cbn in P0; congruence). subst p. rewrite P0x. fold C. eexists. split; [reflexivity|].
      assert (CB : log10 lo <= C <= log10 hi) by (unfold C, Rmax; destruct (Rle_dec _ _); lra).
      destruct (close_sample (log10 lo) (log10 hi) C CB LL) as (i & Hi & CI). destruct (PN i Hi) as (p & NP & XP). split; [|split].
      - intros Z. assert (In p (filter (fun p => Rltb (Rabs (fst p - C)) (1 / 10)) l)) by (apply filter_In; split; [eapply nth_error_In; exact NP|apply Rltb_iff; rewrite XP; exact CI]).
        destruct (filter _ l); [contradiction|discriminate].
      - intros x X. apply in_map_iff in X as (r & <- & X). apply filter_In in X as (X & _). apply In_nth_error in X as (j & J). destruct (PL j r J) as (J1 & J2 & _). rewrite J2. now apply XI.
      - intros x X. apply in_map_iff in X as (r & <- & X). apply filter_In in X as (_ & X). now apply Rltb_iff in X. }
    destruct LEFT as (q & Q1 & Q2 & Q3 & Q4).
    assert (SAMPLE : forall px py, In (px, py) curve -> near_top yr aspect py -> In (px, log10 py) (filter fb l)).
    { intros px py I NT. apply filter_In. split; [rewrite LE; apply in_map_iff; exists (px, py); split; [reflexivity|exact I]|]. apply Rltb_iff. exact NT. }
    destruct (filter fb l) as [|p r] eqn:EF.
    - exists q. split; [exact Q1|]. split; [exact Q2|]. split; [exact Q3|]. right. split; [exact Q4|]. intros ((px & py & I & NT) & _). exact (SAMPLE px py I NT).
    - destruct (filter_first fb l p r EF) as (i & F1 & F2). destruct (PL i p F1) as (Hi & Xi & _).
      assert (MEM : forall z, In z (p :: r) -> exists j y, (i <= j)%nat /\ (j < 400)%nat /\ fst z = xs j /\ isochron_of pf pres (cf_a0 cf t) (pow10 (xs j)) y /\ Rabs (log10 y - T) < 1 / 10 /\ In (xs j, y) curve).
      { intros z Z. destruct (F2 z Z) as (j & J1 & J2). destruct (PL j z J2) as (J3 & J4 & y & J5 & J6 & J7). exists j, y. repeat (split; [assumption|]). split; [|exact J7]. rewrite <- EF in Z. apply filter_In in Z as (_ & Z).
        unfold fb in Z. apply Rltb_iff in Z. now rewrite J6 in Z. }
      destruct (Rltb_spec (fst p) (fst xr)) as [G|G].
      + exists q. split; [exact Q1|]. split; [exact Q2|]. split; [exact Q3|]. right. split; [exact Q4|]. intros (_ & H). destruct (MEM p (or_introl eq_refl)) as (j & y & _ & _ & M1 & _ & M2 & M3).
        specialize (H _ _ M3 M2). lra.
      + exists (map fst (p :: r)). split; [reflexivity|]. split; [discriminate|]. split.
        * intros x X. apply in_map_iff in X as (z & <- & Z). destruct (MEM z Z) as (j & y & _ & M1 & -> & _). now apply XI.
        * left. intros x X. apply in_map_iff in X as (z & <- & Z). destruct (MEM z Z) as (j & y & M0 & M1 & -> & M2 & M3 & _). split; [|exists y; split; assumption]. pose proof (XM i j M0). lra. }
  destruct PP as (q & Q1 & Q2 & Q3 & Q4). unfold plot_isochron. rewrite C24_isochron_without_equilibrium, I1. cbn [bind]. fold l. rewrite Q1. cbn [bind]. fold curve.
  destruct (VT (pow10 (mean q))) as (y & Y). destruct (VT (pow10 (mean q + 3 / 10))) as (y' & Y').
  destruct (C27_simple t ltac:(lra) ltac:(lra)) as (num & n & f & u & U1 & U2 & U3 & U4).
  exists (if hide then None else Some (mkLabel (mean q) (log10 y - 5 / 100) (atan ((log10 y' - (log10 y - 5 / 100)) / (3 / 10 * aspect)) * 180 / PI) (num ++ L " " ++ u) above small)).
  split; [|split; [split; [exact LC|exact IC]|split; [intros ->; reflexivity|]]].
  { destruct q as [|q0 q']; [congruence|]. set (q := q0 :: q') in *. destruct hide; [reflexivity|]. unfold log_density_at. unfold isochron_of in Y, Y'. rewrite Y. cbn [bind]. rewrite Y'. cbn [bind]. rewrite U4. reflexivity. }
  intros ->. destruct (mean_between q Q2) as (a & b & A1 & B1 & AB).
  assert (MX : log10 lo <= mean q <= log10 hi) by (pose proof (Q3 a A1); pose proof (Q3 b B1); lra).
  exists (mean q), (log10 y - 5 / 100), y, y', num, n, f, u. split; [reflexivity|]. split; [exact Y|]. split; [exact Y'|]. split; [exact (PO _ _ MX Y)|]. split; [lra|]. split; [exact U1|]. split; [exact U2|]. split; [exact U3|].
  split; [exact MX|].
  assert (TOP : (forall x, In x q -> fst xr <= x /\ exists y, isochron_of pf pres (cf_a0 cf t) (pow10 x) y /\ Rabs (log10 y - T) < 1 / 10) -> fst xr <= mean q /\ near_top yr aspect y).
  { intros H. destruct (H a A1) as (Ha & ya & Ya & Ra), (H b B1) as (Hb & yb & Yb & Rb). split; [lra|]. unfold near_top. fold T. apply Rabs_def2 in Ra, Rb.
    pose proof (DE a (mean q) ya y ltac:(pose proof (Q3 a A1); lra) ltac:(lra) Ya Y). pose proof (DE (mean q) b y yb ltac:(lra) ltac:(pose proof (Q3 b B1); lra) Y Yb). apply Rabs_def1; lra. }
  destruct Q4 as [Q4|(Q4 & Q5)].
  - split; [left; now apply TOP|intros _ _; now apply TOP].
  - split; [|intros H1 H2; exfalso; apply Q5; now split]. right. unfold near_left. fold C. pose proof (Q4 a A1) as Ra. pose proof (Q4 b B1) as Rb. apply Rabs_def2 in Ra, Rb. apply Rabs_def1; lra.
Qed.
Print Assumptions C104_label.

(** The angle is that of the line on the paper from the start of the text to the point of the isochron 0.3 decades to the right *)
Theorem C104_direction :
  forall p xr yr dims pt l x ly ly', data_diagram (presentation_name p) -> 0 < pt -> 1 <= snd xr - fst xr -> 1 <= snd yr - fst yr ->
    plot_layout p xr yr dims pt false = Ok l -> 0 < l_scale l ->
    let '(_, _, w, h) := l_axes l in
    let a := on_paper xr yr w h x ly in
    let b := on_paper xr yr w h (x + 3 / 10) ly' in
    fst a < fst b /\ (ly' - ly) / (3 / 10 * l_aspect l) = (snd b - snd a) / (fst b - fst a).
Proof.
  intros p xr yr dims pt l x ly ly' P PT X Y E SC. unfold plot_layout in E. destruct (match dims with [] => _ | _ => _ end) as [scale|]; [|discriminate]. cbn [bind] in E.
  injection E as <-. cbn [l_axes l_aspect l_scale] in *. cbv zeta. unfold on_paper. cbn [fst snd]. unfold decades, mag. rewrite !mag_abs. rewrite !Rabs_pos_eq by lra. rewrite !Rmax_left by lra.
  set (dx := snd xr - fst xr) in *. set (dy := snd yr - fst yr) in *. cbn [andb].
  assert (W : pt * (2 / 10) * ((dx * scale + 2 * (pt * (2 / 10))) / (pt * (2 / 10)) - 2) = dx * scale) by (field; lra). rewrite W.
  assert (FX : dx * scale * ((x + 3 / 10 - fst xr) / dx) - dx * scale * ((x - fst xr) / dx) = 3 / 10 * scale) by (field; lra).
  split; [assert (0 < 3 / 10 * scale) by (apply Rmult_lt_0_compat; lra); lra|]. rewrite FX. destruct p; cbn [is_time negb].
  all: try (exfalso; cbv in P; repeat (destruct P as [P|P]; [discriminate|]); exact P).
  all: field; repeat split; lra.
Qed.
Print Assumptions C104_direction.

Lemma met_N1 : / 1000 <= N1 met_cf 1 < 11 / 10000.
Proof. unfold N1, met_cf. cbn [ch_p0 ch_p1 ch_p3]. rewrite Rmult_1_l. pose proof exp_le_3. pose proof (exp_ineq1 1 ltac:(lra)). lra. Qed.
Lemma met_a0 : -3 <= log10 (N1 met_cf 1) < -2.
Proof.
  pose proof met_N1 as M. assert (P3 : pow10 (-3) = / 1000). { replace (-3) with (- (3)) by lra. unfold pow10. rewrite Ropp_mult_distr_l_reverse, exp_Ropp. fold (pow10 3). replace 3 with (1 + (1 + 1)) by lra. rewrite !pow10_plus, pow10_1. field. }
  assert (P2 : pow10 (-2) = / 100). { replace (-2) with (- (2)) by lra. unfold pow10. rewrite Ropp_mult_distr_l_reverse, exp_Ropp. fold (pow10 2). replace 2 with (1 + 1) by lra. rewrite !pow10_plus, pow10_1. field. }
  split.
  - rewrite <- (log10_pow10 (-3)), P3. destruct (Rle_lt_or_eq_dec _ _ (proj1 M)) as [H|H]; [left; apply log10_lt; lra|rewrite <- H; lra].
  - rewrite <- (log10_pow10 (-2)), P2. apply log10_lt; lra.
Qed.
Lemma met_value a d : a <> 0 -> evaluate met_pf "cumulative" d (Some a) = Ok (Some (pow10 (a - 3 * log10 d))).
Proof.
  intros NZ. rewrite evaluate_value by exact NZ. unfold pf_value, met_pf. cbn [String.eqb Ascii.eqb Bool.eqb]. do 2 f_equal. unfold poly_C, poly_C10. rewrite poly_peval. cbn [tl peval]. f_equal. ring.
Qed.
Lemma met_falling : falling met_pf "cumulative" (1 / 10) 100 (log10 (N1 met_cf 1)).
Proof.
  pose proof met_a0. intros d d' y y' D D' I I'. unfold isochron_of in *. rewrite met_value in I, I' by lra. assert (log10 d < log10 d') by (apply log10_lt; lra).
  assert (y = pow10 (log10 (N1 met_cf 1) - 3 * log10 d)) by congruence. assert (y' = pow10 (log10 (N1 met_cf 1) - 3 * log10 d')) by congruence. subst. split; [apply pow10_pos|apply pow10_lt; lra].
Qed.
Lemma log_tenth : log10 (1 / 10) = -1.
Proof. rewrite <- (log10_pow10 (-1)). f_equal. replace (-1) with (- (1)) by lra. unfold pow10. rewrite Ropp_mult_distr_l_reverse, exp_Ropp. fold (pow10 1). rewrite pow10_1. lra. Qed.
Lemma log_hundred : log10 100 = 2.
Proof. rewrite <- (log10_pow10 2). f_equal. replace 2 with (1 + 1) by lra. rewrite pow10_plus, pow10_1. lra. Qed.
(** The label of an isochron that does not enter the diagram is written outside the diagram *)
Theorem C104_outside_refuted :
  exists pf cf xr yr t curve lab, plot_isochron pf cf "cumulative" None xr yr 1 (t, false, false, false) = Ok (curve, Some lab) /\
    (forall x y, In (x, y) curve -> ~ (fst xr <= x <= snd xr /\ fst yr <= log10 y <= snd yr)) /\ lb_y lab < fst yr.
Proof.
  pose proof met_a0 as A0. exists met_pf, met_cf, (0, 2), (-1, 3), 1.
  assert (M : forall x y, density_at_age met_pf met_cf "cumulative" 1 (pow10 x) y -> log10 y = log10 (N1 met_cf 1) - 3 * x).
  { intros x y D. unfold density_at_age in D. rewrite met_value in D by lra. assert (y = pow10 (log10 (N1 met_cf 1) - 3 * log10 (pow10 x))) by congruence. subst y. now rewrite !log10_pow10. }
  destruct (C104_label met_pf met_cf "cumulative" (0, 2) (-1, 3) 1 1 false false false (1 / 10) 100) as (curve & lab & E & AC & _ & H).
  - constructor.
  - now left.
  - reflexivity.
  - lra.
  - rewrite log_tenth, log_hundred. lra.
  - unfold positive_coefficients; cbn; lra.
  - split; [|lra]. assert (/ 10 ^ 9 <= / 1); [|lra]. apply Rinv_le_contravar; lra.
  - pose proof met_N1. lra.
  - apply met_falling.
  - rewrite log_hundred. cbn. lra.
  - destruct (H eq_refl) as (x & ly & y & y' & num & n & f & u & -> & D & _ & _ & LY & _ & _ & _ & _ & PL & _). exists curve, (mkLabel x ly (atan ((log10 y' - ly) / (3 / 10 * 1)) * 180 / PI) (num ++ L " " ++ u) false false).
    split; [exact E|]. cbn [fst snd lb_y] in *. split.
    + intros px py I ((X & _) & (Y & _)). destruct AC as (LC & AC). apply In_nth_error in I as (j & J). assert (JJ : (j < 400)%nat) by (rewrite <- LC; apply nth_error_Some; congruence).
      destruct (AC j JJ) as (x' & z & Q1 & _ & Q3). rewrite J in Q1. injection Q1 as <- <-. rewrite (M _ _ Q3) in Y. lra.
    + rewrite LY, (M _ _ D). destruct PL as [(PX & NT)|NL].
      * lra.
      * unfold near_left in NL. cbn [fst] in NL. rewrite log_tenth, Rmax_left in NL by lra. apply Rabs_def2 in NL. lra.
Qed.
Print Assumptions C104_outside_refuted.
(** An isochron that lies wholly above the equilibrium function stops the plot *)
Theorem C104_above_equilibrium_refuted :
  exists pf cf ef t, (exists curve, getisochron pf "cumulative" (log10 (N1 cf t)) None = Ok curve /\ curve <> []) /\
    forall xr yr aspect hide above small, plot_isochron pf cf "cumulative" (Some ef) xr yr aspect (t, hide, above, small) = Err IndexError.
Proof.
  pose proof met_a0 as A0. exists met_pf, met_cf, (Poly [-20; -3] (1 / 100) 100), 1.
  destruct (plotted met_pf "cumulative" (log10 (N1 met_cf 1)) None (1 / 10) 100 ltac:(constructor) ltac:(now left) eq_refl ltac:(lra) ltac:(lra)) as (iso & I1 & I2).
  destruct (plotted (Poly [-20; -3] (1 / 100) 100) "cumulative" (-20) None (1 / 100) 100 ltac:(constructor) ltac:(now left) eq_refl ltac:(lra) ltac:(lra)) as (e & E1 & E2).
  assert (E1' : pf_getplotdata (Poly [-20; -3] (1 / 100) 100) "cumulative" None None = Ok e) by (rewrite <- E1; unfold pf_getplotdata; reflexivity).
  assert (W : forall lo hi x, lo <= hi -> x = lo \/ x = hi -> within lo hi x = x) by (intros lo hi x ? [-> | ->]; unfold within, Rmin, Rmax; repeat destruct (Rle_dec _ _); lra).
  rewrite !W in I2, E2 by (auto; lra).
  split. { exists iso. rewrite C24_isochron_without_equilibrium. split; [exact I1|]. destruct I2 as (LI & _). unfold logged in LI. rewrite map_length in LI. intros ->. discriminate. }
  destruct (C24_isochron_cut_at_equilibrium met_pf "cumulative" (log10 (N1 met_cf 1)) (-20) [-3] (1 / 100) 100 iso e ltac:(lra)) as (out & keep & O1 & O2 & O3 & O4).
  { now rewrite C24_isochron_without_equilibrium. } { exact E1'. }
  assert (ON : out = []).
  { destruct out as [|p out]; [reflexivity|]. exfalso. assert (PO : In p (p :: out)) by now left. assert (PI_ : In p iso) by (rewrite O2 in PO; apply filter_In in PO; tauto).
    assert (SP : forall lo hi l z, -2 <= log10 lo -> log10 lo <= log10 hi -> log10 hi <= 2 -> forall f, curve_points f lo hi 400 (logged l) -> In z l -> log10 lo <= log10 (fst z) <= log10 hi /\ f (pow10 (log10 (fst z))) (snd z)).
    { intros lo hi l z H1 H2 H3 f (LI & IC) Z. apply In_nth_error in Z as (j & J). assert (JJ : (j < 400)%nat) by (rewrite <- LI; unfold logged; rewrite map_length; apply nth_error_Some; congruence).
      destruct (IC j JJ) as (x & y & Q1 & Q2 & Q3). unfold logged in Q1. rewrite nth_error_map, J in Q1. cbn in Q1. injection Q1 as X1 X2. rewrite X1, X2. split; [|exact Q3]. rewrite Q2.
      replace (INR (400 - 1)) with 399 by (rewrite INR_IZR_INZ; reflexivity). assert (INR j <= 399) by (replace 399 with (INR 399) by (rewrite INR_IZR_INZ; reflexivity); apply le_INR; lia).
      pose proof (pos_INR j). split; [assert (0 <= INR j / 399 * (log10 hi - log10 lo)) by (apply Rmult_le_pos; lra); lra|]. assert (INR j / 399 * (log10 hi - log10 lo) <= 1 * (log10 hi - log10 lo)) by (apply Rmult_le_compat_r; lra). lra. }
    assert (LC : log10 (1 / 100) = -2). { rewrite <- (log10_pow10 (-2)). f_equal. replace (-2) with (- (2)) by lra. unfold pow10. rewrite Ropp_mult_distr_l_reverse, exp_Ropp. fold (pow10 2). replace 2 with (1 + 1) by lra. rewrite pow10_plus, pow10_1. field. }
    destruct (SP (1 / 10) 100 iso p ltac:(rewrite log_tenth; lra) ltac:(rewrite log_tenth, log_hundred; lra) ltac:(rewrite log_hundred; lra) _ I2 PI_) as (X & V). rewrite log_tenth, log_hundred in X.
    unfold isochron_of in V. rewrite met_value, !log10_pow10 in V by lra.
    assert (FP : 0 < fst p).
    { clear - I1 PI_. unfold pf_getplotdata in I1. cbn [bind pf_range met_pf fst snd] in I1. revert I1 PI_. generalize (linspace (log10 (clip (1 / 10) 100 (1 / 10))) (log10 (clip (1 / 10) 100 100)) 400). intros ds. revert iso.
      induction ds as [|x ds IH]; intros iso I1 PI_; [injection I1 as <-; contradiction|]. cbn [map mapM] in I1. destruct (evaluate _ _ (pow10 x) _) as [[y|]|]; cbn [bind] in I1; try discriminate.
      destruct (mapM _ (map pow10 ds)) as [r|] eqn:R; cbn [bind] in I1; [|discriminate]. injection I1 as <-. destruct PI_ as [<-|PI_]; [apply pow10_pos|]. now apply (IH r). }
    assert (FB : 1 / 100 < fst p). { rewrite <- (pow10_log10 (1 / 100)), <- (pow10_log10 (fst p)) by lra. apply pow10_lt. rewrite LC. lra. }
    destruct (O4 p PI_ FB) as (q & Q1 & Q2 & Q3 & Q4). apply Q4 in PO. pose proof (O3 q Q1) as VQ.
    destruct (SP (1 / 100) 100 e q ltac:(rewrite LC; lra) ltac:(rewrite LC, log_hundred; lra) ltac:(rewrite log_hundred; lra) _ E2 Q1) as (Xq & _). rewrite LC in Xq.
    assert (VQ' : snd q = pow10 (-20 - 3 * log10 (fst q))).
    { unfold evaluate, effective_a0 in VQ. change (pyindex [-20; -3] 0) with (Ok (-20)) in VQ. cbn [bind] in VQ. unfold pf_value in VQ. cbn [String.eqb Ascii.eqb Bool.eqb] in VQ.
      assert (snd q = poly_C [-20; -3] (fst q) (-20)) by congruence. rewrite H. unfold poly_C, poly_C10. rewrite poly_peval. cbn [tl peval]. f_equal. ring. }
    assert (VP : snd p = pow10 (log10 (N1 met_cf 1) - 3 * log10 (fst p))) by congruence.
    assert (pow10 (-20 - 3 * log10 (fst q)) < pow10 (log10 (N1 met_cf 1) - 3 * log10 (fst p))) by (apply pow10_lt; lra). pose proof (pow10_pos (-20 - 3 * log10 (fst q))). lra. }
  intros. unfold plot_isochron. change (cf_a0 met_cf 1) with (log10 (N1 met_cf 1)). rewrite O1, ON. reflexivity.
Qed.
Print Assumptions C104_above_equilibrium_refuted.
Example C104_hypotheses_met :
  built met_pf /\ data_diagram "cumulative" /\ pf_range met_pf = Ok (1 / 10, 100) /\ log10 100 - log10 (1 / 10) <= 70 /\ positive_coefficients met_cf /\ N1 met_cf 1 <> 1 /\
  falling met_pf "cumulative" (1 / 10) 100 (log10 (N1 met_cf 1)) /\ -3 + 15 / 100 <= log10 100 /\
  exists l, plot_layout Cumulative (-3, 2) (-6, 0) [15 / 2; 15 / 2] 9 false = Ok l /\ 0 < l_scale l.
Proof.
  split; [constructor|]. split; [now left|]. split; [reflexivity|]. split; [rewrite log_tenth, log_hundred; lra|]. split; [unfold positive_coefficients; cbn; lra|]. split; [pose proof met_N1; lra|].
  split; [apply met_falling|]. split; [rewrite log_hundred; lra|]. eexists. split; [reflexivity|]. cbn [l_scale]. unfold decades, mag. cbn [fst snd]. unfold Rmin, Rmax. repeat destruct (Rle_dec _ _); lra.
Qed.
