(** C124: from the files to the Poisson age beside the data. *)
From Coq Require Import String Ascii List ZArith Reals Lra Lia Bool Permutation Sorted.
From Verif Require Import Base NumModel NumLemmas StrModel StrSpec FmtModel FmtSpec FmtProofs FmtProps TsModel IoModel TsSpec IoSpec IoProofs IoProofs2 IoProps CliModel SccModel EpModel BinModel BinSpec BinProofs ApplyProofs ChronModel ChronSpec ChronProofs InterpProofs BinProps CountModel CountSpec CountProofs CountProps CountProofs2 CountProofs3.
From Verif Require Import ProdModel ProdSpec ProdProofs ProdProofs2 ProdProofs3 ProdProps PdfModel PdfSpec PdfProofs PdfProps AgeModel AgeSpec AgeProofs AgeProofs2 AgeProps LoadModel LoadSpec LoadProofs LoadProps SetModel OverModel OverProps EndModel EndSpec EndProofs EndProps MonoProofs MonoProps UsualProps PoisSpec PoisProofs.
Import ListNotations.
Local Open Scope R_scope.

(** the production function of the name n among the definitions is a polynomial with these coefficients after the first, for diameters from dlo to dhi *)
Definition polynomial_over (fs : files) (src : source) (n : str) (a : list R) (dlo dhi : R) : Prop :=
  exists l fields a0 y, given fs (L "production") src l /\ defines l (L "production") n fields /\ text_or_none fields (L "type") (L "polynomial") /\
    numbers_entry fields (L "coefficients") (a0 :: a) /\ range_of fields dlo dhi /\ yrange_of fields y.
(** the text shows the age with its errors; without them if the upper limit is the age itself *)
Definition shows (s : set_info) (t tl tu : R) (text : str) : Prop :=
  (t < tu -> age_text s t tl tu text) /\ (t = tu -> value_text s t text).
(** the number of craters from lo to hi that the polynomial gives on the area at the density n per km2 of craters of at least 1 km *)
Definition expected_number (a : list R) (area n lo hi : R) : R :=
  n * (pow10 (series 1 a (log10 lo)) - pow10 (series 1 a (log10 hi))) * area.
(** the counts the statements are about: at most 100000 craters, as many expected somewhere between 10^-10 and 10^5 times the density of 1 Ga *)
Definition ordinary_count (p0 p1 p3 e : R) (k : nat) : Prop :=
  (k <= 100 * 1000)%nat /\ e * pow10 (-10) <= Rmax 1 (INR k) /\ INR k <= e * pow10 5 /\ / 10 ^ 18 <= p0 * p1 + p3.

Lemma shown s t tl tu : (2 <= si_sigfigs s)%nat -> t <= tu -> exists text, age_string s (t, tl, tu) = Ok text /\ shows s t tl tu text.
Proof.
  intros SF L0. destruct (Rlt_le_dec t tu) as [B|B].
  - destruct (C27_errors t (tu - t) (t - tl) (si_sigfigs s) (si_mu s) SF ltac:(lra)) as (num & yy & m1 & y1 & m2 & y2 & f & u & Q1 & Q2 & Q3 & Q4 & Q5 & Q6 & Q7 & SA).
    eexists. split; [exact SA|]. split; [|intros E; lra]. intros _. exists num, yy, m1, y1, m2, y2, f, u. repeat (split; [assumption|]). reflexivity.
  - destruct (choose_unit_spec t) as (f & u & E & BU). destruct (sigfigs_spec (t / f) (si_sigfigs s) ltac:(lia)) as (num & yy & SS & NN & GG). eexists. split.
    + unfold age_string, str_age. cbn [FmtModel.unit FmtModel.simple FmtModel.sf FmtModel.no_error FmtModel.mu FmtModel.mathml]. rewrite E. cbn [bind fst snd]. rewrite SS. cbn [bind]. rewrite Rltb_false by lra. reflexivity.
    + split; [intros Q; lra|]. intros _. exists num, yy, f, u. repeat (split; [assumption|]). reflexivity.
Qed.

Section Core.
Context (erf : R -> R) (cfit : (R -> R -> R) -> list R -> list R -> list R -> R) (I1 : R -> R -> R -> R).
Context (functions : source) (cfn pfn : str) (p0 p1 p3 : R) (a : list R) (dlo dhi area ref : R) (per : option R) (b : string) (x y : R) (s : set_info).
Context (Z0 : erf 0 = 0) (ZM : forall u v, u < v -> erf u < erf v) (P0 : 0 < p0) (P1 : 0 < p1) (P3 : 0 <= p3) (Ha : 0 < area) (Hxy : x <= y) (Ib : In b ("none"%string :: real_binnings)) (SF : (2 <= si_sigfigs s)%nat).
Let n1 t := p0 * (exp (p1 * t) - 1) + p3 * t.
Let cf := mkChron p0 p1 p3.
Let lo := Rmin (Rmax x dlo) dhi.
Let hi := Rmin (Rmax y dlo) dhi.
Let e := expected_number a area (n1 1) lo hi.
Context (N1' : n1 1 <> 1) (Hd : pow10 (series 1 a (log10 hi)) < pow10 (series 1 a (log10 lo))).
Let PC : positive_coefficients cf. Proof. repeat split; assumption. Qed.
Let P11 : 0 < n1 1. Proof. change (0 < N1 cf 1). apply N1_pos; [exact PC|lra]. Qed.
Lemma a0_nz : cf_a0 cf 1 <> 0.
Proof. unfold cf_a0. change (N1 cf 1) with (n1 1). intros E. apply N1'. rewrite <- (pow10_log10 (n1 1) P11), E. apply pow10_0. Qed.
Definition dens (d c : R) : R := pow10 (series 0 (c :: a) (log10 d)).
Lemma dens_eq d : dens d (cf_a0 cf 1) = n1 1 * pow10 (series 1 a (log10 d)).
Proof. unfold dens, cf_a0. cbn [series pow]. rewrite Rmult_1_r, pow10_plus. change (N1 cf 1) with (n1 1). now rewrite pow10_log10 by exact P11. Qed.
Lemma range_good : range_ok cf dens area lo hi.
Proof. unfold range_ok. rewrite !dens_eq. split; [exact Ha|]. split; [apply Rmult_lt_0_compat; [exact P11|apply pow10_pos]|]. apply Rmult_lt_compat_l; assumption. Qed.
Lemma expected_e u : expected_craters cf dens area lo hi u = e * pow10 u.
Proof. unfold expected_craters, e, expected_number. rewrite !dens_eq. ring. Qed.
Lemma usual_e k : ordinary_count p0 p1 p3 e k -> usual cf dens area lo hi k pdf_samples.
Proof.
  intros (O1 & O2 & O3 & O4). apply C123_usual_counts; [exact PC|exact range_good|unfold pdf_samples; lia|exact O4|exact O1|rewrite expected_e; exact O2|rewrite expected_e; exact O3].
Qed.

Lemma core fs counts craters : chronology_given fs functions cfn p0 p1 p3 -> polynomial_over fs functions pfn a dlo dhi ->
  count_given fs counts craters area -> Forall (fun c => 0 < fst c) craters -> ordinary_count p0 p1 p3 e (number_between lo hi craters) ->
  exists p text, craterpdf cf dens area lo hi (number_between lo hi craters) pdf_samples = Ok p /\ distribution p pdf_samples /\ proportional cf pdf_samples p e (number_between lo hi craters) /\
    let t := pdf_t p (1 / 2) in let tl := pdf_t p ((1 - erf (1 / sqrt 2)) / 2) in let tu := pdf_t p ((1 + erf (1 / sqrt 2)) / 2) in
    0 < tl /\ tl <= t <= tu /\ tu <= 5 /\
    age_from_files erf cfit I1 fs functions cfn pfn counts ref per b (LNum (Fin x)) (LNum (Fin y)) false Poisson s = Ok text /\ shows s t tl tu text.
Proof.
  intros (lc & cfields & p2 & more & G1 & D1 & C1) (lp & pfields & a0 & yr & G2 & D2 & T2 & C2 & R2 & Y2) CG F OC.
  pose proof (chronology_read _ _ _ _ _ _ _ _ _ _ G1 D1 C1) as EC. pose proof (production_read fs functions lp pfn pfields false a0 a dlo dhi yr G2 D2 T2 C2 R2 Y2) as EP.
  destruct (count_read _ _ _ _ CG) as (ER & NE). set (cs := sort (fun p q => pair_leb q p) craters) in *.
  assert (PM : Permutation craters cs) by apply sort_perm. assert (NC : cs <> []) by (intros E; rewrite E in PM; apply Permutation_sym, Permutation_nil in PM; contradiction).
  pose proof (C08_without_snapping_only_ordered cs area b x y Ib NC (all_perm _ _ _ PM F)) as ED. rewrite Rmax_right in ED by exact Hxy.
  rewrite (number_between_perm lo hi _ _ PM) in *. set (k := number_between lo hi cs) in *.
  destruct range_good as (_ & RG). rewrite !dens_eq in RG.
  destruct (C79_poisson erf cfit I1 (Poly (a0 :: a) dlo dhi) cf ref (fresh cs area) per b x y (dlo, dhi) (dens lo (cf_a0 cf 1)) (dens hi (cf_a0 cf 1)) Z0 ZM (built_poly _ _ _) Logic.I PC a0_nz Ha eq_refl) as [(md & lw & up & q0 & ql & qu & p & nd & CA & L0 & L1 & L2 & _ & _ & _ & EPDF & D & M1 & M2 & M3 & _)|Bad].
  - apply poly_value. - apply poly_value. - rewrite !dens_eq. exact RG.
  - assert (EV : craterpdf cf (fun d a1 => match evaluate (Poly (a0 :: a) dlo dhi) "cumulative" d (Some a1) with Ok (Some y1) => y1 | _ => 0 end) area lo hi k pdf_samples = craterpdf cf dens area lo hi k pdf_samples).
    { unfold craterpdf. rewrite !evaluate_value, !poly_value by exact a0_nz. reflexivity. }
    change (AgeProps.within (dlo, dhi) x) with lo in *. change (AgeProps.within (dlo, dhi) y) with hi in *. cbn [cc_area cc_craters fresh] in *. fold k in CA, EPDF. rewrite EV in EPDF.
    destruct (shown s md lw up SF ltac:(lra)) as (text & ST & SH). exists p, text. split; [exact EPDF|]. split; [exact D|]. split.
    { assert (E0 : expected_at_1Ga cf dens area lo hi = e) by (unfold expected_at_1Ga; rewrite expected_e, pow10_0; ring). rewrite <- E0. apply proportional_standard; [exact PC|exact range_good|unfold pdf_samples; lia|now apply usual_e|exact EPDF]. }
    cbv zeta. rewrite <- M1, <- M2, <- M3. split; [exact L0|]. split; [exact L1|]. split; [exact L2|]. split; [|exact SH].
    unfold age_from_files. rewrite EC. cbn [bind]. rewrite EP. cbn [bind pf_fn]. rewrite ER. cbn [bind]. unfold age_of_count. cbn [ct].
    assert (KP : snd (decode_range (fresh cs area) (LNum (Fin x)) (LNum (Fin y)) b false) = after_calls (fresh cs area) [CDecode (LNum (Fin x)) (LNum (Fin y)) b false]) by reflexivity.
    pose proof (age_history erf cfit I1 (Poly (a0 :: a) dlo dhi) cf ref cs area [CDecode (LNum (Fin x)) (LNum (Fin y)) b false] per b (x, Fin y) Poisson ltac:(intros b' off [Q|[]]; discriminate Q)) as AH. rewrite <- KP in AH.
    destruct (decode_range (fresh cs area) (LNum (Fin x)) (LNum (Fin y)) b false) as (rr, kept). cbn [fst snd] in ED, AH. rewrite ED. cbn [bind]. unfold finite_lower. cbn [fst snd bind]. fold cf. rewrite AH, CA. cbn [bind m_t].
    assert (TA : forall p q r, three_ages [Num p; Num q; Num r] = Ok (p, q, r)) by reflexivity. rewrite TA. cbn [bind]. exact ST.
  - exfalso. assert (EV : exists p, craterpdf cf dens area lo hi k pdf_samples = Ok p).
    { destruct (proj1 (cases cf dens area lo hi k pdf_samples PC range_good ltac:(unfold pdf_samples; lia)) (usual_e k OC)) as (p & E & _). now exists p. }
    destruct EV as (p & E). assert (D : distribution p pdf_samples) by (apply (C12_pdf_is_a_distribution cf dens area lo hi k pdf_samples p PC range_good ltac:(unfold pdf_samples; lia) E)).
    unfold calculate_age in Bad. cbn [pf_range bind fst snd clip_ext] in Bad. change (clip dlo dhi x) with lo in Bad. change (clip dlo dhi y) with hi in Bad. cbn [cc_craters cc_area fresh] in Bad. rewrite count_range_between in Bad. fold k in Bad.
    assert (EV : craterpdf cf (fun d a1 => number (evaluate (Poly (a0 :: a) dlo dhi) "cumulative" d (Some a1))) area lo hi k pdf_samples = craterpdf cf dens area lo hi k pdf_samples).
    { unfold craterpdf. rewrite !evaluate_value, !poly_value by exact a0_nz. reflexivity. }
    rewrite EV, E in Bad. cbn [bind] in Bad. destruct (C13_median1sigma_order erf Z0 ZM p pdf_samples D ltac:(unfold pdf_samples; lia)) as (md & lw & up & EM & _). rewrite EM in Bad. cbn [map] in Bad.
    destruct (np_log10 (N1 cf md)) as [v| |]; cbn [bind] in Bad; try discriminate. destruct (density_ok (Poly (a0 :: a) dlo dhi) ref v (built_poly _ _ _) Logic.I) as (nd & EN & _). rewrite EN in Bad. discriminate Bad.
Qed.
End Core.

(** For every file of craters of positive diameter, every chronology with positive coefficients and polynomial that falls over the range: the text beside a Poisson age shows the median of the
    Poisson age of the craters in the range, cut to that of the polynomial, with the percentiles one standard deviation away as limits *)
Theorem C124_poisson_age :
  forall erf cfit I1 fs functions cfn pfn counts p0 p1 p3 a dlo dhi craters area ref per b x y s,
    erf 0 = 0 -> (forall u v, u < v -> erf u < erf v) ->
    chronology_given fs functions cfn p0 p1 p3 -> 0 < p0 -> 0 < p1 -> 0 <= p3 ->
    polynomial_over fs functions pfn a dlo dhi ->
    count_given fs counts craters area -> Forall (fun c => 0 < fst c) craters -> 0 < area ->
    In b ("none"%string :: real_binnings) -> x <= y -> (2 <= si_sigfigs s)%nat ->
    let n1 t := p0 * (exp (p1 * t) - 1) + p3 * t in
    let rate t := p1 * p0 * exp (p1 * t) + p3 in
    let lo := Rmin (Rmax x dlo) dhi in let hi := Rmin (Rmax y dlo) dhi in
    let k := number_between lo hi craters in let e := expected_number a area (n1 1) lo hi in
    n1 1 <> 1 -> pow10 (series 1 a (log10 hi)) < pow10 (series 1 a (log10 lo)) -> ordinary_count p0 p1 p3 e k ->
    exists T W t tl tu text,
      poisson_ages n1 rate e k 5000 T W /\
      percentile T W 5000 (1 / 2) t /\ percentile T W 5000 ((1 - erf (1 / sqrt 2)) / 2) tl /\ percentile T W 5000 ((1 + erf (1 / sqrt 2)) / 2) tu /\
      0 < tl /\ tl <= t <= tu /\ tu <= 5 /\
      age_from_files erf cfit I1 fs functions cfn pfn counts ref per b (LNum (Fin x)) (LNum (Fin y)) false Poisson s = Ok text /\ shows s t tl tu text.
Proof.
  intros erf cfit I1 fs functions cfn pfn counts p0 p1 p3 a dlo dhi craters area ref per b x y s Z0 ZM CH P0 P1 P3 PO CG F Ha Ib Hxy SF n1 rate lo hi k e N1' Hd OC.
  destruct (core erf cfit I1 functions cfn pfn p0 p1 p3 a dlo dhi area ref per b x y s Z0 ZM P0 P1 P3 Ha Hxy Ib SF N1' Hd fs counts craters CH PO CG F OC) as (p & text & EP & D & PR & R).
  assert (PC : positive_coefficients (mkChron p0 p1 p3)) by (repeat split; assumption). assert (H2 : (2 <= pdf_samples)%nat) by (unfold pdf_samples; lia).
  exists (fun i => nth i (pdf_ts p) 0), (weight p). cbv zeta in R. destruct R as (R1 & R2 & R3 & R4 & R5). eexists _, _, _, text.
  change 5000%nat with pdf_samples. split; [exact (ages_ok _ _ p _ _ PC H2 PR)|].
  assert (Pos : forall i, (i < pdf_samples)%nat -> 0 < nth i (pdf_pdf p) 0).
  { intros i Hi. destruct PR as (_ & _ & c & Pc & FF). rewrite (FF i Hi). apply Rmult_lt_0_compat; [exact Pc|]. apply Rmult_lt_0_compat; [|now apply phi_pos]. apply pmf_pos. apply Rmult_lt_0_compat; [|apply pow10_pos].
    unfold expected_number. apply Rmult_lt_0_compat; [|exact Ha]. apply Rmult_lt_0_compat; [|unfold lo, hi in Hd; lra]. apply (N1_pos (mkChron p0 p1 p3) PC 1). lra. }
  split; [exact (percentile_ok p _ D H2 Pos (1 / 2))|]. split; [exact (percentile_ok p _ D H2 Pos _)|]. split; [exact (percentile_ok p _ D H2 Pos _)|].
  split; [exact R1|]. split; [exact R2|]. split; [exact R3|]. split; [exact R4|exact R5].
Qed.
(** A file with further craters, in any order, and the same area: the ages it shows are not younger *)
Theorem C124_added_craters :
  forall erf cfit I1 fs fs' functions cfn pfn counts counts' p0 p1 p3 a dlo dhi craters craters' extra area ref per b x y s,
    erf 0 = 0 -> (forall u v, u < v -> erf u < erf v) ->
    chronology_given fs functions cfn p0 p1 p3 -> chronology_given fs' functions cfn p0 p1 p3 -> 0 < p0 -> 0 < p1 -> 0 <= p3 ->
    polynomial_over fs functions pfn a dlo dhi -> polynomial_over fs' functions pfn a dlo dhi ->
    count_given fs counts craters area -> count_given fs' counts' craters' area -> Permutation craters' (craters ++ extra) ->
    Forall (fun c => 0 < fst c) craters' -> 0 < area -> In b ("none"%string :: real_binnings) -> x <= y -> (2 <= si_sigfigs s)%nat ->
    let n1 t := p0 * (exp (p1 * t) - 1) + p3 * t in
    let lo := Rmin (Rmax x dlo) dhi in let hi := Rmin (Rmax y dlo) dhi in
    let e := expected_number a area (n1 1) lo hi in
    n1 1 <> 1 -> pow10 (series 1 a (log10 hi)) < pow10 (series 1 a (log10 lo)) ->
    ordinary_count p0 p1 p3 e (number_between lo hi craters) -> ordinary_count p0 p1 p3 e (number_between lo hi craters') ->
    exists t tl tu text t' tl' tu' text',
      age_from_files erf cfit I1 fs functions cfn pfn counts ref per b (LNum (Fin x)) (LNum (Fin y)) false Poisson s = Ok text /\ shows s t tl tu text /\
      age_from_files erf cfit I1 fs' functions cfn pfn counts' ref per b (LNum (Fin x)) (LNum (Fin y)) false Poisson s = Ok text' /\ shows s t' tl' tu' text' /\
      t <= t' /\ tl <= tl' /\ tu <= tu'.
Proof.
  intros erf cfit I1 fs fs' functions cfn pfn counts counts' p0 p1 p3 a dlo dhi craters craters' extra area ref per b x y s Z0 ZM CH CH' P0 P1 P3 PO PO' CG CG' PM F' Ha Ib Hxy SF n1 lo hi e N1' Hd OC OC'.
  assert (F : Forall (fun c => 0 < fst c) craters) by (apply (all_perm _ _ _ PM) in F'; apply Forall_app in F'; apply F').
  destruct (core erf cfit I1 functions cfn pfn p0 p1 p3 a dlo dhi area ref per b x y s Z0 ZM P0 P1 P3 Ha Hxy Ib SF N1' Hd fs counts craters CH PO CG F OC) as (p & text & EP & D & PR & R).
  destruct (core erf cfit I1 functions cfn pfn p0 p1 p3 a dlo dhi area ref per b x y s Z0 ZM P0 P1 P3 Ha Hxy Ib SF N1' Hd fs' counts' craters' CH' PO' CG' F' OC') as (q & text' & EQ & D' & PR' & R').
  assert (PC : positive_coefficients (mkChron p0 p1 p3)) by (repeat split; assumption). assert (H2 : (2 <= pdf_samples)%nat) by (unfold pdf_samples; lia).
  assert (K : (number_between lo hi craters <= number_between lo hi craters')%nat).
  { rewrite (number_between_perm lo hi _ _ PM). clear. induction craters as [|(d, f) cs IH]; cbn [app number_between]; [lia|]. lia. }
  assert (Pe : 0 < e). { unfold e, expected_number. apply Rmult_lt_0_compat; [|exact Ha]. apply Rmult_lt_0_compat; [|lra]. apply (N1_pos (mkChron p0 p1 p3) PC 1). lra. }
  pose proof (cdf_order _ _ PC H2 p q e e _ _ PR PR' ltac:(lra) K) as O. assert (T : pdf_ts p = pdf_ts q) by (destruct PR as (_ & -> & _); destruct PR' as (_ & -> & _); reflexivity).
  pose proof (percentile_order p q _ D D' H2 T O) as PO2. cbv zeta in R, R'. destruct R as (_ & _ & _ & R4 & R5). destruct R' as (_ & _ & _ & R4' & R5').
  eexists _, _, _, text, _, _, _, text'. split; [exact R4|]. split; [exact R5|]. split; [exact R4'|]. split; [exact R5'|]. split; [apply PO2|]. split; apply PO2.
Qed.

(** ** The hypotheses can be met *)
Lemma F3 : pow10 (series 1 [-4; 1] (log10 3)) <= 1 / 10.
Proof.
  assert (U : 1 / 3 <= log10 3 <= 1).
  { split; apply pow10_le_inv; rewrite pow10_log10 by lra; [|rewrite pow10_1; lra]. assert (Q : pow10 (1 / 3) ^ 3 = 10). { replace (pow10 (1 / 3) ^ 3) with (pow10 (1 / 3) * pow10 (1 / 3) * pow10 (1 / 3)) by ring. rewrite <- !pow10_plus. replace (1 / 3 + 1 / 3 + 1 / 3) with 1 by lra. apply pow10_1. }
    apply Rnot_lt_le. intros X. pose proof (pow10_pos (1 / 3)). assert (3 ^ 3 < pow10 (1 / 3) ^ 3); [|lra]. cbn [pow]. rewrite !Rmult_1_r. nra. }
  replace (1 / 10) with (pow10 (-1)). 2:{ apply (Rmult_eq_reg_r (pow10 1)); [|pose proof (pow10_pos 1); lra]. rewrite <- pow10_plus. replace (-1 + 1) with 0 by lra. rewrite pow10_0, pow10_1. lra. }
  apply pow10_le. cbn [series pow]. nra.
Qed.
Lemma F1 : pow10 (series 1 [-4; 1] (log10 1)) = 1.
Proof. replace (log10 1) with 0 by (rewrite <- pow10_0; symmetry; apply log10_pow10). cbn [series pow]. rewrite <- pow10_0. f_equal. ring. Qed.
Example C124_hypotheses_met :
  let fs := [(L "a.diam", diam_example)] in let functions := SText (document both [nl]) in let craters := [(15 / 10, 1); (2, 5 / 10)] in
  let n1 t := 2 * (exp (1 * t) - 1) + 3 * t in let lo := Rmin (Rmax 1 1) 300 in let hi := Rmin (Rmax 3 1) 300 in
  chronology_given fs functions (L "A") 2 1 3 /\ polynomial_over fs functions (L "P") [-4; 1] 1 300 /\ count_given fs (L "a.diam") craters (125 / 10) /\
  Forall (fun c => 0 < fst c) craters /\ In "x2"%string ("none"%string :: real_binnings) /\ n1 1 <> 1 /\
  pow10 (series 1 [-4; 1] (log10 hi)) < pow10 (series 1 [-4; 1] (log10 lo)) /\ number_between lo hi craters = 2%nat /\
  ordinary_count 2 1 3 (expected_number [-4; 1] (125 / 10) (n1 1) lo hi) (number_between lo hi craters).
Proof.
  destruct diam_count as (A & B & _). cbv zeta.
  assert (L0 : Rmin (Rmax 1 1) 300 = 1) by (rewrite Rmax_left by lra; apply Rmin_left; lra). assert (H0 : Rmin (Rmax 3 1) 300 = 3) by (rewrite Rmax_left by lra; apply Rmin_left; lra). rewrite L0, H0.
  assert (NB : number_between 1 3 [(15 / 10, 1); (2, 5 / 10)] = 2%nat). { cbn [number_between]. destruct (Rle_dec 1 (15 / 10)), (Rlt_dec (15 / 10) 3), (Rle_dec 1 2), (Rlt_dec 2 3); try lra. reflexivity. }
  rewrite NB. pose proof F3 as Q3. pose proof F1 as Q1. pose proof (exp_ineq1_le (1 * 1)) as E1. pose proof exp_le_3 as E3. rewrite Rmult_1_l in *.
  split; [exact B|]. split.
  { destruct C95_hypotheses_met as (_ & _ & _ & _ & B5 & B6 & B7 & B8 & B9 & _). exists both, production_p, (-3), None.
    assert (G : forall fs kind, given fs kind (SText (document both [nl])) both) by (intros fs kind; apply given_text; [unfold document; apply in_or_app; right; now left|exact both_ok]).
    split; [apply G|]. split; [exact B5|]. split; [exact B6|]. split; [exact B7|]. split; [exact B8|exact B9]. }
  split; [exact A|]. split; [repeat (apply Forall_cons; [cbn; lra|]); apply Forall_nil|]. split; [cbn; tauto|]. split; [lra|]. split; [lra|]. split; [reflexivity|].
  unfold ordinary_count, expected_number. rewrite Q1. set (f := pow10 (series 1 [-4; 1] (log10 3))) in *. assert (Pf : 0 < f) by apply pow10_pos. set (n := 2 * (exp 1 - 1) + 3 * 1) in *. assert (Hn : 5 <= n <= 7) by (unfold n; lra).
  assert (X : 45 <= n * (1 - f) * (125 / 10) <= 100). { assert (5 * (9 / 10) <= n * (1 - f)) by (apply Rmult_le_compat; lra). assert (n * (1 - f) <= 7 * 1) by (apply Rmult_le_compat; lra). lra. }
  set (e := n * (1 - f) * (125 / 10)) in *. split; [lia|]. split; [|split; [|lra]].
  - apply Rle_trans with 1; [|apply Rmax_l]. apply Rle_trans with (100 * (1 / 100)); [|lra]. apply Rmult_le_compat; try lra; [left; apply pow10_pos|]. apply Rle_trans with (pow10 (-2)); [apply pow10_le; lra|]. apply (Rmult_le_reg_r (pow10 2)); [apply pow10_pos|]. rewrite <- pow10_plus. replace (-2 + 2) with 0 by lra. rewrite pow10_0. replace (pow10 2) with 100; [lra|]. replace 2 with (1 + 1) by lra. rewrite pow10_plus, pow10_1. lra.
  - assert (1 <= pow10 5) by (rewrite <- pow10_0; apply pow10_le; lra). replace (INR 2) with 2 by (cbn; lra). nra.
Qed.

Print Assumptions C124_poisson_age.
Print Assumptions C124_added_craters.
