(** C128: from the files to the age that is written beside a cumulative fit corrected for resurfacing. *)
From Coq Require Import String Ascii List ZArith Reals Lra Lia Bool Permutation Sorted.
From Verif Require Import Base NumModel NumLemmas StrModel StrSpec FmtModel FmtSpec FmtProofs FmtProps TsModel IoModel TsSpec IoSpec IoProofs IoProofs2 IoProofs3 IoProps CliModel SccModel EpModel BinModel BinSpec BinProofs ApplyProofs ChronModel ChronSpec ChronProofs InterpProofs BinProps CountModel CountSpec CountProofs CountProps CountProofs2 CountProofs3.
From Verif Require Import ProdModel ProdSpec ProdProofs ProdProofs2 ProdProofs3 ProdProps PdfModel PdfSpec AgeModel AgeSpec AgeProofs AgeProps LoadModel LoadSpec LoadProofs LoadProps SetModel OverModel OverProps EndModel EndSpec EndProofs EndProps DfitSpec DfitProofs.
Import ListNotations.
Local Open Scope R_scope.
From Verif Require Import DfitProps ResSpec ResProofs ResProps.

(** the polynomial of the name, with the coefficients a0 :: a *)
Definition polynomial_with (fs : files) (src : source) (n : str) (a0 : R) (a : list R) : Prop :=
  exists l fields lo hi y, given fs (L "production") src l /\ defines l (L "production") n fields /\ text_or_none fields (L "type") (L "polynomial") /\
    numbers_entry fields (L "coefficients") (a0 :: a) /\ range_of fields lo hi /\ yrange_of fields y.

(** the measurement, on a count as read *)
Lemma rfit_on_count cfit erf I1 a0 a plo phi cf ref craters area per b x y lo hi z :
  solves_least_squares cfit -> positive_coefficients cf -> In b real_binnings ->
  craters <> [] -> Forall (fun c => 0 < fst c /\ 0 < snd c) craters -> 0 < area -> 0 < x -> x <= y ->
  (exists c z, In c craters /\ grid b 0 z <= fst c /\ y <= grid b 0 (z + 1) - 1 / 10000000) ->
  lower_boundary b x lo -> upper_boundary b y hi -> first_occupied b lo hi craters z ->
  let sigma := 98 / 100 / sqrt (INR (number_from (grid b 0 z) craters)) in
  exists zs c r ms, bins_fitted b lo hi craters zs /\ let d := map (grid b 0) zs in correction a0 a (counted craters area) d c /\ (forall x, In x d -> 0 < counted craters area x + c) /\
    fst (decode_range (fresh craters area) (LNum (Fin x)) (LNum (Fin y)) b true) = Ok (Fin (fst r), snd r) /\
    calculate_age erf cfit I1 (Poly (a0 :: a) plo phi) cf ref (snd (decode_range (fresh craters area) (LNum (Fin x)) (LNum (Fin y)) b true)) per b r (CFit true) = Ok ms /\
    let n := pow10 (weighted_mean (fun x => counted craters area x + c) (fun x => log10 (counted craters area x + c) - series 1 a (log10 x)) d) in
    m_t ms = [Num (cf_t cf n); Num (cf_t cf (n * (1 - sigma))); Num (cf_t cf (n * (1 + sigma)))] /\
    age_of cf n (cf_t cf n) /\ age_of cf (n * (1 - sigma)) (cf_t cf (n * (1 - sigma))) /\ age_of cf (n * (1 + sigma)) (cf_t cf (n * (1 + sigma))) /\ 0 < sigma.
Proof.
  intros LS PC Ib NE FF Ha Hx Hxy YL LB UB (OZ & MZ) sigma.
  assert (F1 : Forall (fun c => 0 < fst c) craters) by (eapply Forall_impl; [|exact FF]; intros ? (Q & _); exact Q).
  assert (F2 : Forall (fun c => 0 < snd c) craters) by (eapply Forall_impl; [|exact FF]; intros ? (_ & Q); exact Q).
  destruct (range_used craters area b x y lo hi Ib NE FF Hx Hxy YL LB UB (ex_intro _ z OZ)) as (bd & ri & l & zs & HA & ED & Il & Iu & Hlt & NB & EB & BF).
  destruct zs as [|z1 zs]. { exfalso. destruct BF as (_ & M). apply (M z) in OZ. destruct OZ. }
  assert (ZZ : z1 = z).
  { destruct BF as (S & M). assert (O1 : occupied b lo hi craters z1) by (apply M; now left). specialize (MZ z1 O1). apply (M z) in OZ. destruct OZ as [E|I]; [exact E|]. inversion S as [|? ? _ G]; subst. rewrite Forall_forall in G. apply G in I. lia. }
  subst z1. set (edges := fun z => (grid b 0 z, grid b 0 (z + 1))) in EB.
  destruct (first_bin craters b bd (Some ri) l hi Ib NE F1 F2 HA Il Iu Hlt (edges z) (map edges zs) EB) as (NF & _). cbn [edges fst] in NF.
  destruct (C128_age erf cfit I1 a0 a plo phi cf ref craters area per b l hi bd (Some ri) LS PC Ib NE F1 F2 Ha HA Il Iu Hlt NB) as (c & best & lower & upper & t & tl & tu & nd & C & P & CA & BE & Q1 & Q2 & _ & A1 & A2 & A3).
  assert (DD : map fst (bins_used craters l hi (b_dmin bd) (b_dmax bd)) = map (grid b 0) (z :: zs)) by (rewrite EB, map_map; reflexivity).
  rewrite DD in C, P, BE. rewrite <- NF in Q1, Q2. fold sigma in Q1, Q2.
  assert (SG : 0 < sigma).
  { unfold sigma. apply Rdiv_lt_0_compat; [lra|]. apply sqrt_lt_R0, (lt_INR 0). destruct OZ as (_ & _ & e & Ie & P3). pose proof (number_between_pos (grid b 0 z) (grid b 0 (z + 1)) craters e Ie P3). pose proof (number_from_ge (grid b 0 z) (grid b 0 (z + 1)) craters). lia. }
  assert (KP : snd (decode_range (fresh craters area) (LNum (Fin x)) (LNum (Fin y)) b true) = after_calls (fresh craters area) [CDecode (LNum (Fin x)) (LNum (Fin y)) b true]) by reflexivity.
  exists (z :: zs), c, (l, Fin hi). eexists. split; [exact BF|]. cbv zeta. split; [exact C|]. split; [exact P|]. split; [exact ED|]. split.
  { rewrite KP, age_history by (intros b' off [Q|[]]; discriminate Q). exact CA. }
  cbn [m_t].
  assert (MT : [Num t; Num tl; Num tu] = map (value_t cf) [Num best; Num lower; Num upper]).
  { clear - CA. unfold calculate_age in CA. cbv zeta in CA. destruct (fst (getplotdata _ _ _ _ _ _ _)) as [p|]; [|discriminate]. cbn [bind] in CA. destruct (fit_values _ _ _ _) as [v|]; [|discriminate]. cbn [bind] in CA.
    match type of CA with bind ?m _ = _ => destruct m as [nd'|] end; [|discriminate]. cbn [bind] in CA. injection CA as M1 M2 _ _ _ _. rewrite <- M2. exact (eq_sym M1). }
  cbn [map value_t] in MT. unfold cf_t_a0 in MT. rewrite <- BE, <- Q1, <- Q2.
  assert (NI : forall p q, Num p = Num q -> p = q) by congruence.
  assert (T1 : t = cf_t cf (pow10 best)) by (apply NI; exact (f_equal (fun l => nth 0 l Nan) MT)).
  assert (T2 : tl = cf_t cf (pow10 lower)) by (apply NI; exact (f_equal (fun l => nth 1 l Nan) MT)).
  assert (T3 : tu = cf_t cf (pow10 upper)) by (apply NI; exact (f_equal (fun l => nth 2 l Nan) MT)).
  rewrite <- T1, <- T2, <- T3. auto.
Qed.

(** For every file with craters of positive diameter and fraction, every polynomial and every chronology with positive coefficients, every binning and every range with a crater in one of its bins:
    the text beside a cumulative fit with the correction for resurfacing shows the age at which the chronology has the density at 1 km of the isochron that best fits the corrected densities at
    the lower ends of the bins that have craters, with the ages of densities smaller and larger by 0.98/sqrt(n), where n is the number of craters from the first of these bins on. *)
Theorem C128_from_files :
  forall erf cfit I1 fs functions cfn pfn counts p0 p1 p3 a0 a craters area ref per b x y lo hi z s,
    solves_least_squares cfit ->
    chronology_given fs functions cfn p0 p1 p3 -> 0 < p0 -> 0 < p1 -> 0 <= p3 ->
    polynomial_with fs functions pfn a0 a ->
    count_given fs counts craters area -> Forall (fun c => 0 < fst c /\ 0 < snd c) craters -> 0 < area ->
    In b real_binnings -> 0 < x -> x <= y -> lower_boundary b x lo -> upper_boundary b y hi ->
    (exists c z, In c craters /\ grid b 0 z <= fst c /\ y <= grid b 0 (z + 1) - 1 / 10000000) ->
    first_occupied b lo hi craters z -> (2 <= si_sigfigs s)%nat ->
    let n1 t := p0 * (exp (p1 * t) - 1) + p3 * t in
    let sigma := 98 / 100 / sqrt (INR (number_from (grid b 0 z) craters)) in
    exists zs c t tl tu text,
      bins_fitted b lo hi craters zs /\ let d := map (grid b 0) zs in
      correction a0 a (counted craters area) d c /\
      let n := pow10 (weighted_mean (fun x => counted craters area x + c) (fun x => log10 (counted craters area x + c) - series 1 a (log10 x)) d) in
      age_on n1 n t /\ age_on n1 (n * (1 - sigma)) tl /\ age_on n1 (n * (1 + sigma)) tu /\ tl <= t <= tu /\
      age_from_files erf cfit I1 fs functions cfn pfn counts ref per b (LNum (Fin x)) (LNum (Fin y)) true (CFit true) s = Ok text /\
      (n < n1 5 -> t < tu /\ age_text s t tl tu text) /\ (n1 5 <= n -> t = 5 /\ value_text s t text).
Proof.
  intros erf cfit I1 fs functions cfn pfn counts p0 p1 p3 a0 a craters area ref per b x y lo hi z s LS (lc & cfields & p2 & more & G1 & D1 & C1) P0 P1 P3 (lp & pfields & plo & phi & yr & G2 & D2 & T2 & C2 & R2 & Y2) CG FF Ha Ib Hx Hxy LB UB YL OC SF n1 sigma.
  pose proof (chronology_read _ _ _ _ _ _ _ _ _ _ G1 D1 C1) as EC. pose proof (production_read fs functions lp pfn pfields false a0 a plo phi yr G2 D2 T2 C2 R2 Y2) as EP.
  destruct (count_read _ _ _ _ CG) as (ER & NE). set (cs := sort (fun p q => pair_leb q p) craters) in *.
  assert (PM : Permutation craters cs) by apply sort_perm. assert (PM' := Permutation_sym PM). set (cf := mkChron p0 p1 p3) in *. assert (PC : positive_coefficients cf) by (repeat split; assumption).
  assert (NC : cs <> []) by (intros E; rewrite E in PM; apply Permutation_sym, Permutation_nil in PM; contradiction).
  assert (YL' : exists c z, In c cs /\ grid b 0 z <= fst c /\ y <= grid b 0 (z + 1) - 1 / 10000000) by (destruct YL as (c & w & I & Q); exists c, w; split; [exact (Permutation_in c PM I)|exact Q]).
  assert (DE : counted cs area = counted craters area) by (apply FunctionalExtensionality.functional_extensionality; intros w; unfold counted; now rewrite (fraction_from_perm w _ _ PM)).
  destruct (rfit_on_count cfit erf I1 a0 a plo phi cf ref cs area per b x y lo hi z LS PC Ib NC (all_perm _ _ _ PM FF) Ha Hx Hxy YL' LB UB (first_perm _ _ _ _ _ _ PM OC)) as (zs & c & r & ms & FA & CO & _ & ED & CA & MT & A1 & A2 & A3 & SG).
  rewrite DE in CO, MT, A1, A2, A3. rewrite <- (number_from_perm _ _ _ PM) in MT, A2, A3, SG. fold sigma in MT, A2, A3, SG.
  set (m := weighted_mean (fun x => counted craters area x + c) _ (map (grid b 0) zs)) in *. set (n := pow10 m) in *.
  pose proof (pow10_pos m) as PN. fold n in PN.
  set (t := cf_t cf n) in *. set (tl := cf_t cf (n * (1 - sigma))) in *. set (tu := cf_t cf (n * (1 + sigma))) in *.
  assert (AE : forall q w, age_of cf q w -> age_on n1 q w) by (intros q w H; exact H).
  assert (TL : tl <= t <= tu) by (split; apply cf_t_mono; try exact PC; nra).
  assert (AF : age_from_files erf cfit I1 fs functions cfn pfn counts ref per b (LNum (Fin x)) (LNum (Fin y)) true (CFit true) s = age_string s (t, tl, tu)).
  { unfold age_from_files. rewrite EC. cbn [bind]. rewrite EP. cbn [bind pf_fn]. rewrite ER. cbn [bind]. unfold age_of_count. cbn [ct].
    destruct (decode_range (fresh cs area) (LNum (Fin x)) (LNum (Fin y)) b true) as (rr, kept). cbn [fst snd] in ED, CA. rewrite ED. cbn [bind]. unfold finite_lower. cbn [fst snd bind].
    destruct r as (r1, r2). cbn [fst snd] in *. rewrite CA. cbn [bind]. rewrite MT.
    assert (TA : forall p q r, three_ages [Num p; Num q; Num r] = Ok (p, q, r)) by reflexivity. now rewrite TA. }
  destruct (Rlt_le_dec n (n1 5)) as [B|B].
  - assert (TT : t < tu) by (apply cf_t_lt; [exact PC|nra|exact B]).
    destruct (C27_errors t (tu - t) (t - tl) (si_sigfigs s) (si_mu s) SF ltac:(lra)) as (num & yy & m1 & y1 & m2 & y2 & f & u & Q1 & Q2 & Q3 & Q4 & Q5 & Q6 & Q7 & SA).
    exists zs, c, t, tl, tu. eexists. split; [exact (bins_fitted_perm b lo hi cs craters zs PM' FA)|]. cbv zeta. split; [exact CO|]. fold m. fold n.
    split; [apply AE, A1|]. split; [apply AE, A2|]. split; [apply AE, A3|]. split; [exact TL|]. split; [rewrite AF; exact SA|]. split; [|intros Q; exfalso; lra].
    intros _. split; [exact TT|]. exists num, yy, m1, y1, m2, y2, f, u. repeat (split; [assumption|]). reflexivity.
  - assert (T5 : t = 5) by (apply cf_t_beyond; [exact PC|exact B]). assert (U5 : tu = 5) by (apply cf_t_beyond; [exact PC|change (n1 5 <= n * (1 + sigma)); nra]).
    destruct (choose_unit_spec t) as (f & u & E & BU). destruct (sigfigs_spec (t / f) (si_sigfigs s) ltac:(lia)) as (num & yy & SS & NN & GG).
    exists zs, c, t, tl, tu. eexists. split; [exact (bins_fitted_perm b lo hi cs craters zs PM' FA)|]. cbv zeta. split; [exact CO|]. fold m. fold n.
    split; [apply AE, A1|]. split; [apply AE, A2|]. split; [apply AE, A3|]. split; [exact TL|]. split.
    { rewrite AF. unfold age_string, str_age. cbn [FmtModel.unit FmtModel.simple FmtModel.sf FmtModel.no_error FmtModel.mu FmtModel.mathml]. rewrite E. cbn [bind fst snd]. rewrite SS. cbn [bind]. rewrite Rltb_false by lra. reflexivity. }
    split; [intros Q; exfalso; lra|]. intros _. split; [exact T5|]. exists num, yy, f, u. repeat (split; [assumption|]). reflexivity.
Qed.
Print Assumptions C128_from_files.

(** the hypotheses can be met: the file of five craters, and its polynomial *)
Example C128_files_hypotheses_met :
  let fs := [(L "a.diam", five_text)] in let functions := SText (document both [nl]) in
  (exists a0, polynomial_with fs functions (L "P") a0 [-4; 1]) /\
  forall cfit erf I1 ref per s, solves_least_squares cfit -> (2 <= si_sigfigs s)%nat ->
    exists text, age_from_files erf cfit I1 fs functions (L "A") (L "P") (L "a.diam") ref per "x2" (LNum (Fin (11 / 10))) (LNum (Fin 3)) true (CFit true) s = Ok text.
Proof.
  cbv zeta. destruct C126_hypotheses_met as (B & C & A & F & I & LB & UB & YL & FO & _).
  assert (W : exists a0, polynomial_with [(L "a.diam", five_text)] (SText (document both [nl])) (L "P") a0 [-4; 1]).
  { destruct C as (l & fields & a0 & lo & hi & y & C). exists a0, l, fields, lo, hi, y. exact C. }
  split; [exact W|]. destruct W as (a0 & W). intros cfit erf I1 ref per s LS SF.
  destruct (C128_from_files erf cfit I1 _ _ _ _ _ 2 1 3 a0 [-4; 1] five_craters _ ref per "x2" (11 / 10) 3 1 4 0 s LS B ltac:(lra) ltac:(lra) ltac:(lra) W A F ltac:(lra) I ltac:(lra) ltac:(lra) LB UB YL FO SF) as (zs & c & t & tl & tu & text & _ & _ & _ & _ & _ & _ & E & _).
  exists text. exact E.
Qed.
