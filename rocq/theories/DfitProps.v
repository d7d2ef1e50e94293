(** C126: from the files to the age that is written beside a differential fit. *)
From Coq Require Import String Ascii List ZArith Reals Lra Lia Bool Permutation Sorted.
From Verif Require Import Base NumModel NumLemmas StrModel StrSpec FmtModel FmtSpec FmtProofs FmtProps TsModel IoModel TsSpec IoSpec IoProofs IoProofs2 IoProofs3 IoProps CliModel SccModel EpModel BinModel BinSpec BinProofs ApplyProofs ChronModel ChronSpec ChronProofs InterpProofs BinProps CountModel CountSpec CountProofs CountProps CountProofs2 CountProofs3.
From Verif Require Import ProdModel ProdSpec ProdProofs ProdProofs2 ProdProofs3 ProdProps PdfModel PdfSpec AgeModel AgeSpec AgeProofs AgeProps LoadModel LoadSpec LoadProofs LoadProps SetModel OverModel OverProps EndModel EndSpec EndProofs EndProps DfitSpec DfitProofs.
Import ListNotations.
Local Open Scope R_scope.

(** in bin z: the density of craters per km2 and km of diameter, the correction of the mean density to that in the middle, the relative error
    of a count of that many craters, and the weight of the bin in the fit *)
Definition bin_density (b : string) (craters : list (R * R)) (area : R) (z : Z) : R :=
  fraction_between (grid b 0 z) (grid b 0 (z + 1)) craters / (area * (grid b 0 (z + 1) - grid b 0 z)).
Definition bin_correction (b : string) (a : list R) (z : Z) : R :=
  mean_to_middle (grid b 0 (z + 1) / grid b 0 z) (bin_exponent (unit_isochron a) (grid b 0 z) (grid b 0 (z + 1))).
Definition bin_count_error (b : string) (craters : list (R * R)) (z : Z) : R :=
  / sqrt (INR (number_between (grid b 0 z) (grid b 0 (z + 1)) craters)).
Definition bin_weight (b : string) (craters : list (R * R)) (area : R) (z : Z) : R := bin_density b craters area z * bin_count_error b craters z.
(** z is the first of the bins in the range that have craters *)
Definition first_occupied (b : string) (lo hi : R) (craters : list (R * R)) (z : Z) : Prop :=
  occupied b lo hi craters z /\ forall z', occupied b lo hi craters z' -> (z <= z')%Z.

Lemma bins_fitted_perm b lo hi l m zs : Permutation l m -> bins_fitted b lo hi l zs -> bins_fitted b lo hi m zs.
Proof.
  intros P (S & M). split; [exact S|]. intros z. rewrite M. split; [now apply occupied_perm|apply occupied_perm; now apply Permutation_sym].
Qed.
Lemma first_perm b lo hi l m z : Permutation l m -> first_occupied b lo hi l z -> first_occupied b lo hi m z.
Proof.
  intros P (O & M). split; [now apply (occupied_perm b lo hi l)|]. intros z' Q. apply M. apply (occupied_perm b lo hi m); [now apply Permutation_sym|exact Q].
Qed.

(** the measurement, on a count as read *)
Lemma dfit_on_count cfit erf I1 a0 a plo phi cf ref craters area per b x y lo hi F z :
  solves_least_squares cfit -> positive_coefficients cf -> In b real_binnings ->
  craters <> [] -> Forall (fun c => 0 < fst c /\ 0 < snd c) craters -> 0 < area -> 0 < x -> x <= y ->
  (exists c z, In c craters /\ grid b 0 z <= fst c /\ y <= grid b 0 (z + 1) - 1 / 10000000) ->
  lower_boundary b x lo -> upper_boundary b y hi -> first_occupied b lo hi craters z ->
  (forall x, 0 < x -> derivable_pt_lim (unit_isochron a) x (- F x)) -> (forall z, occupied b lo hi craters z -> 0 < F (centre b z)) ->
  let sigma := 98 / 100 * bin_correction b a z * bin_count_error b craters z in sigma < 1 ->
  exists zs r ms, bins_fitted b lo hi craters zs /\
    fst (decode_range (fresh craters area) (LNum (Fin x)) (LNum (Fin y)) b true) = Ok (Fin (fst r), snd r) /\
    calculate_age erf cfit I1 (Poly (a0 :: a) plo phi) cf ref (snd (decode_range (fresh craters area) (LNum (Fin x)) (LNum (Fin y)) b true)) per b r DFit = Ok ms /\
    let n := pow10 (mean_over (bin_weight b craters area) (fun z => log10 (bin_density b craters area z / bin_correction b a z) - log10 (F (centre b z))) zs) in
    m_t ms = [Num (cf_t cf n); Num (cf_t cf (n * (1 - sigma))); Num (cf_t cf (n * (1 + sigma)))] /\
    age_of cf n (cf_t cf n) /\ age_of cf (n * (1 - sigma)) (cf_t cf (n * (1 - sigma))) /\ age_of cf (n * (1 + sigma)) (cf_t cf (n * (1 + sigma))) /\ 0 < sigma.
Proof.
  intros LS PC Ib NE FF Ha Hx Hxy YL LB UB (OZ & MZ) DF FP sigma HS.
  assert (F1 : Forall (fun c => 0 < fst c) craters) by (eapply Forall_impl; [|exact FF]; intros ? (Q & _); exact Q).
  assert (F2 : Forall (fun c => 0 < snd c) craters) by (eapply Forall_impl; [|exact FF]; intros ? (_ & Q); exact Q).
  destruct (range_used craters area b x y lo hi Ib NE FF Hx Hxy YL LB UB (ex_intro _ z OZ)) as (bd & ri & l & zs & HA & ED & Il & Iu & Hlt & NB & EB & BF).
  destruct zs as [|z1 zs]. { exfalso. destruct BF as (_ & M). apply (M z) in OZ. destruct OZ. }
  assert (ZZ : z1 = z).
  { destruct BF as (S & M). assert (O1 : occupied b lo hi craters z1) by (apply M; now left). specialize (MZ z1 O1). apply (M z) in OZ. destruct OZ as [E|I]; [exact E|]. inversion S as [|? ? _ G]; subst. rewrite Forall_forall in G. apply G in I. lia. }
  subst z1. set (edges := fun z => (grid b 0 z, grid b 0 (z + 1))) in EB.
  destruct (C79_differential_fit erf cfit I1 (Poly (a0 :: a) plo phi) cf ref craters area per b l hi bd (Some ri) LS (built_poly _ _ _) Logic.I PC Ib NE F1 F2 Ha HA Il Iu Hlt NB (edges z) (map edges zs) EB) as (best & lower & upper & t & tl & tu & nd & CA & _ & _ & A1 & A2 & A3 & Q1 & Q2 & B & _).
  { cbn [edges fst snd]. rewrite own_slope_exponent, bias_mean. exact HS. }
  cbn [edges fst snd] in Q1, Q2. rewrite own_slope_exponent, bias_mean in Q1, Q2.
  assert (SE : 98 / 100 * mean_to_middle (grid b 0 (z + 1) / grid b 0 z) (bin_exponent (unit_isochron a) (grid b 0 z) (grid b 0 (z + 1))) / sqrt (INR (number_between (grid b 0 z) (grid b 0 (z + 1)) craters)) = sigma) by reflexivity.
  rewrite SE in Q1, Q2. clear SE. rewrite EB, !map_map in B. cbn [edges fst snd] in B.
  assert (OC : forall w, In w (z :: zs) -> occupied b lo hi craters w) by (intros w; apply BF).
  assert (GP : forall w, 0 < grid b 0 w) by (intros w; now apply grid_pos).
  assert (BW : forall w, In w (z :: zs) -> 0 < bin_weight b craters area w /\ 0 < centre b w /\ 0 < F (centre b w) /\ 0 < bin_count_error b craters w).
  { intros w Iw. destruct (OC w Iw) as (P1 & P2 & e & Ie & P3). pose proof (GP w). pose proof (grid_step b 0 w Ib). pose proof (GP (w + 1)%Z).
    assert (N0 : 0 < bin_count_error b craters w). { unfold bin_count_error. apply Rinv_0_lt_compat, sqrt_lt_R0, (lt_INR 0). now apply (number_between_pos _ _ _ e). }
    assert (D0 : 0 < bin_density b craters area w). { unfold bin_density. apply Rdiv_lt_0_compat; [apply fraction_between_pos; eauto|apply Rmult_lt_0_compat; lra]. }
    split; [now apply Rmult_lt_0_compat|]. split; [unfold centre; apply sqrt_lt_R0; now apply Rmult_lt_0_compat|]. split; [apply FP; now apply OC|exact N0]. }
  assert (BE : best = mean_over (bin_weight b craters area) (fun z => log10 (bin_density b craters area z / bin_correction b a z) - log10 (F (centre b z))) (z :: zs)).
  { apply (best_fit_differential a0 a plo phi (bin_weight b craters area) (centre b) (fun z => bin_density b craters area z / bin_correction b a z) F (z :: zs) best); [discriminate|intros w Iw; destruct (BW w Iw) as (X1 & X2 & X3 & _); auto|exact DF|].
    assert (EQ : map (fun z => bin_density b craters area z / bin_correction b a z) (z :: zs) = map (fun x0 => fraction_between (grid b 0 x0) (grid b 0 (x0 + 1)) craters / (area * (grid b 0 (x0 + 1) - grid b 0 x0)) / bin_bias_correction (grid b 0 (x0 + 1) / grid b 0 x0) (own_slope (Poly (a0 :: a) plo phi) (grid b 0 x0) (grid b 0 (x0 + 1)))) (z :: zs)).
    { apply map_ext. intros w. rewrite own_slope_exponent, bias_mean. reflexivity. }
    rewrite EQ. exact B. }
  assert (SG : 0 < sigma).
  { unfold sigma. destruct (BW z (or_introl eq_refl)) as (_ & _ & _ & X). apply Rmult_lt_0_compat; [|exact X]. apply Rmult_lt_0_compat; [lra|].
    unfold bin_correction. rewrite <- bias_mean. pose proof (GP z). pose proof (grid_step b 0 z Ib). apply bias_positive. apply (Rmult_lt_reg_r (grid b 0 z)); [assumption|]. unfold Rdiv. rewrite Rmult_assoc, Rinv_l by lra. lra. }
  assert (KP : snd (decode_range (fresh craters area) (LNum (Fin x)) (LNum (Fin y)) b true) = after_calls (fresh craters area) [CDecode (LNum (Fin x)) (LNum (Fin y)) b true]) by reflexivity.
  exists (z :: zs), (l, Fin hi). eexists. split; [exact BF|]. split; [exact ED|]. split.
  { rewrite KP, age_history by (intros b' off [Q|[]]; discriminate Q). exact CA. }
  cbv zeta. cbn [m_t].
  assert (MT : [Num t; Num tl; Num tu] = map (value_t cf) [Num best; Num lower; Num upper]).
  { clear - CA. unfold calculate_age in CA. cbv zeta in CA. destruct (fst (getplotdata _ _ _ _ _ _ _)) as [p|]; [|discriminate]. cbn [bind] in CA. destruct (fit_values _ _ _ _) as [v|]; [|discriminate]. cbn [bind] in CA.
    match type of CA with bind ?m _ = _ => destruct m as [nd'|] end; [|discriminate]. cbn [bind] in CA. injection CA as M1 M2 _ _ _ _. rewrite <- M2. exact (eq_sym M1). }
  cbn [map value_t] in MT. unfold cf_t_a0 in MT. rewrite <- BE, <- Q1, <- Q2.
  assert (NI : forall p q, Num p = Num q -> p = q) by congruence.
  assert (T1 : t = cf_t cf (pow10 best)) by (apply NI; exact (f_equal (fun l => nth 0 l Nan) MT)).
  assert (T2 : tl = cf_t cf (pow10 lower)) by (apply NI; exact (f_equal (fun l => nth 1 l Nan) MT)).
  assert (T3 : tu = cf_t cf (pow10 upper)) by (apply NI; exact (f_equal (fun l => nth 2 l Nan) MT)).
  rewrite <- T1, <- T2, <- T3. auto.
Qed.

(** ** C126 *)
(** For every file with craters of positive diameter and fraction, every polynomial whose isochrons fall at the middles of the bins and every chronology with positive coefficients,
    every binning and every range with a crater in one of its bins, the first of which has enough craters for its lower limit to be positive: the text beside a differential fit shows
    the age at which the chronology has the density of the fitted isochron at 1 km, with the ages of densities smaller and larger by 0.98 times the relative error of the first bin.
    F is the density per km of diameter of the isochron with one crater of 1 km or larger per km2: minus the derivative of that isochron. *)
Theorem C126_differential_fit :
  forall erf cfit I1 fs functions cfn pfn counts p0 p1 p3 a F craters area ref per b x y lo hi z s,
    solves_least_squares cfit ->
    chronology_given fs functions cfn p0 p1 p3 -> 0 < p0 -> 0 < p1 -> 0 <= p3 ->
    polynomial_given fs functions pfn a ->
    (forall x, 0 < x -> derivable_pt_lim (unit_isochron a) x (- F x)) -> (forall z, occupied b lo hi craters z -> 0 < F (centre b z)) ->
    count_given fs counts craters area -> Forall (fun c => 0 < fst c /\ 0 < snd c) craters -> 0 < area ->
    In b real_binnings -> 0 < x -> x <= y -> lower_boundary b x lo -> upper_boundary b y hi ->
    (exists c z, In c craters /\ grid b 0 z <= fst c /\ y <= grid b 0 (z + 1) - 1 / 10000000) ->
    first_occupied b lo hi craters z -> (2 <= si_sigfigs s)%nat ->
    let n1 t := p0 * (exp (p1 * t) - 1) + p3 * t in
    let sigma := 98 / 100 * bin_correction b a z * bin_count_error b craters z in
    sigma < 1 ->
    exists zs t tl tu text,
      bins_fitted b lo hi craters zs /\
      let n := pow10 (mean_over (bin_weight b craters area) (fun z => log10 (bin_density b craters area z / bin_correction b a z) - log10 (F (centre b z))) zs) in
      age_on n1 n t /\ age_on n1 (n * (1 - sigma)) tl /\ age_on n1 (n * (1 + sigma)) tu /\ tl <= t <= tu /\
      age_from_files erf cfit I1 fs functions cfn pfn counts ref per b (LNum (Fin x)) (LNum (Fin y)) true DFit s = Ok text /\
      (n < n1 5 -> t < tu /\ age_text s t tl tu text) /\ (n1 5 <= n -> t = 5 /\ value_text s t text).
Proof.
  intros erf cfit I1 fs functions cfn pfn counts p0 p1 p3 a F craters area ref per b x y lo hi z s LS (lc & cfields & p2 & more & G1 & D1 & C1) P0 P1 P3 (lp & pfields & a0 & plo & phi & yr & G2 & D2 & T2 & C2 & R2 & Y2) DF FP CG FF Ha Ib Hx Hxy LB UB YL OC SF n1 sigma HS.
  pose proof (chronology_read _ _ _ _ _ _ _ _ _ _ G1 D1 C1) as EC. pose proof (production_read fs functions lp pfn pfields false a0 a plo phi yr G2 D2 T2 C2 R2 Y2) as EP.
  destruct (count_read _ _ _ _ CG) as (ER & NE). set (cs := sort (fun p q => pair_leb q p) craters) in *.
  assert (PM : Permutation craters cs) by apply sort_perm. assert (PM' := Permutation_sym PM). set (cf := mkChron p0 p1 p3) in *. assert (PC : positive_coefficients cf) by (repeat split; assumption).
  assert (NC : cs <> []) by (intros E; rewrite E in PM; apply Permutation_sym, Permutation_nil in PM; contradiction).
  assert (YL' : exists c z, In c cs /\ grid b 0 z <= fst c /\ y <= grid b 0 (z + 1) - 1 / 10000000) by (destruct YL as (c & w & I & Q); exists c, w; split; [exact (Permutation_in c PM I)|exact Q]).
  assert (CE : forall w, bin_count_error b cs w = bin_count_error b craters w) by (intros w; unfold bin_count_error; now rewrite (number_between_perm _ _ _ _ PM)).
  assert (DE : forall w, bin_density b cs area w = bin_density b craters area w) by (intros w; unfold bin_density; now rewrite (fraction_between_perm _ _ _ _ PM)).
  destruct (dfit_on_count cfit erf I1 a0 a plo phi cf ref cs area per b x y lo hi F z LS PC Ib NC (all_perm _ _ _ PM FF) Ha Hx Hxy YL' LB UB (first_perm _ _ _ _ _ _ PM OC) DF (fun w O => FP w (occupied_perm _ _ _ _ _ _ PM' O))) as (zs & r & ms & FA & ED & CA & MT & A1 & A2 & A3 & SG).
  { rewrite CE. exact HS. }
  rewrite CE in MT, A2, A3, SG. fold sigma in MT, A2, A3, SG.
  assert (WM : mean_over (bin_weight b cs area) (fun z => log10 (bin_density b cs area z / bin_correction b a z) - log10 (F (centre b z))) zs = mean_over (bin_weight b craters area) (fun z => log10 (bin_density b craters area z / bin_correction b a z) - log10 (F (centre b z))) zs).
  { unfold mean_over. assert (M1 : forall v v' : Z -> R, (forall w, v w = v' w) -> Rsum (map v zs) = Rsum (map v' zs)) by (intros v v' Q; f_equal; now apply map_ext).
    assert (RD : forall p q p' q' : R, p = p' -> q = q' -> p / q = p' / q') by congruence. apply RD; apply M1; intros w; unfold bin_weight; rewrite ?DE, ?CE; reflexivity. }
  rewrite WM in MT, A1, A2, A3. clear WM. set (m := mean_over (bin_weight b craters area) _ zs) in *. set (n := pow10 m) in *.
  pose proof (pow10_pos m) as PN. fold n in PN.
  set (t := cf_t cf n) in *. set (tl := cf_t cf (n * (1 - sigma))) in *. set (tu := cf_t cf (n * (1 + sigma))) in *.
  assert (AE : forall q w, age_of cf q w -> age_on n1 q w) by (intros q w H; exact H).
  assert (TL : tl <= t <= tu) by (split; apply cf_t_mono; try exact PC; nra).
  assert (AF : age_from_files erf cfit I1 fs functions cfn pfn counts ref per b (LNum (Fin x)) (LNum (Fin y)) true DFit s = age_string s (t, tl, tu)).
  { unfold age_from_files. rewrite EC. cbn [bind]. rewrite EP. cbn [bind pf_fn]. rewrite ER. cbn [bind]. unfold age_of_count. cbn [ct].
    destruct (decode_range (fresh cs area) (LNum (Fin x)) (LNum (Fin y)) b true) as (rr, kept). cbn [fst snd] in ED, CA. rewrite ED. cbn [bind]. unfold finite_lower. cbn [fst snd bind].
    destruct r as (r1, r2). cbn [fst snd] in *. rewrite CA. cbn [bind]. rewrite MT.
    assert (TA : forall p q r, three_ages [Num p; Num q; Num r] = Ok (p, q, r)) by reflexivity. now rewrite TA. }
  destruct (Rlt_le_dec n (n1 5)) as [B|B].
  - assert (TT : t < tu) by (apply cf_t_lt; [exact PC|nra|exact B]).
    destruct (C27_errors t (tu - t) (t - tl) (si_sigfigs s) (si_mu s) SF ltac:(lra)) as (num & yy & m1 & y1 & m2 & y2 & f & u & Q1 & Q2 & Q3 & Q4 & Q5 & Q6 & Q7 & SA).
    exists zs, t, tl, tu. eexists. split; [exact (bins_fitted_perm b lo hi cs craters zs PM' FA)|]. cbv zeta. fold m. fold n.
    split; [apply AE, A1|]. split; [apply AE, A2|]. split; [apply AE, A3|]. split; [exact TL|]. split; [rewrite AF; exact SA|]. split; [|intros Q; exfalso; lra].
    intros _. split; [exact TT|]. exists num, yy, m1, y1, m2, y2, f, u. repeat (split; [assumption|]). reflexivity.
  - assert (T5 : t = 5) by (apply cf_t_beyond; [exact PC|exact B]). assert (U5 : tu = 5) by (apply cf_t_beyond; [exact PC|change (n1 5 <= n * (1 + sigma)); nra]).
    destruct (choose_unit_spec t) as (f & u & E & BU). destruct (sigfigs_spec (t / f) (si_sigfigs s) ltac:(lia)) as (num & yy & SS & NN & GG).
    exists zs, t, tl, tu. eexists. split; [exact (bins_fitted_perm b lo hi cs craters zs PM' FA)|]. cbv zeta. fold m. fold n.
    split; [apply AE, A1|]. split; [apply AE, A2|]. split; [apply AE, A3|]. split; [exact TL|]. split.
    { rewrite AF. unfold age_string, str_age. cbn [FmtModel.unit FmtModel.simple FmtModel.sf FmtModel.no_error FmtModel.mu FmtModel.mathml]. rewrite E. cbn [bind fst snd]. rewrite SS. cbn [bind]. rewrite Rltb_false by lra. reflexivity. }
    split; [intros Q; exfalso; lra|]. intros _. split; [exact T5|]. exists num, yy, f, u. repeat (split; [assumption|]). reflexivity.
Qed.

(** ** The hypotheses can be met *)
(** a .diam file with four craters of 1.5 km and one of 2 km *)
Definition five_rows : list (list token * str) := [row (L "1.5") (L "1"); row (L "1.5") (L "1"); row (L "1.5") (L "1"); row (L "1.5") (L "1"); row (L "2") (L "0.5")].
Definition five_text : str :=
  L "# counts" ++ [nl] ++ L "area = 12.5" ++ [nl] ++ L "crater = {diameter,fraction" ++ [nl] ++ L "1.5 1" ++ [nl] ++ L "1.5 1" ++ [nl] ++ L "1.5 1" ++ [nl] ++ L "1.5 1" ++ [nl] ++ L "2 0.5" ++ [nl] ++ L "}".
Definition five_entries : list entry :=
  [Entry [] (L "area") false (L " ") (L " ") (Word (L "12.5")) [];
   Entry [] (L "crater") false (L " ") (L " ") (TsSpec.Table [Item [] None (L "diameter") []; Item [] None (L "fraction") []] five_rows []) []].
Definition five_craters : list (R * R) := [(15 / 10, 1); (15 / 10, 1); (15 / 10, 1); (15 / 10, 1); (2, 5 / 10)].
Lemma five_file : structure_file [(L "a.diam", five_text)] (L "a.diam") five_entries.
Proof.
  eexists _, []. split; [vm_compute; reflexivity|]. split; [vm_compute; reflexivity|]. split; [discriminate|]. split; [|split; [|now left]].
  - apply Forall_cons; [|apply Forall_cons; [|constructor]].
    + split; [apply plain_frame; [repeat constructor|discriminate]|]. cbn [value_of]. apply (word_number false _ (125/10)); [left; apply num_125|reflexivity].
    + split; [apply plain_frame; [repeat constructor|discriminate]|]. cbn [value_of flat_ok].
      split; [discriminate|]. split; [cbn [map item_word]; repeat constructor; cbn; intuition discriminate|].
      split; [apply Forall_cons; [apply plain_item; [repeat constructor|discriminate]|apply Forall_cons; [apply plain_item; [repeat constructor|discriminate]|constructor]]|].
      split; [reflexivity|]. split; [discriminate|]. split; [|constructor]. unfold five_rows.
      do 4 (apply Forall_cons; [eapply row_ok_numbers; left; [apply num_15|apply num_1]|]). apply Forall_cons; [eapply row_ok_numbers; left; [apply num_2|apply num_05]|constructor].
  - intros l1 e l2 E (x & y & z & V). exfalso. unfold five_entries in E. destruct l1 as [|? [|? [|? ?]]]; cbn in E; injection E; intros; subst; cbn in V; discriminate.
Qed.
Lemma five_count : count_given [(L "a.diam", five_text)] (L "a.diam") five_craters (125 / 10) /\
  chronology_given [(L "a.diam", five_text)] (SText (document both [nl])) (L "A") 2 1 3 /\ polynomial_given [(L "a.diam", five_text)] (SText (document both [nl])) (L "P") [-4; 1].
Proof.
  destruct C95_hypotheses_met as (_ & B2 & B3 & _ & B5 & B6 & B7 & B8 & B9 & _).
  assert (G : forall fs kind, given fs kind (SText (document both [nl])) both) by (intros fs kind; apply given_text; [unfold document; apply in_or_app; right; now left|exact both_ok]).
  split; [|split].
  - exists five_entries, [L "diameter"; L "fraction"], five_rows, [15 / 10; 15 / 10; 15 / 10; 15 / 10; 2], [1; 1; 1; 1; 5 / 10], (L "12.5"). split; [exact five_file|]. split.
    { eexists (nth 1 five_entries (Entry [] [] false [] [] (Word []) [])), _, _. split; [|split; [reflexivity|split; reflexivity]]. eexists [_], []. split; [reflexivity|]. repeat constructor; cbn; discriminate. }
    split; [discriminate|]. split; [exists 0%nat; split; [reflexivity|]; repeat constructor; apply numeral_decimal; first [apply num_15|apply num_2]|].
    split; [left; exists 1%nat; split; [reflexivity|]; repeat constructor; apply numeral_decimal; first [apply num_1|apply num_05]|].
    split; [intros [Q|[Q|[]]]; discriminate Q|]. split; [|split; [apply numeral_decimal, num_125|reflexivity]].
    eexists (nth 0 five_entries (Entry [] [] false [] [] (Word []) [])). split; [|split; [reflexivity|left; reflexivity]]. eexists [], _. split; [reflexivity|]. repeat constructor; cbn; discriminate.
  - exists both, chronology_a, 0, []. split; [apply G|]. split; [exact B2|exact B3].
  - exists both, production_p, (-3), 1, 300, None. split; [apply G|]. split; [exact B5|]. split; [exact B6|]. split; [exact B7|]. split; [exact B8|exact B9].
Qed.
(** the density per km of diameter of the isochron with coefficients -4 and 1 *)
Definition density_41 (x : R) : R := unit_isochron [-4; 1] x * (4 - 2 * log10 x) / x.
Lemma unit_41 x : unit_isochron [-4; 1] x = pow10 (-4 * log10 x + log10 x ^ 2).
Proof. unfold unit_isochron. f_equal. cbn [series]. ring. Qed.
Lemma density_41_slope x : 0 < x -> derivable_pt_lim (unit_isochron [-4; 1]) x (- density_41 x).
Proof.
  intros H. pose proof (poly_C_deriv [0; -4; 1] 0 x H) as D.
  assert (E : - poly_F [0; -4; 1] x 0 = - density_41 x).
  { assert (DP : derivable_pt_lim (fun u => -4 * u + u ^ 2) (log10 x) (-4 + 2 * log10 x)).
    { pose proof (derivable_pt_lim_plus _ _ _ _ _ (derivable_pt_lim_scal _ (-4) _ _ (derivable_pt_lim_id (log10 x))) (derivable_pt_lim_pow (log10 x) 2)) as Q.
      replace (-4 + 2 * log10 x) with (-4 * 1 + INR 2 * log10 x ^ Init.Nat.pred 2) by (cbn [INR Init.Nat.pred pow]; ring). exact Q. }
    pose proof (derivable_pt_lim_comp _ _ _ _ _ (log10_deriv x H) DP) as D1. pose proof (derivable_pt_lim_comp _ _ _ _ _ D1 (pow10_deriv _)) as D2. unfold comp in D2.
    assert (D3 : derivable_pt_lim (fun d => poly_C [0; -4; 1] d 0) x (ln 10 * pow10 (-4 * log10 x + log10 x ^ 2) * ((-4 + 2 * log10 x) * (1 / (x * ln 10))))).
    { intros e He. destruct (D2 e He) as (del & Hd). exists del. intros h Hh1 Hh2. rewrite !isochron_scaled, !unit_41, pow10_0, !Rmult_1_l. exact (Hd h Hh1 Hh2). }
    rewrite (uniqueness_limite _ _ _ _ D D3). unfold density_41. rewrite unit_41. assert (0 < ln 10) by (rewrite <- ln_1; apply ln_increasing; lra). field. split; lra. }
  rewrite <- E. intros e He. destruct (D e He) as (del & Hd). exists del. intros h Hh1 Hh2. specialize (Hd h Hh1 Hh2). rewrite !isochron_scaled, pow10_0, !Rmult_1_l in Hd. exact Hd.
Qed.
Example C126_hypotheses_met :
  let fs := [(L "a.diam", five_text)] in let functions := SText (document both [nl]) in
  chronology_given fs functions (L "A") 2 1 3 /\ polynomial_given fs functions (L "P") [-4; 1] /\ count_given fs (L "a.diam") five_craters (125 / 10) /\
  Forall (fun c => 0 < fst c /\ 0 < snd c) five_craters /\ In "x2"%string real_binnings /\ lower_boundary "x2" (11 / 10) 1 /\ upper_boundary "x2" 3 4 /\
  (exists c z, In c five_craters /\ grid "x2" 0 z <= fst c /\ 3 <= grid "x2" 0 (z + 1) - 1 / 10000000) /\
  first_occupied "x2" 1 4 five_craters 0 /\ bins_fitted "x2" 1 4 five_craters [0%Z; 1%Z] /\
  (forall x, 0 < x -> derivable_pt_lim (unit_isochron [-4; 1]) x (- density_41 x)) /\ (forall z, occupied "x2" 1 4 five_craters z -> 0 < density_41 (centre "x2" z)) /\
  98 / 100 * bin_correction "x2" [-4; 1] 0 * bin_count_error "x2" five_craters 0 < 1 /\
  forall cfit erf I1 ref per s, solves_least_squares cfit -> (2 <= si_sigfigs s)%nat ->
    exists text, age_from_files erf cfit I1 fs functions (L "A") (L "P") (L "a.diam") ref per "x2" (LNum (Fin (11 / 10))) (LNum (Fin 3)) true DFit s = Ok text.
Proof.
  destruct five_count as (A & B & C). cbv zeta. assert (G0 := grid_x2_pow 0). assert (G1 := grid_x2_pow 1). assert (G2 := grid_x2_pow 2). cbn [Z.of_nat Pos.of_succ_nat Pos.succ pow] in G0, G1, G2. rewrite ?Rmult_1_r in *.
  assert (I : In "x2"%string real_binnings) by (cbn; tauto). assert (F : Forall (fun c : R * R => 0 < fst c /\ 0 < snd c) five_craters) by (unfold five_craters; repeat (apply Forall_cons; [cbn; lra|]); apply Forall_nil).
  assert (LB : lower_boundary "x2" (11 / 10) 1) by (exists 0%Z; cbn [Z.add]; rewrite G0, G1; lra). assert (UB : upper_boundary "x2" 3 4) by (exists 2%Z; change (2 - 1)%Z with 1%Z; rewrite G1, G2; lra).
  assert (YL : exists c z, In c five_craters /\ grid "x2" 0 z <= fst c /\ 3 <= grid "x2" 0 (z + 1) - 1 / 10000000) by (exists (2, 5 / 10), 1%Z; change (1 + 1)%Z with 2%Z; rewrite G1, G2; cbn [fst]; split; [do 4 right; now left|lra]).
  assert (O0 : occupied "x2" 1 4 five_craters 0) by (unfold occupied; cbn [Z.add]; rewrite G0, G1; split; [lra|]; split; [lra|]; exists (15 / 10, 1); cbn [fst]; split; [now left|lra]).
  assert (O1 : occupied "x2" 1 4 five_craters 1) by (unfold occupied; change (1 + 1)%Z with 2%Z; rewrite G1, G2; split; [lra|]; split; [lra|]; exists (2, 5 / 10); cbn [fst]; split; [do 4 right; now left|lra]).
  assert (OZ : forall z, occupied "x2" 1 4 five_craters z -> z = 0%Z \/ z = 1%Z).
  { intros z (P1 & P2 & _). assert (0 <= z)%Z by (assert (0 < z + 1)%Z; [apply (grid_lt_inv "x2"); [exact I|]; pose proof (grid_step "x2" 0 z I); lra|lia]).
    assert (z < 2)%Z by (apply (grid_lt_inv "x2"); [exact I|]; pose proof (grid_step "x2" 0 z I); lra). lia. }
  assert (FO : first_occupied "x2" 1 4 five_craters 0) by (split; [exact O0|]; intros z Q; apply OZ in Q; lia).
  assert (BF : bins_fitted "x2" 1 4 five_craters [0%Z; 1%Z]).
  { split; [repeat constructor|]. intros z. split; [intros [<-|[<-|[]]]; assumption|]. intros Q. apply OZ in Q. cbn. intuition lia. }
  assert (L10 : 0 < log10 2 <= 1).
  { unfold log10. assert (0 < ln 2) by (rewrite <- ln_1; apply ln_increasing; lra). assert (ln 2 < ln 10) by (apply ln_increasing; lra). split; [apply Rdiv_lt_0_compat; lra|]. apply (Rmult_le_reg_r (ln 10)); [lra|]. unfold Rdiv. rewrite Rmult_assoc, Rinv_l by lra. lra. }
  assert (DF : forall z, occupied "x2" 1 4 five_craters z -> 0 < density_41 (centre "x2" z)).
  { intros z Q. assert (CP : 0 < centre "x2" z) by (unfold centre; apply sqrt_lt_R0, Rmult_lt_0_compat; now apply grid_pos).
    assert (CU : centre "x2" z < 4).
    { unfold centre. rewrite <- (sqrt_square 4) by lra. apply OZ in Q. destruct Q as [-> | ->]; [change (0 + 1)%Z with 1%Z; rewrite G0, G1|change (1 + 1)%Z with 2%Z; rewrite G1, G2]; apply sqrt_lt_1; lra. }
    unfold density_41. apply Rdiv_lt_0_compat; [|exact CP]. apply Rmult_lt_0_compat; [rewrite unit_41; apply pow10_pos|].
    assert (log10 (centre "x2" z) < 2); [|lra]. assert (0 < ln 10) by (rewrite <- ln_1; apply ln_increasing; lra). unfold log10. apply (Rmult_lt_reg_r (ln 10)); [lra|]. unfold Rdiv. rewrite Rmult_assoc, Rinv_l, Rmult_1_r by lra.
    replace (2 * ln 10) with (ln (10 * 10)) by (rewrite ln_mult by lra; ring). apply ln_increasing; lra. }
  assert (SG : 98 / 100 * bin_correction "x2" [-4; 1] 0 * bin_count_error "x2" five_craters 0 < 1).
  { assert (CE : bin_count_error "x2" five_craters 0 = 1 / 2).
    { unfold bin_count_error. change (0 + 1)%Z with 1%Z. rewrite G0, G1. unfold five_craters. cbn [number_between].
      assert (NB : forall d f l, 1 <= d < 2 -> number_between 1 2 ((d, f) :: l) = S (number_between 1 2 l)).
      { intros d f l Hd. cbn [number_between]. destruct (Rle_dec 1 d); [|lra]. destruct (Rlt_dec d 2); [|lra]. reflexivity. }
      change (/ sqrt (INR (number_between 1 2 five_craters)) = 1 / 2). unfold five_craters. rewrite !NB by lra.
      assert (N0 : number_between 1 2 [(2, 5 / 10)] = 0%nat) by (cbn [number_between]; destruct (Rle_dec 1 2); [|lra]; destruct (Rlt_dec 2 2); [lra|reflexivity]).
      rewrite N0. replace (INR 4) with (2 * 2) by (cbn [INR]; ring). rewrite sqrt_square by lra. lra. }
    rewrite CE. unfold bin_correction. change (0 + 1)%Z with 1%Z. rewrite G0, G1. replace (2 / 1) with 2 by field.
    assert (BE : bin_exponent (unit_isochron [-4; 1]) 1 2 = - (4 - log10 2)).
    { unfold bin_exponent. rewrite !unit_41. assert (log10 1 = 0) as -> by (unfold log10; rewrite ln_1; unfold Rdiv; apply Rmult_0_l). replace (-4 * 0 + 0 ^ 2) with 0 by ring. rewrite pow10_0. assert (D1 : forall q, q / 1 = q) by (intros q; field). rewrite !D1, log10_pow10. field. lra. }
    rewrite BE. set (K := 4 - log10 2). assert (HK : 3 <= K < 4) by (unfold K; lra). clearbody K.
    rewrite <- bias_mean, bias_even, bias_mean. unfold mean_to_middle. destruct (Rlt_dec (Rabs K) (1 / 100000)) as [Q|_]; [rewrite Rabs_pos_eq in Q; lra|].
    assert (P1 : Rpower 2 (K / 2) <= 4). { replace 4 with (Rpower 2 (INR 2)) by (rewrite Rpower_pow by lra; ring). apply Rle_Rpower; [lra|]. cbn [INR]. lra. }
    assert (P2 : 0 < Rpower 2 (- K / 2)) by apply exp_pos.
    assert (S2 : 7 / 5 <= sqrt 2). { rewrite <- (sqrt_square (7 / 5)) by lra. apply sqrt_le_1; lra. }
    assert (S3 : sqrt 2 - 1 / sqrt 2 = sqrt 2 / 2). { assert (sqrt 2 * sqrt 2 = 2) by (apply sqrt_sqrt; lra). apply (Rmult_eq_reg_r (sqrt 2)); [|lra]. field_simplify; [|lra]. nra. }
    rewrite S3. assert (DN : 21 / 10 <= K * (sqrt 2 / 2)) by nra. set (dn := K * (sqrt 2 / 2)) in *. clearbody dn.
    assert (BQ : (Rpower 2 (K / 2) - Rpower 2 (- K / 2)) / dn < 2). { apply (Rmult_lt_reg_r dn); [lra|]. unfold Rdiv at 1. rewrite Rmult_assoc, Rinv_l by lra. lra. }
    lra. }
  repeat (split; [assumption|]). split; [exact density_41_slope|]. split; [assumption|]. split; [assumption|].
  intros cfit erf I1 ref per s LS SF.
  destruct (C126_differential_fit erf cfit I1 _ _ _ _ _ 2 1 3 [-4; 1] density_41 five_craters _ ref per "x2" (11 / 10) 3 1 4 0 s LS B ltac:(lra) ltac:(lra) ltac:(lra) C density_41_slope DF A F ltac:(lra) I ltac:(lra) ltac:(lra) LB UB YL FO SF SG) as (zs & t & tl & tu & text & _ & _ & _ & _ & _ & E & _).
  exists text. exact E.
Qed.
Print Assumptions C126_differential_fit.
