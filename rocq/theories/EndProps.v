(** C118: from the files to the age that is written beside a fit. *)
From Coq Require Import String Ascii List ZArith Reals Lra Lia Bool Permutation Sorted.
From Verif Require Import Base NumModel NumLemmas StrModel StrSpec FmtModel FmtSpec FmtProofs FmtProps TsModel IoModel TsSpec IoSpec IoProofs IoProofs2 IoProps CliModel SccModel EpModel BinModel BinSpec BinProofs ApplyProofs ChronModel ChronSpec ChronProofs InterpProofs BinProps CountModel CountSpec CountProofs CountProps CountProofs2 CountProofs3.
From Verif Require Import ProdModel ProdSpec ProdProofs ProdProofs2 ProdProofs3 ProdProps PdfModel PdfSpec AgeModel AgeSpec AgeProofs AgeProps LoadModel LoadSpec LoadProofs LoadProps SetModel OverModel OverProps EndModel EndSpec EndProofs.
Import ListNotations.
Local Open Scope R_scope.

(** the chronology of the name n among the definitions has these coefficients (the third of the four is not used) *)
Definition chronology_given (fs : files) (src : source) (n : str) (p0 p1 p3 : R) : Prop :=
  exists l fields p2 more, given fs (L "chronology") src l /\ defines l (L "chronology") n fields /\ numbers_entry fields (L "coefficients") (p0 :: p1 :: p2 :: p3 :: more).
(** the production function of the name n among them is a polynomial, with these coefficients after the first *)
Definition polynomial_given (fs : files) (src : source) (n : str) (a : list R) : Prop :=
  exists l fields a0 lo hi y, given fs (L "production") src l /\ defines l (L "production") n fields /\ text_or_none fields (L "type") (L "polynomial") /\
    numbers_entry fields (L "coefficients") (a0 :: a) /\ range_of fields lo hi /\ yrange_of fields y.
(** the .diam file of the name lists these craters, with their fractions, in this order, and has the area *)
Definition count_given (fs : files) (name : str) (craters : list (R * R)) (area : R) : Prop :=
  exists l tags rows ds frs w, structure_file fs name l /\ table_entry l (L "crater") tags rows /\ rows <> [] /\ numbers_in tags rows (L "diameter") ds /\
    (numbers_in tags rows (L "fraction") frs \/ ~ In (L "fraction") tags /\ frs = map (fun _ => 1) ds) /\
    ~ In (L "reference_area") tags /\ text_entry l (L "area") w /\ decimal w area /\ craters = combine ds frs.
Lemma count_read fs name craters area : count_given fs name craters area ->
  read_diam fs name = Ok (mkCount (fresh (sort (fun p q => pair_leb q p) craters) area) None false) /\ craters <> [].
Proof.
  intros (l & tags & rows & ds & frs & w & SF & TE & NR & D & F & NA & TX & DA & ->). split; [eapply read_diam_normal; eassumption|].
  assert (LD := numbers_length _ _ _ _ D). assert (LF := fractions_length tags rows ds frs LD F).
  intros E. apply (f_equal (@length _)) in E. rewrite combine_length, LF, LD in E. destruct rows; [contradiction|]. rewrite ?Nat.min_id in E. cbn [length] in E. lia.
Qed.

(** The age depends on the craters and not on the order in which a file has them, for every kind of age *)
Theorem C118_order_of_craters :
  forall erf cfit I1 fs fs' functions cfn pfn name name' craters craters' area ref per b lo hi snap m s,
    count_given fs name craters area -> count_given fs' name' craters' area -> Permutation craters craters' ->
    (forall n, make_chronology fs functions n = make_chronology fs' functions n) -> (forall n e, make_production fs functions n e = make_production fs' functions n e) ->
    age_from_files erf cfit I1 fs functions cfn pfn name ref per b lo hi snap m s = age_from_files erf cfit I1 fs' functions cfn pfn name' ref per b lo hi snap m s.
Proof.
  intros erf cfit I1 fs fs' functions cfn pfn name name' craters craters' area ref per b lo hi snap m s C1 C2 P E1 E2. unfold age_from_files.
  rewrite E1, E2. destruct (count_read _ _ _ _ C1) as (R1 & _). destruct (count_read _ _ _ _ C2) as (R2 & _). rewrite R1, R2, (sorted_same craters craters' P). reflexivity.
Qed.

Lemma all_perm {A} (P : A -> Prop) l m : Permutation l m -> Forall P l -> Forall P m.
Proof. rewrite !Forall_forall. intros H F x I. apply F. apply (Permutation_in x (Permutation_sym H) I). Qed.
Lemma occupied_perm b lo hi l m z : Permutation l m -> occupied b lo hi l z -> occupied b lo hi m z.
Proof. intros P (A & B & c & I & C). split; [exact A|]. split; [exact B|]. exists c. split; [exact (Permutation_in c P I)|exact C]. Qed.
Lemma fitted_perm b lo hi l m d : Permutation l m -> fitted_at b lo hi l d -> fitted_at b lo hi m d.
Proof.
  intros P (S & M). split; [exact S|]. intros x. rewrite M. split; intros (z & E & O); exists z; (split; [exact E|]); [now apply (occupied_perm b lo hi l)|apply (occupied_perm b lo hi m); [now apply Permutation_sym|exact O]].
Qed.

(** the measurement, on a count as read *)
Lemma fit_on_count cfit erf I1 a0 a plo phi cf ref craters area per b x y lo hi snap :
  solves_least_squares cfit -> positive_coefficients cf -> In b real_binnings ->
  craters <> [] -> Forall (fun c => 0 < fst c /\ 0 < snd c) craters -> 0 < area -> 0 < x -> x <= y ->
  (exists c z, In c craters /\ grid b 0 z <= fst c /\ y <= grid b 0 (z + 1) - 1 / 10000000) ->
  lower_boundary b x lo -> upper_boundary b y hi -> (exists z, occupied b lo hi craters z) -> snap = true ->
  exists d r ms, fitted_at b lo hi craters d /\ d <> [] /\
    fst (decode_range (fresh craters area) (LNum (Fin x)) (LNum (Fin y)) b snap) = Ok (Fin (fst r), snd r) /\
    calculate_age erf cfit I1 (Poly (a0 :: a) plo phi) cf ref (snd (decode_range (fresh craters area) (LNum (Fin x)) (LNum (Fin y)) b snap)) per b r (CFit false) = Ok ms /\
    let density x := fraction_from x craters / area in
    let n := pow10 (weighted_mean density (fun x => log10 (density x) - series 1 a (log10 x)) d) in
    let sigma := 98 / 100 / sqrt (INR (number_from lo craters)) in
    m_t ms = [Num (cf_t cf n); Num (cf_t cf (n * (1 - sigma))); Num (cf_t cf (n * (1 + sigma)))] /\
    age_of cf n (cf_t cf n) /\ age_of cf (n * (1 - sigma)) (cf_t cf (n * (1 - sigma))) /\ age_of cf (n * (1 + sigma)) (cf_t cf (n * (1 + sigma))) /\ 0 < sigma.
Proof.
  intros LS PC Ib NE F Ha Hx Hxy (c & zc & Ic & Zc & Yc) LB UB (z & OZ) ->.
  assert (F1 : Forall (fun c => 0 < fst c) craters) by (eapply Forall_impl; [|exact F]; intros ? (Q & _); exact Q).
  assert (F2 : Forall (fun c => 0 < snd c) craters) by (eapply Forall_impl; [|exact F]; intros ? (_ & Q); exact Q).
  destruct (C03_binning_total_and_exact craters b 0 Ib NE F1) as (z0 & n & bd & ri & HA & _ & E1 & E2 & CV & _).
  destruct (C08_snapping_extends_to_nearest_boundaries craters area b x y Ib NE F1 Hx Hxy) as (bd' & ri' & l & u & HA' & ED & Il & Ol & Ml & _ & Up).
  assert (BD : bd' = bd) by congruence. subst bd'. clear HA' ri'.
  assert (LA : last (b_dmax bd) 0 = grid b 0 (z0 + 1 + Z.of_nat n)) by (rewrite E2; apply grid_points_last).
  assert (Zl : (zc < z0 + 1 + Z.of_nat n)%Z). { apply (grid_lt_inv b); [exact Ib|]. destruct (CV c Ic) as (_ & Q). replace (z0 + 1 + Z.of_nat n)%Z with (z0 + Z.of_nat (Datatypes.S n))%Z by lia. lra. }
  assert (Yl : y <= last (b_dmax bd) 0 - 1 / 10000000). { rewrite LA. pose proof (grid_mono' b (zc + 1) (z0 + 1 + Z.of_nat n) Ib ltac:(lia)). lra. }
  destruct (Up Yl) as (Iu & Yu & Mu). clear Up.
  destruct OZ as (O1 & O2 & c' & Ic' & Oc). destruct (CV c' Ic') as (V1 & V2).
  assert (Z1 : (z0 <= z)%Z). { assert (z0 < z + 1)%Z; [|lia]. apply (grid_lt_inv b); [exact Ib|lra]. }
  assert (Z2 : (z <= z0 + Z.of_nat n)%Z). { assert (z < z0 + Z.of_nat (Datatypes.S n))%Z; [|lia]. apply (grid_lt_inv b); [exact Ib|lra]. }
  destruct LB as (zl & El & B1 & B2). destruct UB as (zu & Eu & B3 & B4).
  (* the upper limit *)
  assert (Uz : u = hi).
  { rewrite E2 in Iu. apply in_grid_points in Iu. destruct Iu as (k & K & Ek).
    assert (K1 : (zu <= k)%Z). { assert (zu - 1 < k)%Z; [|lia]. apply (grid_lt_inv b); [exact Ib|lra]. }
    assert (K2 : (z + 1 <= zu)%Z). { destruct (Z_lt_le_dec zu (z + 1)) as [Q|Q]; [|exact Q]. exfalso. pose proof (grid_step b 0 zu Ib). pose proof (grid_mono' b (zu + 1) (z + 1) Ib ltac:(lia)). lra. }
    assert (Ih : In hi (b_dmax bd)). { rewrite E2. apply in_grid_points. exists zu. split; [lia|exact Eu]. }
    specialize (Mu hi Ih B4). pose proof (grid_mono' b zu k Ib K1). lra. }
  subst u.
  (* the lower limit *)
  assert (Ll : lo <= l /\ l <= grid b 0 z /\ (forall c, In c craters -> lo <= fst c -> l <= fst c)).
  { assert (Zlz : (zl <= z)%Z). { destruct (Z_lt_le_dec z zl) as [Q|Q]; [|exact Q]. exfalso. pose proof (grid_step b 0 z Ib). pose proof (grid_mono' b (z + 1) zl Ib ltac:(lia)). lra. }
    destruct (Z_lt_le_dec zl z0) as [Q|Q].
    - assert (Hd : hd 0 (b_dmin bd) = grid b 0 z0) by (rewrite E1; unfold grid_points; cbn [seq map hd]; f_equal; lia).
      assert (E : l = grid b 0 z0). { destruct Ol as [Ol|Ol]; [|congruence]. exfalso. rewrite E1 in Il. apply in_grid_points in Il. destruct Il as (k & K & Ek). pose proof (grid_mono' b (zl + 1) k Ib ltac:(lia)). lra. }
      subst l. pose proof (grid_mono' b zl z0 Ib ltac:(lia)). pose proof (grid_mono' b z0 z Ib Z1). split; [lra|]. split; [lra|]. intros e Ie _. now apply CV.
    - assert (I0 : In lo (b_dmin bd)) by (rewrite E1; apply in_grid_points; exists zl; split; [lia|exact El]).
      specialize (Ml lo I0 B1). rewrite E1 in Il. apply in_grid_points in Il. destruct Il as (k & K & Ek).
      assert (l = lo).
      { destruct Ol as [Ol|Ol].
        - assert (k < zl + 1)%Z by (apply (grid_lt_inv b); [exact Ib|lra]). pose proof (grid_mono' b k zl Ib ltac:(lia)). lra.
        - rewrite E1 in Ol. unfold grid_points in Ol. cbn [seq map hd] in Ol. rewrite Z.add_0_r in Ol. pose proof (grid_mono' b z0 zl Ib Q). lra. }
      split; [lra|]. split; [lra|]. intros e Ie He. lra. }
  destruct Ll as (L1 & L2 & L3).
  assert (Hlt : l < hi) by (pose proof (grid_step b 0 z Ib); lra).
  assert (NB : (0 < number_between l hi craters)%nat) by (apply (number_between_pos l hi craters c' Ic'); lra).
  destruct (C79_cumulative_fit erf cfit I1 (Poly (a0 :: a) plo phi) cf ref craters area per b l hi bd (Some ri) LS (built_poly _ _ _) Logic.I PC Ib NE F1 F2 Ha HA Il Iu Hlt NB) as (best & lower & upper & t & tl & tu & nd & CA & _ & _ & A1 & A2 & A3 & Q1 & Q2 & BF & _).
  set (d := map fst (bins_used craters l hi (b_dmin bd) (b_dmax bd))) in *.
  assert (FA : fitted_at b lo hi craters d).
  { assert (FL : fitted_at b l hi craters d) by (unfold d; rewrite E1, E2; apply used_fitted; assumption). destruct FL as (S & M). split; [exact S|]. intros w. rewrite M.
    split; intros (k & E & P1 & P2 & e & Ie & P3); exists k; (split; [exact E|]); split; [lra| |  |]; try (split; [exact P2|]; exists e; auto).
    destruct (Rle_dec l (grid b 0 k)) as [Q|Q]; [exact Q|]. exfalso.
    rewrite E1 in Il. apply in_grid_points in Il. destruct Il as (j & J & Ej). assert (k < j)%Z by (apply (grid_lt_inv b); [exact Ib|lra]).
    specialize (L3 e Ie ltac:(lra)). pose proof (grid_mono' b (k + 1) j Ib ltac:(lia)). lra. }
  assert (DN : d <> []). { intros E. destruct FA as (_ & M). rewrite E in M. apply (M (grid b 0 z)). exists z. split; [reflexivity|]. split; [lra|]. split; [exact O2|]. eauto. }
  assert (NF : number_from l craters = number_from lo craters).
  { clear - L1 L3. induction craters as [|(q, f) cs IH]; [reflexivity|]. cbn [number_from]. rewrite IH by (intros e Ie; apply L3; now right).
    specialize (L3 (q, f) (or_introl eq_refl)). cbn [fst] in L3. destruct (Rle_dec l q), (Rle_dec lo q); try reflexivity; exfalso; [lra|]. apply n. now apply L3. }
  rewrite NF in *.
  assert (DP : forall w, In w d -> 0 < fraction_from w craters / area).
  { intros w Iw. apply FA in Iw. destruct Iw as (k & -> & _ & _ & e & Ie & P3). apply Rdiv_lt_0_compat; [|exact Ha].
    assert (G : 0 < fraction_between (grid b 0 k) (grid b 0 (k + 1)) craters) by (apply fraction_between_pos; eauto).
    assert (G2 : fraction_between (grid b 0 k) (grid b 0 (k + 1)) craters <= fraction_from (grid b 0 k) craters).
    { clear - F2. induction F2 as [|(q, f) cs H F2 IH]; cbn [fraction_between fraction_from]; [lra|]. cbn in H. destruct (Rle_dec _ q); [destruct (Rlt_dec q _)|]; lra. }
    lra. }
  assert (BE : best = weighted_mean (fun w => fraction_from w craters / area) (fun w => log10 (fraction_from w craters / area) - series 1 a (log10 w)) d) by exact (best_fit_poly a0 a plo phi _ d best DN DP BF).
  assert (SG : 0 < 98 / 100 / sqrt (INR (number_from lo craters))).
  { apply Rdiv_lt_0_compat; [lra|]. apply sqrt_lt_R0. apply (lt_INR 0). clear - Ic' Oc O1. induction craters as [|(q, f) cs IH]; [destruct Ic'|]. cbn [number_from].
    destruct Ic' as [<-|I]; [cbn in Oc; destruct (Rle_dec lo q); [lia|lra]|]. specialize (IH I). lia. }
  assert (KP : snd (decode_range (fresh craters area) (LNum (Fin x)) (LNum (Fin y)) b true) = after_calls (fresh craters area) [CDecode (LNum (Fin x)) (LNum (Fin y)) b true]) by reflexivity.
  exists d, (l, Fin hi). eexists. split; [exact FA|]. split; [exact DN|]. split; [exact ED|]. split.
  { rewrite KP, age_history by (intros b' off [Q|[]]; discriminate Q). exact CA. }
  cbv zeta. cbn [m_t].
  assert (MT : [Num t; Num tl; Num tu] = map (value_t cf) [Num best; Num lower; Num upper]).
  { clear - CA. unfold calculate_age in CA. cbv zeta in CA. destruct (fst (getplotdata _ _ _ _ _ _ _)) as [p|]; [|discriminate]. cbn [bind] in CA. destruct (fit_values _ _ _ _) as [v|]; [|discriminate]. cbn [bind] in CA.
    match type of CA with bind ?m _ = _ => destruct m as [nd'|] end; [|discriminate]. cbn [bind] in CA. injection CA as M1 M2 _ _ _ _. rewrite <- M2. exact (eq_sym M1). }
  cbn [map value_t] in MT. unfold cf_t_a0 in MT. rewrite <- BE, <- Q1, <- Q2.
  assert (NI : forall p q, Num p = Num q -> p = q) by congruence.
  assert (T1 : t = cf_t cf (pow10 best)) by (apply NI; exact (f_equal (fun l => nth 0 l Nan) MT)).
  assert (T2 : tl = cf_t cf (pow10 lower)) by (apply NI; exact (f_equal (fun l => nth 1 l Nan) MT)).
  assert (T3 : tu = cf_t cf (pow10 upper)) by (apply NI; exact (f_equal (fun l => nth 2 l Nan) MT)).
  rewrite <- T1, <- T2, <- T3. auto.
Qed.
(** what is written: a value with errors, or without them if the age is the oldest the program knows *)
Definition value_text (s : set_info) (t : R) (st : str) : Prop :=
  exists num y f u, best_unit t f u /\ numeral num y /\ significant (si_sigfigs s) (t / f) y /\ st = L "$" ++ (if si_mu s then mu_sign else []) ++ num ++ L "$ " ++ u.
(** For every file with craters of positive diameter and fraction, every polynomial and every chronology with positive coefficients, every binning and every range with a crater in one of its bins:
    the text beside a cumulative fit shows the age at which the chronology has the density of the fitted isochron at 1 km, with the ages of densities smaller and larger by 0.98/sqrt(n), where n is the number of
    craters from the lower limit on.  The range is the one asked for, widened to boundaries of bins; the isochron is that of the mean distance, weighted by the densities, of the logarithms of the cumulative
    densities from the polynomial at the lower ends of the bins that have craters. *)
Theorem C118_cumulative_fit :
  forall erf cfit I1 fs functions cfn pfn counts p0 p1 p3 a craters area ref per b x y lo hi s,
    solves_least_squares cfit ->
    chronology_given fs functions cfn p0 p1 p3 -> 0 < p0 -> 0 < p1 -> 0 <= p3 ->
    polynomial_given fs functions pfn a ->
    count_given fs counts craters area -> Forall (fun c => 0 < fst c /\ 0 < snd c) craters -> 0 < area ->
    In b real_binnings -> 0 < x -> x <= y -> lower_boundary b x lo -> upper_boundary b y hi ->
    (exists c z, In c craters /\ grid b 0 z <= fst c /\ y <= grid b 0 (z + 1) - 1 / 10000000) ->
    (exists z, occupied b lo hi craters z) -> (2 <= si_sigfigs s)%nat ->
    let n1 t := p0 * (exp (p1 * t) - 1) + p3 * t in
    let density x := fraction_from x craters / area in
    let sigma := 98 / 100 / sqrt (INR (number_from lo craters)) in
    exists d t tl tu text,
      fitted_at b lo hi craters d /\
      let n := pow10 (weighted_mean density (fun x => log10 (density x) - series 1 a (log10 x)) d) in
      age_on n1 n t /\ age_on n1 (n * (1 - sigma)) tl /\ age_on n1 (n * (1 + sigma)) tu /\ tl <= t <= tu /\
      age_from_files erf cfit I1 fs functions cfn pfn counts ref per b (LNum (Fin x)) (LNum (Fin y)) true (CFit false) s = Ok text /\
      (n < n1 5 -> t < tu /\ age_text s t tl tu text) /\ (n1 5 <= n -> t = 5 /\ value_text s t text).
Proof.
  intros erf cfit I1 fs functions cfn pfn counts p0 p1 p3 a craters area ref per b x y lo hi s LS (lc & cfields & p2 & more & G1 & D1 & C1) P0 P1 P3 (lp & pfields & a0 & plo & phi & yr & G2 & D2 & T2 & C2 & R2 & Y2) CG F Ha Ib Hx Hxy LB UB YL OC SF n1 density sigma.
  pose proof (chronology_read _ _ _ _ _ _ _ _ _ _ G1 D1 C1) as EC. pose proof (production_read fs functions lp pfn pfields false a0 a plo phi yr G2 D2 T2 C2 R2 Y2) as EP.
  destruct (count_read _ _ _ _ CG) as (ER & NE). set (cs := sort (fun p q => pair_leb q p) craters) in *.
  assert (PM : Permutation craters cs) by apply sort_perm. set (cf := mkChron p0 p1 p3) in *. assert (PC : positive_coefficients cf) by (repeat split; assumption).
  assert (NC : cs <> []) by (intros E; rewrite E in PM; apply Permutation_sym, Permutation_nil in PM; contradiction).
  assert (YL' : exists c z, In c cs /\ grid b 0 z <= fst c /\ y <= grid b 0 (z + 1) - 1 / 10000000) by (destruct YL as (c & z & I & Q); exists c, z; split; [exact (Permutation_in c PM I)|exact Q]).
  assert (OC' : exists z, occupied b lo hi cs z) by (destruct OC as (z & O); exists z; exact (occupied_perm b lo hi craters cs z PM O)).
  destruct (fit_on_count cfit erf I1 a0 a plo phi cf ref cs area per b x y lo hi true LS PC Ib NC (all_perm _ _ _ PM F) Ha Hx Hxy YL' LB UB OC' eq_refl) as (d & r & ms & FA & _ & ED & CA & MT & A1 & A2 & A3 & SG).
  rewrite <- (number_from_perm lo _ _ PM) in MT, A2, A3, SG. fold sigma in MT, A2, A3, SG.
  assert (WM : weighted_mean (fun x => fraction_from x cs / area) (fun x => log10 (fraction_from x cs / area) - series 1 a (log10 x)) d = weighted_mean density (fun x => log10 (density x) - series 1 a (log10 x)) d).
  { assert (DE : forall w, fraction_from w cs / area = density w) by (intros w; unfold density; now rewrite (fraction_from_perm w _ _ PM)).
    unfold weighted_mean. assert (M1 : forall v v' : R -> R, (forall w, v w = v' w) -> Rsum (map v d) = Rsum (map v' d)) by (intros v v' Q; f_equal; now apply map_ext).
    assert (RD : forall p q p' q' : R, p = p' -> q = q' -> p / q = p' / q') by congruence. apply RD; apply M1; intros w; rewrite ?DE; reflexivity. }
  rewrite WM in MT, A1, A2, A3. clear WM. set (n := pow10 (weighted_mean density (fun x => log10 (density x) - series 1 a (log10 x)) d)) in *.
  pose proof (pow10_pos (weighted_mean density (fun x => log10 (density x) - series 1 a (log10 x)) d)) as PN. fold n in PN.
  set (t := cf_t cf n) in *. set (tl := cf_t cf (n * (1 - sigma))) in *. set (tu := cf_t cf (n * (1 + sigma))) in *.
  assert (AE : forall q w, age_of cf q w -> age_on n1 q w) by (intros q w H; exact H).
  assert (TL : tl <= t <= tu) by (split; apply cf_t_mono; try exact PC; nra).
  assert (AF : age_from_files erf cfit I1 fs functions cfn pfn counts ref per b (LNum (Fin x)) (LNum (Fin y)) true (CFit false) s = age_string s (t, tl, tu)).
  { unfold age_from_files. rewrite EC. cbn [bind]. rewrite EP. cbn [bind pf_fn]. rewrite ER. cbn [bind]. unfold age_of_count. cbn [ct].
    destruct (decode_range (fresh cs area) (LNum (Fin x)) (LNum (Fin y)) b true) as (rr, kept). cbn [fst snd] in ED, CA. rewrite ED. cbn [bind]. unfold finite_lower. cbn [fst snd bind].
    destruct r as (r1, r2). cbn [fst snd] in *. rewrite CA. cbn [bind]. rewrite MT.
    assert (TA : forall p q r, three_ages [Num p; Num q; Num r] = Ok (p, q, r)) by reflexivity. now rewrite TA. }
  destruct (Rlt_le_dec n (n1 5)) as [B|B].
  - assert (TT : t < tu) by (apply cf_t_lt; [exact PC|nra|exact B]).
    destruct (C27_errors t (tu - t) (t - tl) (si_sigfigs s) (si_mu s) SF ltac:(lra)) as (num & yy & m1 & y1 & m2 & y2 & f & u & Q1 & Q2 & Q3 & Q4 & Q5 & Q6 & Q7 & SA).
    exists d, t, tl, tu. eexists. split; [apply (fitted_perm b lo hi cs craters d (Permutation_sym PM) FA)|]. cbv zeta. fold n.
    split; [apply AE, A1|]. split; [apply AE, A2|]. split; [apply AE, A3|]. split; [exact TL|]. split; [rewrite AF; exact SA|]. split; [|intros Q; exfalso; lra].
    intros _. split; [exact TT|]. exists num, yy, m1, y1, m2, y2, f, u. repeat (split; [assumption|]). reflexivity.
  - assert (T5 : t = 5) by (apply cf_t_beyond; [exact PC|exact B]). assert (U5 : tu = 5) by (apply cf_t_beyond; [exact PC|change (n1 5 <= n * (1 + sigma)); nra]).
    destruct (choose_unit_spec t) as (f & u & E & BU). destruct (sigfigs_spec (t / f) (si_sigfigs s) ltac:(lia)) as (num & yy & SS & NN & GG).
    exists d, t, tl, tu. eexists. split; [apply (fitted_perm b lo hi cs craters d (Permutation_sym PM) FA)|]. cbv zeta. fold n.
    split; [apply AE, A1|]. split; [apply AE, A2|]. split; [apply AE, A3|]. split; [exact TL|]. split.
    { rewrite AF. unfold age_string, str_age. cbn [FmtModel.unit FmtModel.simple FmtModel.sf FmtModel.no_error FmtModel.mu FmtModel.mathml]. rewrite E. cbn [bind fst snd]. rewrite SS. cbn [bind]. rewrite Rltb_false by lra. reflexivity. }
    split; [intros Q; exfalso; lra|]. intros _. split; [exact T5|]. exists num, yy, f, u. repeat (split; [assumption|]). reflexivity.
Qed.
Print Assumptions C118_order_of_craters.
Print Assumptions C118_cumulative_fit.

(** ** The hypotheses can be met *)
Lemma grid_x2 z : grid "x2" 0 z = Rpower 2 (IZR z).
Proof. unfold grid. cbn [String.eqb Ascii.eqb Bool.eqb]. now rewrite Rminus_0_r. Qed.
Lemma grid_x2_pow n : grid "x2" 0 (Z.of_nat n) = 2 ^ n.
Proof. rewrite grid_x2, <- INR_IZR_INZ. apply Rpower_pow. lra. Qed.
Lemma diam_count : count_given [(L "a.diam", diam_example)] (L "a.diam") [(15 / 10, 1); (2, 5 / 10)] (125 / 10) /\
  chronology_given [(L "a.diam", diam_example)] (SText (document both [nl])) (L "A") 2 1 3 /\ polynomial_given [(L "a.diam", diam_example)] (SText (document both [nl])) (L "P") [-4; 1].
Proof.
  destruct C55_hypotheses_met as (A1 & A2 & A3 & A4 & A5 & A6). destruct C95_hypotheses_met as (_ & B2 & B3 & _ & B5 & B6 & B7 & B8 & B9 & _).
  assert (G : forall fs kind, given fs kind (SText (document both [nl])) both) by (intros fs kind; apply given_text; [unfold document; apply in_or_app; right; now left|exact both_ok]).
  split; [|split].
  - exists diam_entries, [L "diameter"; L "fraction"], [row (L "1.5") (L "1"); row (L "2") (L "0.5")], [15 / 10; 2], [1; 5 / 10], (L "12.5"). split; [exact A1|]. split; [exact A2|]. split; [discriminate|]. split; [exact A3|]. split; [now left|].
    split; [intros [Q|[Q|[]]]; discriminate Q|]. split; [exact A5|]. split; [exact A6|reflexivity].
  - exists both, chronology_a, 0, []. split; [apply G|]. split; [exact B2|exact B3].
  - exists both, production_p, (-3), 1, 300, None. split; [apply G|]. split; [exact B5|]. split; [exact B6|]. split; [exact B7|]. split; [exact B8|exact B9].
Qed.
Example C118_hypotheses_met :
  let fs := [(L "a.diam", diam_example)] in let functions := SText (document both [nl]) in let craters := [(15 / 10, 1); (2, 5 / 10)] in
  chronology_given fs functions (L "A") 2 1 3 /\ polynomial_given fs functions (L "P") [-4; 1] /\ count_given fs (L "a.diam") craters (125 / 10) /\
  Forall (fun c => 0 < fst c /\ 0 < snd c) craters /\ In "x2"%string real_binnings /\ lower_boundary "x2" (11 / 10) 1 /\ upper_boundary "x2" 3 4 /\
  (exists c z, In c craters /\ grid "x2" 0 z <= fst c /\ 3 <= grid "x2" 0 (z + 1) - 1 / 10000000) /\ occupied "x2" 1 4 craters 0 /\ fitted_at "x2" 1 4 craters [1; 2] /\
  forall cfit erf I1 ref per s, solves_least_squares cfit -> (2 <= si_sigfigs s)%nat ->
    exists text, age_from_files erf cfit I1 fs functions (L "A") (L "P") (L "a.diam") ref per "x2" (LNum (Fin (11 / 10))) (LNum (Fin 3)) true (CFit false) s = Ok text.
Proof.
  destruct diam_count as (A & B & C). cbv zeta. assert (G0 := grid_x2_pow 0). assert (G1 := grid_x2_pow 1). assert (G2 := grid_x2_pow 2). cbn [Z.of_nat Pos.of_succ_nat Pos.succ pow] in G0, G1, G2. rewrite ?Rmult_1_r in *.
  assert (I : In "x2"%string real_binnings) by (cbn; tauto). assert (F : Forall (fun c : R * R => 0 < fst c /\ 0 < snd c) [(15 / 10, 1); (2, 5 / 10)]) by (repeat (apply Forall_cons; [cbn; lra|]); apply Forall_nil).
  assert (LB : lower_boundary "x2" (11 / 10) 1) by (exists 0%Z; cbn [Z.add]; rewrite G0, G1; lra). assert (UB : upper_boundary "x2" 3 4) by (exists 2%Z; change (2 - 1)%Z with 1%Z; rewrite G1, G2; lra).
  assert (YL : exists c z, In c [(15 / 10, 1); (2, 5 / 10)] /\ grid "x2" 0 z <= fst c /\ 3 <= grid "x2" 0 (z + 1) - 1 / 10000000) by (exists (2, 5 / 10), 1%Z; change (1 + 1)%Z with 2%Z; rewrite G1, G2; cbn [fst]; split; [right; now left|lra]).
  assert (O0 : occupied "x2" 1 4 [(15 / 10, 1); (2, 5 / 10)] 0) by (unfold occupied; cbn [Z.add]; rewrite G0, G1; split; [lra|]; split; [lra|]; exists (15 / 10, 1); cbn [fst]; split; [now left|lra]).
  assert (O1 : occupied "x2" 1 4 [(15 / 10, 1); (2, 5 / 10)] 1) by (unfold occupied; change (1 + 1)%Z with 2%Z; rewrite G1, G2; split; [lra|]; split; [lra|]; exists (2, 5 / 10); cbn [fst]; split; [right; now left|lra]).
  repeat (split; [assumption|]). split.
  - split; [repeat (constructor; try lra)|]. intros x. split.
    + intros [<-|[<-|[]]]; [exists 0%Z|exists 1%Z]; auto.
    + intros (z & -> & P1 & P2 & _). assert (0 <= z)%Z by (assert (0 < z + 1)%Z; [apply (grid_lt_inv "x2"); [exact I|]; pose proof (grid_step "x2" 0 z I); lra|lia]).
      assert (z < 2)%Z by (apply (grid_lt_inv "x2"); [exact I|]; pose proof (grid_step "x2" 0 z I); lra). assert (Z : z = 0%Z \/ z = 1%Z) by lia. destruct Z as [-> | ->]; [left; lra|right; left; lra].
  - intros cfit erf I1 ref per s LS SF.
    destruct (C118_cumulative_fit erf cfit I1 _ _ _ _ _ 2 1 3 _ _ _ ref per "x2" (11 / 10) 3 1 4 s LS B ltac:(lra) ltac:(lra) ltac:(lra) C A F ltac:(lra) I ltac:(lra) ltac:(lra) LB UB YL (ex_intro _ 0%Z O0) SF) as (d & t & tl & tu & text & _ & _ & _ & _ & _ & E & _).
    exists text. exact E.
Qed.
