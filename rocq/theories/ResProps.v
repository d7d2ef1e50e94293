(** C128: counts corrected for resurfacing. *)
From Coq Require Import String Ascii List ZArith Reals Lra Lia Bool Sorted.
From Verif Require Import Base NumModel NumLemmas StrModel TsModel IoModel TsSpec IoSpec BinModel BinSpec BinProofs ApplyProofs BinProps CountModel CountSpec CountProofs CountProps CountProofs2 CountProofs3 ChronModel ChronSpec.
From Verif Require Import ProdModel ProdSpec ProdProofs ProdProofs2 ProdProofs3 ProdProps PdfModel PdfSpec AgeModel AgeSpec AgeProofs AgeProofs2 AgeProps LoadModel LoadSpec EndModel EndSpec EndProofs EndProps DfitSpec DfitProofs DfitProps ResSpec ResProofs.
Import ListNotations.
Local Open Scope R_scope.

(** craters of x km or larger per km2 *)
Definition counted (craters : list (R * R)) (area x : R) : R := fraction_from x craters / area.

(** For every count, polynomial and range of bins with a crater: with the correction for resurfacing, the cumulative points of the range are
    those counted, each raised by one and the same correction, which leaves all of them positive; their errors are in proportion to the number
    of craters counted.  The numbers of craters are those counted.  The range of bins starts with the smallest bin of the count. *)
Theorem C128_correction :
  forall cfit a0 a plo phi craters area b lo hi bd ri,
    solves_least_squares cfit -> In b real_binnings -> craters <> [] -> Forall (fun c => 0 < fst c) craters -> Forall (fun c => 0 < snd c) craters -> 0 < area ->
    apply_binning craters b 0 = Ok (bd, ri) -> In lo (b_dmin bd) -> In hi (b_dmax bd) -> lo < hi -> (0 < number_between lo hi craters)%nat ->
    let d := map fst (bins_used craters lo hi (b_dmin bd) (b_dmax bd)) in
    exists c p, correction a0 a (counted craters area) d c /\ (forall x, In x d -> 0 < counted craters area x + c) /\
      fst (getplotdata (fresh craters area) "cumulative" b (Some (lo, Fin hi)) (Some 1%Z) false (Some (as_prodfn cfit (Poly (a0 :: a) plo phi)))) = Ok p /\
      map pt_d (pd_points p) = d /\ map pt_y (pd_points p) = map (fun x => counted craters area x + c) d /\
      map pt_err (pd_points p) = map (fun x => (counted craters area x + c) / sqrt (INR (number_from x craters))) d /\
      pd_n p = fraction_between lo hi craters /\ pd_nevent p = INR (number_between lo hi craters) /\ pd_bin_range p = (hd 0 (b_dmin bd), hi).
Proof.
  intros cfit a0 a plo phi craters area b lo hi bd ri LS Hb Hne Hpos Hfr Ha HA Hlo Hhi Hlt HN d.
  destruct (corrected_points craters area b bd ri lo hi Hb Hne Hpos Hfr Ha HA Hlo Hhi Hlt HN cfit a0 a plo phi LS) as (c & C & P & E).
  fold d in C, P, E. clearbody d.
  eexists c, _. split; [exact C|]. split; [exact P|]. split; [exact E|]. cbn [pd_points pd_n pd_nevent pd_bin_range]. rewrite !map_map. cbn [pt_d pt_y pt_err]. rewrite map_id. repeat split; reflexivity.
Qed.
Print Assumptions C128_correction.

(** where it ends before the 21st addition, the largest of the corrected points is on the isochron that best fits the points raised by a value
    that differs from the correction by less than one crater in 10000 km2 *)
Theorem C128_settles :
  forall a0 a y d c, correction a0 a y d c -> (1 < length d)%nat ->
    c = added a0 a y d 21 \/
    exists c', Rabs (c - c') < 1 / 10000 /\ y (last d 0) + c = pow10 (best_isochron a0 a y d c') * unit_isochron a (last d 0).
Proof.
  intros a0 a y d c (_ & C) N. destruct (C N) as (k & K & -> & S & _). destruct (Nat.eq_dec k 20) as [->|Ne]; [now left|right].
  exists (added a0 a y d k). split; [apply S; lia|]. cbn [added]. unfold missing. ring.
Qed.
Print Assumptions C128_settles.

Lemma mean_const w v d n : 0 < Rsum (map w d) -> (forall x, In x d -> v x = n) -> weighted_mean w v d = n.
Proof.
  intros P H. unfold weighted_mean. assert (E : Rsum (map (fun x => w x * v x) d) = n * Rsum (map w d)).
  { clear P. induction d as [|x d IH]; cbn [map Rsum]; [ring|]. rewrite IH by (intros; apply H; now right). rewrite (H x) by now left. ring. }
  rewrite E. field. lra.
Qed.
Lemma on_isochron_zero a0 a y d n c : n <> 0 -> d <> [] -> (forall x, In x d -> y x = pow10 n * unit_isochron a x) -> correction a0 a y d c -> c = 0.
Proof.
  intros N0 NE Y (C1 & C2). destruct (le_lt_dec (length d) 1) as [L1|L1]; [now apply C1|].
  assert (PY : forall x, In x d -> 0 < y x) by (intros x I; rewrite Y by exact I; apply Rmult_lt_0_compat; apply pow10_pos).
  assert (B : best_isochron a0 a y d 0 = n).
  { unfold best_isochron. cbv zeta. rewrite (mean_const _ _ d n).
    - destruct (Req_EM_T n 0); [contradiction|reflexivity].
    - apply Rsum_pos; [intros Q; apply map_eq_nil in Q; contradiction|]. rewrite Forall_map, Forall_forall. intros x I. specialize (PY x I). lra.
    - intros x I. rewrite Rplus_0_r, Y by exact I. unfold unit_isochron. rewrite <- pow10_plus, log10_pow10. ring. }
  assert (A1 : added a0 a y d 1 = 0).
  { cbn [added]. unfold missing. rewrite B. rewrite <- Y; [ring|]. destruct d as [|x e]; [contradiction|]. clear. revert x. induction e as [|z e IH]; intros x; [now left|]. right. apply IH. }
  destruct (C2 L1) as (k & K & -> & _ & M). destruct k as [|k]; [exact A1|]. exfalso. apply (M O); [lia|]. unfold settled. rewrite A1. cbn [added]. rewrite Rminus_0_r, Rabs_R0. lra.
Qed.
(** points that are on an isochron already are left as they are *)
Theorem C128_on_an_isochron :
  forall cfit a0 a plo phi craters area b lo hi bd ri n,
    solves_least_squares cfit -> In b real_binnings -> craters <> [] -> Forall (fun c => 0 < fst c) craters -> Forall (fun c => 0 < snd c) craters -> 0 < area ->
    apply_binning craters b 0 = Ok (bd, ri) -> In lo (b_dmin bd) -> In hi (b_dmax bd) -> lo < hi -> (0 < number_between lo hi craters)%nat ->
    n <> 0 -> (forall x, In x (map fst (bins_used craters lo hi (b_dmin bd) (b_dmax bd))) -> counted craters area x = pow10 n * unit_isochron a x) ->
    exists p p', fst (getplotdata (fresh craters area) "cumulative" b (Some (lo, Fin hi)) (Some 1%Z) false (Some (as_prodfn cfit (Poly (a0 :: a) plo phi)))) = Ok p /\
      fst (getplotdata (fresh craters area) "cumulative" b (Some (lo, Fin hi)) (Some 0%Z) false (Some (as_prodfn cfit (Poly (a0 :: a) plo phi)))) = Ok p' /\
      pd_points p = pd_points p' /\ pd_points p <> [].
Proof.
  intros cfit a0 a plo phi craters area b lo hi bd ri n LS Hb Hne Hpos Hfr Ha HA Hlo Hhi Hlt HN N0 Y.
  destruct (corrected_points craters area b bd ri lo hi Hb Hne Hpos Hfr Ha HA Hlo Hhi Hlt HN cfit a0 a plo phi LS) as (c & C & P & E).
  destruct (fit_points craters area b bd ri lo hi Hb Hne Hpos Hfr Ha HA Hlo Hhi Hlt "cumulative" (Some (as_prodfn cfit (Poly (a0 :: a) plo phi))) ltac:(cbn; tauto)) as (pd & E' & _ & _ & _ & EP).
  assert (NE : map fst (bins_used craters lo hi (b_dmin bd) (b_dmax bd)) <> []) by (intros Q; apply map_eq_nil in Q; revert Q; apply (bins_nonempty craters b bd ri); assumption).
  assert (c = 0) by (apply (on_isochron_zero a0 a (fun x => fraction_from x craters / area) _ n c N0 NE Y C)). subst c.
  eexists _, pd. split; [exact E|]. split; [exact E'|]. cbn [pd_points]. split; [|intros Q; apply map_eq_nil in Q; contradiction].
  rewrite EP, map_map. apply map_ext. intros e. rewrite Rplus_0_r. reflexivity.
Qed.
Print Assumptions C128_on_an_isochron.

(** the age of such a fit: that of the isochron that best fits the corrected points, with the errors of the count *)
Theorem C128_age :
  forall erf cfit I1 a0 a plo phi cf ref craters area per b lo hi bd ri,
    solves_least_squares cfit -> positive_coefficients cf -> In b real_binnings -> craters <> [] -> Forall (fun c => 0 < fst c) craters -> Forall (fun c => 0 < snd c) craters -> 0 < area ->
    apply_binning craters b 0 = Ok (bd, ri) -> In lo (b_dmin bd) -> In hi (b_dmax bd) -> lo < hi -> (0 < number_between lo hi craters)%nat ->
    let d := map fst (bins_used craters lo hi (b_dmin bd) (b_dmax bd)) in
    let sigma := 98 / 100 / sqrt (INR (number_from lo craters)) in
    exists c best lower upper t tl tu nd,
      correction a0 a (counted craters area) d c /\ (forall x, In x d -> 0 < counted craters area x + c) /\
      calculate_age erf cfit I1 (Poly (a0 :: a) plo phi) cf ref (fresh craters area) per b (lo, Fin hi) (CFit true)
        = Ok (mkMeas [Num t; Num tl; Num tu] [Num best; Num lower; Num upper] (fraction_between lo hi craters) (INR (number_between lo hi craters)) (Some (hd 0 (b_dmin bd), hi)) nd) /\
      best = weighted_mean (fun x => counted craters area x + c) (fun x => log10 (counted craters area x + c) - series 1 a (log10 x)) d /\
      pow10 lower = pow10 best * (1 - sigma) /\ pow10 upper = pow10 best * (1 + sigma) /\
      tl <= t <= tu /\ age_of cf (pow10 best) t /\ age_of cf (pow10 lower) tl /\ age_of cf (pow10 upper) tu.
Proof.
  intros erf cfit I1 a0 a plo phi cf ref craters area per b lo hi bd ri LS PCo Hb Hne Hpos Hfr Ha HA Hlo Hhi Hlt HN d sigma.
  destruct (corrected_points craters area b bd ri lo hi Hb Hne Hpos Hfr Ha HA Hlo Hhi Hlt HN cfit a0 a plo phi LS) as (c & C & P & E).
  destruct (d_facts craters area b bd ri lo hi Hb Hne Hpos Hfr Ha HA Hlo Hhi Hlt HN) as (NE & PF & _).
  pose proof (first_bin craters b bd ri lo hi Hb Hne Hpos Hfr HA Hlo Hhi Hlt) as FB.
  fold d in NE, PF, C, P, E.
  set (pt := fun x => mkPt x (counted craters area x + c) ((counted craters area x + c) / sqrt (INR (number_from x craters)))).
  change (fun x => mkPt x (fraction_from x craters / area + c) ((fraction_from x craters / area + c) / sqrt (INR (number_from x craters)))) with pt in E.
  assert (D : exists x rest, d = x :: rest /\ number_from x craters = number_from lo craters).
  { unfold d in *. destruct (bins_used craters lo hi (b_dmin bd) (b_dmax bd)) as [|e r]; [now contradiction NE|]. exists (fst e), (map fst r). split; [reflexivity|]. now apply (FB e r). }
  destruct D as (x & rest & D & NX). assert (IX : In x d) by (rewrite D; now left).
  assert (Y0 : 0 < counted craters area x + c) by (apply P; exact IX).
  assert (S1 : 1 <= sqrt (INR (number_from lo craters))) by (rewrite <- NX; now apply PF).
  assert (SI : 0 < / sqrt (INR (number_from lo craters)) <= 1) by (split; [apply Rinv_0_lt_compat; lra|rewrite <- Rinv_1; apply Rinv_le_contravar; lra]).
  destruct (C79_any_fit erf cfit I1 (Poly (a0 :: a) plo phi) cf ref (fresh craters area) per b (lo, Fin hi) (CFit true) "cumulative" 1%Z _ (pt x) (map pt rest)
    LS (built_poly _ _ _) Logic.I PCo ltac:(tauto) E) as (best & lower & upper & t & tl & tu & nd & R0 & R1 & R2 & R3 & R4 & R5 & R6 & R7 & R8 & R9).
  { cbn [pd_points]. rewrite D. reflexivity. }
  { change (pt x :: map pt rest) with (map pt (x :: rest)). rewrite <- D. apply Forall_map, Forall_forall. intros q I. destruct (PF q I) as (Q1 & _ & Q3). specialize (P q I).
    unfold pt. cbn [pt_d pt_y pt_err]. split; [exact Q1|]. split; [exact P|]. apply Rdiv_lt_0_compat; [exact P|lra]. }
  { unfold pt. cbn [pt_y pt_err]. rewrite NX. unfold Rdiv at 2. nra. }
  exists c, best, lower, upper, t, tl, tu, nd. split; [exact C|]. split; [exact P|]. split; [exact R0|].
  assert (SG : 98 / 100 * (pt_err (pt x) / pt_y (pt x)) = sigma) by (unfold pt, sigma; cbn [pt_y pt_err]; rewrite NX; field; lra).
  rewrite SG in R6, R7. split; [|repeat (split; [assumption|]); assumption].
  cbn [String.eqb Ascii.eqb Bool.eqb] in R8. change (pt x :: map pt rest) with (map pt (x :: rest)) in R8. rewrite <- D in R8. clearbody d. rewrite !map_map in R8. unfold pt in R8. cbn [pt_d pt_y] in R8. rewrite map_id in R8.
  exact (best_fit_poly a0 a plo phi (fun x => counted craters area x + c) d best NE P R8).
Qed.
Print Assumptions C128_age.

(** an addition of less than one crater in 10000 km2 ends it at once, whatever the density counted *)
Theorem C128_sparse :
  forall a0 a y d c, correction a0 a y d c -> (1 < length d)%nat -> Rabs (added a0 a y d 1) < 1 / 10000 -> c = added a0 a y d 1.
Proof.
  intros a0 a y d c (_ & C) N S. destruct (C N) as (k & K & -> & _ & M). destruct k as [|k]; [reflexivity|]. exfalso. apply (M O); [lia|]. unfold settled. cbn [added] in *. now rewrite Rminus_0_r.
Qed.
Print Assumptions C128_sparse.

(** ** five craters *)
Lemma sorted_unique l : StronglySorted Z.lt l -> forall m, StronglySorted Z.lt m -> (forall z, In z l <-> In z m) -> l = m.
Proof.
  induction 1 as [|x l H IH F]; intros m Sm E.
  - destruct m as [|z m]; [reflexivity|]. exfalso. apply (E z). now left.
  - destruct Sm as [|z m Sm Fm]; [exfalso; apply (E x); now left|]. rewrite Forall_forall in F, Fm.
    assert (x = z). { assert (I1 : In x (z :: m)) by (apply E; now left). assert (I2 : In z (x :: l)) by (apply E; now left). destruct I1 as [Q|Q]; [congruence|]. destruct I2 as [P|P]; [congruence|]. apply Fm in Q. apply F in P. lia. }
    subst z. f_equal. apply IH; [exact Sm|]. intros z. split; intros I.
    + assert (Q : In z (x :: m)) by (apply E; now right). destruct Q as [<-|Q]; [|exact Q]. apply F in I. lia.
    + assert (Q : In z (x :: l)) by (apply E; now right). destruct Q as [<-|Q]; [|exact Q]. apply Fm in I. lia.
Qed.
Lemma five_used : exists bd ri, apply_binning five_craters "x2" 0 = Ok (bd, ri) /\ In 1 (b_dmin bd) /\ In 4 (b_dmax bd) /\
  map fst (bins_used five_craters 1 4 (b_dmin bd) (b_dmax bd)) = [1; 2] /\ (0 < number_between 1 4 five_craters)%nat /\
  five_craters <> [] /\ Forall (fun c => 0 < fst c) five_craters /\ Forall (fun c => 0 < snd c) five_craters /\ In "x2"%string real_binnings.
Proof.
  destruct C126_hypotheses_met as (_ & _ & _ & FF & Ib & _ & _ & _ & _ & (BS & BM) & _).
  assert (F1 : Forall (fun c => 0 < fst c) five_craters) by (eapply Forall_impl; [|exact FF]; intros ? (Q & _); exact Q).
  assert (F2 : Forall (fun c => 0 < snd c) five_craters) by (eapply Forall_impl; [|exact FF]; intros ? (_ & Q); exact Q).
  assert (NE : five_craters <> []) by discriminate.
  assert (G0 := grid_x2_pow 0). assert (G1 := grid_x2_pow 1). assert (G2 := grid_x2_pow 2). cbn [Z.of_nat Pos.of_succ_nat Pos.succ pow] in G0, G1, G2. rewrite ?Rmult_1_r in *.
  destruct (C03_binning_total_and_exact five_craters "x2" 0 Ib NE F1) as (z0 & n & bd & ri & HA & _ & E1 & E2 & CV & _).
  assert (C1 : grid "x2" 0 z0 <= 15 / 10 < grid "x2" 0 (z0 + Z.of_nat (S n))) by (apply (CV (15 / 10, 1)); now left).
  assert (C2 : grid "x2" 0 z0 <= 2 < grid "x2" 0 (z0 + Z.of_nat (S n))) by (apply (CV (2, 5 / 10)); do 4 right; now left).
  assert (Z0 : (z0 < 1)%Z) by (apply (grid_lt_inv "x2"); [exact Ib|lra]). assert (Z1 : (1 < z0 + Z.of_nat (S n))%Z) by (apply (grid_lt_inv "x2"); [exact Ib|lra]).
  destruct (used_numbers "x2" five_craters z0 n 1 4 Ib F2 CV) as (zs & EZ & SZ & MZ).
  assert (ZS : zs = [0; 1]%Z) by (apply sorted_unique; [exact SZ|exact BS|intros z; rewrite MZ, BM; reflexivity]).
  exists bd, (Some ri). split; [exact HA|]. split; [rewrite E1; apply in_grid_points; exists 0%Z; split; [lia|congruence]|]. split; [rewrite E2; apply in_grid_points; exists 2%Z; split; [lia|rewrite G2; lra]|].
  split; [rewrite E1, E2, EZ, ZS; cbn [map fst]; rewrite G0, G1; reflexivity|]. split; [|repeat (split; [assumption|]); assumption].
  apply (number_between_pos 1 4 five_craters (15 / 10, 1)); [now left|cbn; lra].
Qed.
Lemma five_values : fraction_from 1 five_craters = 45 / 10 /\ fraction_from 2 five_craters = 5 / 10.
Proof.
  unfold five_craters. cbn [fraction_from]. destruct (Rle_dec 1 (15 / 10)); [|lra]. destruct (Rle_dec 1 2); [|lra]. destruct (Rle_dec 2 (15 / 10)); [lra|]. destruct (Rle_dec 2 2); [|lra]. split; lra.
Qed.
Lemma unit_2 : unit_isochron [-2] 1 = 1 /\ unit_isochron [-2] 2 = 1 / 4 /\ log10 1 = 0.
Proof.
  assert (L1 : log10 1 = 0) by (unfold log10; rewrite ln_1; unfold Rdiv; apply Rmult_0_l). unfold unit_isochron. cbn [series pow]. rewrite L1. split; [replace (-2 * (0 * 1) + 0) with 0 by ring; apply pow10_0|]. split; [|reflexivity].
  replace (-2 * (log10 2 * 1) + 0) with (log10 (1 / 4)); [apply pow10_log10; lra|]. replace (1 / 4) with (1 / (2 * 2)) by lra. rewrite log10_div, log10_mult, L1 by lra. ring.
Qed.
(** the correction is not always found: five craters in 100000 km2 are raised by less than 5/8 of a crater in that area, although raising them by 5/6 of
    one would put them on an isochron *)
Theorem C128_converged_refuted :
  ~ (forall cfit a0 a plo phi craters area b lo hi bd ri c n,
    solves_least_squares cfit -> In b real_binnings -> craters <> [] -> Forall (fun c => 0 < fst c) craters -> Forall (fun c => 0 < snd c) craters -> 0 < area ->
    apply_binning craters b 0 = Ok (bd, ri) -> In lo (b_dmin bd) -> In hi (b_dmax bd) -> lo < hi -> (0 < number_between lo hi craters)%nat -> n <> 0 ->
    let d := map fst (bins_used craters lo hi (b_dmin bd) (b_dmax bd)) in
    (forall x, In x d -> counted craters area x + c = pow10 n * unit_isochron a x) ->
    exists p, fst (getplotdata (fresh craters area) "cumulative" b (Some (lo, Fin hi)) (Some 1%Z) false (Some (as_prodfn cfit (Poly (a0 :: a) plo phi)))) = Ok p /\
      map pt_y (pd_points p) = map (fun x => counted craters area x + c) d).
Proof.
  intros H. destruct a_solver as (cfit & LS). destruct five_used as (bd & ri & HA & I1 & I4 & D & NB & NE & F1 & F2 & Ib). destruct five_values as (V1 & V2). destruct unit_2 as (U1 & U2 & L1).
  assert (Y1 : counted five_craters 100000 1 = 45 / 1000000) by (unfold counted; rewrite V1; lra). assert (Y2 : counted five_craters 100000 2 = 5 / 1000000) by (unfold counted; rewrite V2; lra).
  set (c := 5 / 600000). set (m := log10 (16 / 300000)).
  assert (M0 : m <> 0). { unfold m. rewrite <- L1. intros Q. assert (16 / 300000 = 1); [|lra]. rewrite <- (pow10_log10 (16 / 300000)), Q, pow10_log10 by lra. reflexivity. }
  destruct (H cfit (-3) [-2] (1 / 10) 100 five_craters 100000 "x2"%string 1 4 bd ri c m LS Ib NE F1 F2 ltac:(lra) HA I1 I4 ltac:(lra) NB M0) as (p & E & EY).
  { rewrite D. intros x [<-|[<-|[]]]; unfold m; rewrite pow10_log10 by lra; [rewrite Y1, U1|rewrite Y2, U2]; unfold c; lra. }
  destruct (C128_correction cfit (-3) [-2] (1 / 10) 100 five_craters 100000 "x2"%string 1 4 bd ri LS Ib NE F1 F2 ltac:(lra) HA I1 I4 ltac:(lra) NB) as (c' & p' & C & _ & E' & _ & EY' & _).
  rewrite E in E'. injection E' as <-. rewrite EY, D in EY'. cbn [map] in EY'. injection EY' as EY' _. rewrite D in C. assert (c = c') by lra. subst c'. clear EY EY'.
  set (y := counted five_craters 100000) in *. set (n := weighted_mean (fun x => y x + 0) (fun x => log10 (y x + 0) - series 1 [-2] (log10 x)) [1; 2]).
  assert (N1 : n = 9 / 10 * log10 (45 / 1000000) + 1 / 10 * log10 (20 / 1000000)).
  { unfold n, weighted_mean. cbn [map Rsum series pow]. rewrite Y1, Y2, L1, !Rplus_0_r. assert (Q : log10 (20 / 1000000) = log10 (5 / 1000000) + 2 * log10 2).
    { replace (20 / 1000000) with (5 / 1000000 * (2 * 2)) by lra. rewrite !log10_mult by lra. ring. }
    rewrite Q. field. }
  assert (LT : log10 (20 / 1000000) <= log10 (45 / 1000000)) by (apply log10_le; lra). assert (L0 : log10 (45 / 1000000) < 0).
  { assert (Q : log10 (45 / 1000000) <= log10 (1 / 10)) by (apply log10_le; lra). assert (Q2 : log10 (1 / 10) = -1); [|lra]. rewrite log10_div, L1 by lra. unfold log10. assert (0 < ln 10) by (rewrite <- ln_1; apply ln_increasing; lra). field. lra. }
  assert (PN : 0 < pow10 n <= 45 / 1000000). { split; [apply pow10_pos|]. rewrite <- (pow10_log10 (45 / 1000000)) by lra. apply pow10_le. lra. }
  assert (A1 : added (-3) [-2] y [1; 2] 1 = pow10 n * (1 / 4) - 5 / 1000000).
  { cbn [added]. unfold missing, best_isochron. cbv zeta. fold n. cbn [last]. rewrite U2, Y2. destruct (Req_EM_T n 0) as [Q|_]; [lra|reflexivity]. }
  assert (c = added (-3) [-2] y [1; 2] 1) as EC.
  { apply C128_sparse; [exact C|cbn; lia|]. rewrite A1. apply Rabs_def1; lra. }
  rewrite A1 in EC. unfold c in EC. lra.
Qed.
Print Assumptions C128_converged_refuted.

(** the hypotheses can be met: five craters in two bins, corrected, and the age from them *)
Example C128_hypotheses_met : exists cfit bd ri, solves_least_squares cfit /\ apply_binning five_craters "x2" 0 = Ok (bd, ri) /\ In 1 (b_dmin bd) /\ In 4 (b_dmax bd) /\
  map fst (bins_used five_craters 1 4 (b_dmin bd) (b_dmax bd)) = [1; 2] /\
  (exists c p, correction (-3) [-2] (counted five_craters 10) [1; 2] c /\
    fst (getplotdata (fresh five_craters 10) "cumulative" "x2" (Some (1, Fin 4)) (Some 1%Z) false (Some (as_prodfn cfit (Poly [-3; -2] (1 / 10) 100)))) = Ok p /\
    map pt_y (pd_points p) = [45 / 100 + c; 5 / 100 + c]) /\
  (exists n, n <> 0 /\ forall x, In x [1; 2] -> counted five_craters 10 x = pow10 n * unit_isochron [- (log10 9 / log10 2)] x).
Proof.
  destruct a_solver as (cfit & LS). destruct five_used as (bd & ri & HA & I1 & I4 & D & NB & NE & F1 & F2 & Ib). destruct five_values as (V1 & V2). destruct unit_2 as (_ & _ & L1).
  exists cfit, bd, ri. repeat (split; [assumption|]). split.
  - destruct (C128_correction cfit (-3) [-2] (1 / 10) 100 five_craters 10 "x2"%string 1 4 bd ri LS Ib NE F1 F2 ltac:(lra) HA I1 I4 ltac:(lra) NB) as (c & p & C & _ & E & _ & EY & _).
    exists c, p. rewrite D in C, EY. split; [exact C|]. split; [exact E|]. rewrite EY. cbn [map]. unfold counted. rewrite V1, V2. f_equal; [lra|]. f_equal. lra.
  - assert (L2 : 0 < log10 2). { rewrite <- L1. unfold log10. unfold Rdiv. apply Rmult_lt_compat_r; [apply Rinv_0_lt_compat; rewrite <- ln_1; apply ln_increasing; lra|apply ln_increasing; lra]. }
    exists (log10 (45 / 100)). split.
    { rewrite <- L1. intros Q. assert (45 / 100 = 1); [|lra]. rewrite <- (pow10_log10 (45 / 100)), Q, pow10_log10 by lra. reflexivity. }
    intros x [<-|[<-|[]]]; unfold counted, unit_isochron; cbn [series pow]; rewrite pow10_log10 by lra.
    + rewrite V1, L1. replace (- (log10 9 / log10 2) * (0 * 1) + 0) with 0 by ring. rewrite pow10_0. lra.
    + rewrite V2. replace (- (log10 9 / log10 2) * (log10 2 * 1) + 0) with (log10 (1 / 9)); [rewrite pow10_log10 by lra; lra|]. rewrite log10_div, L1 by lra. field. lra.
Qed.
