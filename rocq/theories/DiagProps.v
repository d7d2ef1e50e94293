(** C107 and C108: the marks of bins; titles and the names of the functions. *)
From Coq Require Import String Ascii List ZArith Reals Bool Lia Lra Arith.
From Verif Require Import Base NumModel NumLemmas StrModel StrProofs FmtModel FmtSpec FmtProofs FmtProps BinModel BinSpec BinProofs BinProps ApplyProofs CountProofs SetModel CliProofs2 LegProofs DiagModel DiagSpec.
Import ListNotations.
Local Open Scope R_scope.

Lemma colour_turn k : turn (Z.of_nat k) (colour_of_bin k).
Proof.
  unfold turn, colour_of_bin. replace (Z.of_nat k mod 3)%Z with (Z.of_nat (k mod 3)) by (rewrite Nat2Z.inj_mod; reflexivity). pose proof (Nat.mod_upper_bound k 3 ltac:(lia)). destruct (k mod 3)%nat as [|[|[|j]]]; [reflexivity..|lia].
Qed.
Lemma turn_unique k c c' : turn k c -> turn k c' -> c = c'.
Proof. unfold turn. destruct (k mod 3)%Z as [|[p|p|]|p]; congruence. Qed.
Lemma colour_ink k : (k mod 3 =? 0)%nat = true <-> colour_of_bin k = Ink.
Proof. unfold colour_of_bin. destruct (k mod 3)%nat as [|[|j]]; cbn; split; congruence. Qed.
Lemma even_turn k : (k mod 2 =? 0)%nat = Z.even (Z.of_nat k).
Proof.
  rewrite Zeven_mod. replace (Z.of_nat k mod 2)%Z with (Z.of_nat (k mod 2)) by (rewrite Nat2Z.inj_mod; reflexivity). destruct (k mod 2)%nat; reflexivity.
Qed.
Lemma edge_two_figures d : 0 < d -> two_figures d (edge_text d).
Proof.
  intros P. unfold edge_text, two_figures, fmt_e. pose proof (sci_value 2 d ltac:(lia)) as SV. destruct (sci 2 (Rabs d)) as [m e]. destruct SV as (M & M2 & G). specialize (M2 ltac:(lra)). change (10 ^ (Z.of_nat 2 - 1))%Z with 10%Z in M2. change (10 ^ Z.of_nat 2)%Z with 100%Z in M.
  cbn [fst snd]. destruct (digits_spec 2 m) as (A & B & C). destruct (digits 2 m) as [|a [|b [|x r]]] eqn:ED; try discriminate. assert (SG : sign d = []) by (unfold sign; now rewrite Rltb_false by lra). rewrite SG.
  exists ([a] ++ L "." ++ [b]), (IZR m / 10), e. split; [reflexivity|]. split.
  { exists false, [a], [b]. split; [discriminate|]. inversion B as [|? ? B1 B2]; subst. inversion B2; subst. split; [now constructor|]. split; [now constructor|]. split; [reflexivity|]. cbn [app length pow]. rewrite C. rewrite Z.mod_small by (change (10 ^ Z.of_nat 2)%Z with 100%Z; lia). field. }
  assert (10 <= IZR m <= 99) by (split; apply IZR_le; lia). split; [lra|].
  rewrite Rltb_false in G by lra. replace (IZR m / 10 * powerRZ 10 e) with (1 * (IZR m * ten (e - Z.of_nat 2 + 1))); [exact G|]. unfold ten. replace (e - Z.of_nat 2 + 1)%Z with (e + -1)%Z by lia. rewrite powerRZ_add by lra. change (powerRZ 10 (-1)) with (/ (10 * 1)). field.
Qed.
Lemma concat_in {A B} (f : A -> res (list B)) l r m : mapM f l = Ok r -> In m (concat r) <-> exists x y, In x l /\ f x = Ok y /\ In m y.
Proof.
  revert r. induction l as [|x l IH]; intros r E; cbn in E.
  - injection E as <-. cbn. split; [contradiction|intros (x & y & [] & _)].
  - destruct (f x) as [y|] eqn:F; [|discriminate]. cbn in E. destruct (mapM f l) as [ys|]; [|discriminate]. cbn in E. injection E as <-. cbn [concat]. rewrite in_app_iff, (IH ys eq_refl). split.
    + intros [I|(x' & y' & I & F' & J)]; [exists x, y; split; [now left|now split]|exists x', y'; split; [now right|now split]].
    + intros (x' & y' & [<-|I] & F' & J); [left; congruence|right; now exists x', y'].
Qed.
Lemma grid_le b off z z' : In b real_binnings -> (z < z')%Z -> grid b off z < grid b off z'.
Proof.
  intros I H. replace z' with (z + Z.of_nat (Datatypes.S (Z.to_nat (z' - z - 1))))%Z by lia. generalize (Z.to_nat (z' - z - 1)). intros n. induction n as [|n IH]; [now apply grid_step|].
  eapply Rlt_trans; [exact IH|]. replace (z + Z.of_nat (Datatypes.S (Datatypes.S n)))%Z with (z + Z.of_nat (Datatypes.S n) + 1)%Z by lia. now apply grid_step.
Qed.

(** the option bins marks every bin that begins left of the right edge of the diagram: in turn unshaded, red and blue, with its first two figures three times at every boundary within the diagram *)
Theorem C107_bins : forall binning xr, In binning real_binnings -> fst xr < snd xr ->
  exists z0 marks, mark_bins true xr (Some binning) = Ok marks /\ grid binning 0 z0 <= pow10 (fst xr) <= grid binning 0 (z0 + 1) /\
    (forall m, In m marks -> exists z, (z0 <= z)%Z /\ marks_bin binning xr z0 z m) /\
    (forall z c, (z0 <= z)%Z -> grid binning 0 z < pow10 (snd xr) -> turn (z - z0) c ->
       (c <> Ink -> In (Shade (log10 (grid binning 0 z)) (log10 (grid binning 0 (z + 1))) c) marks) /\
       (pow10 (fst xr) < grid binning 0 z -> forall h, In h [16 / 100; 1 / 2; 84 / 100] -> exists t, In (Edge (log10 (grid binning 0 z)) h t c (Z.even (z - z0))) marks)).
Proof.
  intros binning xr I X. set (a := pow10 (fst xr)). set (b := pow10 (snd xr)). assert (AB : a < b) by now apply pow10_lt. assert (PA : 0 < a) by apply pow10_pos.
  destruct (C02_bins_consecutive_on_fixed_grid binning [a; b] 0 I ltac:(discriminate)) as (z0 & n & E & G1 & G2 & _).
  { constructor; [exact PA|]. constructor; [lra|constructor]. }
  assert (GA : grid binning 0 z0 <= a) by (apply G1; now left). assert (GB : b < grid binning 0 (z0 + Z.of_nat (Datatypes.S n))) by (apply G1; right; now left).
  assert (GC : a <= grid binning 0 (z0 + 1)) by (destruct G2 as (x & [<-|[<-|[]]] & H); lra).
  set (bins := grid_points binning 0 z0 (Datatypes.S (Datatypes.S n))) in *. assert (LB : length bins = Datatypes.S (Datatypes.S n)) by apply grid_points_length.
  assert (NB : forall i, (i < Datatypes.S (Datatypes.S n))%nat -> nth_error bins i = Some (grid binning 0 (z0 + Z.of_nat i))).
  { intros i H. rewrite (nth_error_nth' bins 0) by lia. f_equal. now apply grid_points_nth. }
  assert (IC : forall i x, In (i, x) (combine (seq 0 (length bins)) bins) <-> nth_error bins i = Some x).
  { assert (Q : forall (l : list R) s i x, In (i, x) (combine (seq s (length l)) l) <-> (s <= i)%nat /\ nth_error l (i - s) = Some x).
    { induction l as [|y l IH]; intros s i x; cbn [length seq combine].
      - split; [contradiction|]. intros (_ & H). destruct (i - s)%nat; discriminate.
      - cbn [In]. rewrite IH. split.
        + intros [H|(H & N)]; [injection H as <- <-; split; [lia|]; now rewrite Nat.sub_diag|]. split; [lia|]. replace (i - s)%nat with (Datatypes.S (i - Datatypes.S s)) by lia. exact N.
        + intros (H & N). destruct (Nat.eq_dec i s) as [->|NE]; [rewrite Nat.sub_diag in N; left; cbn in N; congruence|]. right. split; [lia|]. replace (i - s)%nat with (Datatypes.S (i - Datatypes.S s)) in N by lia. exact N. }
    intros i x. rewrite Q, Nat.sub_0_r. split; [tauto|]. split; [lia|tauto]. }
  (* the last boundary is beyond the diagram *)
  assert (BI : forall i x, nth_error bins i = Some x -> x = grid binning 0 (z0 + Z.of_nat i) /\ (x < b -> (i < Datatypes.S n)%nat)).
  { intros i x N. assert (IL : (i < Datatypes.S (Datatypes.S n))%nat) by (rewrite <- LB; apply nth_error_Some; congruence). rewrite NB in N by exact IL. injection N as <-. split; [reflexivity|]. intros H. destruct (Nat.eq_dec i (Datatypes.S n)) as [->|]; [lra|lia]. }
  assert (MK : forall i x, nth_error bins i = Some x -> exists r, mark_bin xr bins (i, x) = Ok r /\ (forall m, In m r -> marks_bin binning xr z0 (z0 + Z.of_nat i) m) /\
    (x < b -> (colour_of_bin i <> Ink -> In (Shade (log10 x) (log10 (grid binning 0 (z0 + Z.of_nat i + 1))) (colour_of_bin i)) r) /\
      (a < x -> forall h, In h [16 / 100; 1 / 2; 84 / 100] -> In (Edge (log10 x) h (edge_text x) (colour_of_bin i) (Z.even (Z.of_nat i))) r))).
  { intros i x N. destruct (BI i x N) as (XE & XL). pose proof (colour_turn i) as CT. pose proof (even_turn i) as EV. assert (ZI : (z0 + Z.of_nat i - z0)%Z = Z.of_nat i) by lia.
    assert (PX : 0 < x) by (rewrite XE; now apply grid_pos). unfold mark_bin. fold a b. destruct (Rltb_spec x b) as [LT|GE].
    2: { exists []. split; [reflexivity|]. split; [contradiction|]. intros H. lra. }
    rewrite (NB (i + 1)%nat) by (specialize (XL LT); lia). replace (z0 + Z.of_nat (i + 1))%Z with (z0 + Z.of_nat i + 1)%Z by lia.
    exists ((if negb (i mod 3 =? 0)%nat then [Shade (log10 x) (log10 (grid binning 0 (z0 + Z.of_nat i + 1))) (colour_of_bin i)] else []) ++
      if Rltb a x then map (fun y => Edge (log10 x) y (edge_text x) (colour_of_bin i) (i mod 2 =? 0)%nat) [16 / 100; 1 / 2; 84 / 100] else []).
    split; [destruct (i mod 3 =? 0)%nat; cbn [negb bind]; reflexivity|]. unfold marks_bin. fold a b. rewrite ZI, <- XE. split.
    - intros m IM. split; [exact LT|]. exists (colour_of_bin i). split; [exact CT|]. apply in_app_iff in IM as [IM|IM].
      + left. destruct (i mod 3 =? 0)%nat eqn:K; [contradiction|]. destruct IM as [<-|[]]. split; [intros Q; apply colour_ink in Q; congruence|reflexivity].
      + right. destruct (Rltb_spec a x) as [H|H]; [|contradiction]. split; [exact H|]. apply in_map_iff in IM as (h & <- & IH). exists h, (edge_text x). rewrite EV. split; [reflexivity|]. split; [exact IH|]. now apply edge_two_figures.
    - intros _. split.
      + intros NI. apply in_app_iff. left. destruct (i mod 3 =? 0)%nat eqn:K; [apply colour_ink in K; contradiction|]. now left.
      + intros H h IH. apply in_app_iff. right. rewrite Rltb_true by exact H. rewrite <- EV. now apply (in_map (fun y => Edge (log10 x) y (edge_text x) (colour_of_bin i) (i mod 2 =? 0)%nat)). }
  assert (ME : exists ms, mapM (mark_bin xr bins) (combine (seq 0 (length bins)) bins) = Ok ms).
  { assert (Q : forall l, (forall i x, In (i, x) l -> nth_error bins i = Some x) -> exists ms, mapM (mark_bin xr bins) l = Ok ms).
    { induction l as [|[i x] l IH]; intros H; [now exists []|]. destruct (MK i x (H i x (or_introl eq_refl))) as (r & R & _). destruct (IH (fun i x J => H i x (or_intror J))) as (ms & M). exists (r :: ms). cbn [mapM]. rewrite R. cbn [bind]. rewrite M. reflexivity. }
    apply Q. intros i x J. now apply IC. }
  destruct ME as (ms & ME). exists z0, (concat ms). split; [unfold mark_bins; fold a b; rewrite E; cbn [bind]; rewrite ME; reflexivity|]. split; [split; assumption|]. split.
  - intros m J. apply (concat_in _ _ _ _ ME) in J as ([i x] & r & IX & R & J). apply IC in IX. destruct (MK i x IX) as (r' & R' & M & _). assert (r' = r) by congruence. subst r'. exists (z0 + Z.of_nat i)%Z. split; [lia|now apply M].
  - intros z c Z0 ZB TC. fold b in ZB. set (i := Z.to_nat (z - z0)). assert (ZE : z = (z0 + Z.of_nat i)%Z) by (unfold i; lia). assert (IL : (i < Datatypes.S n)%nat).
    { destruct (le_lt_dec (Datatypes.S n) i) as [H|H]; [|exact H]. exfalso. destruct (Nat.eq_dec i (Datatypes.S n)) as [Q|Q]; [rewrite Q in ZE; rewrite ZE in ZB; lra|]. assert (grid binning 0 (z0 + Z.of_nat (Datatypes.S n)) < grid binning 0 z) by (apply grid_le; [exact I|lia]). lra. }
    assert (N : nth_error bins i = Some (grid binning 0 z)) by (rewrite ZE; apply NB; lia). destruct (MK i _ N) as (r & R & _ & M). destruct (M ZB) as (M1 & M2). assert (CC : c = colour_of_bin i) by (eapply turn_unique; [exact TC|]; replace (z - z0)%Z with (Z.of_nat i) by lia; apply colour_turn). subst c.
    assert (IN : forall m, In m r -> In m (concat ms)) by (intros m J; apply (concat_in _ _ _ _ ME); exists (i, grid binning 0 z), r; split; [now apply IC|now split]).
    rewrite <- ZE in M1. replace (z - z0)%Z with (Z.of_nat i) by lia. split; [intros NI; apply IN, M1, NI|]. intros H h HH. exists (edge_text (grid binning 0 z)). apply IN, M2; assumption.
Qed.
Print Assumptions C107_bins.
(** With axis ranges given as a list and not scaled automatically the plot stops *)
Theorem C107_list_refuted : forall xr binning, mark_bins false xr (Some binning) = Err TypeError.
Proof. reflexivity. Qed.
Print Assumptions C107_list_refuted.
Example C107_hypotheses_met : In "root-2"%string real_binnings /\ fst (-3, 2) < snd (-3, 2).
Proof. split; [cbn; tauto|cbn; lra]. Qed.

(** ** Titles *)
(** the title stands above the diagram in the lines that its bars separate *)
Theorem C108_title : forall lines, lines <> [] -> Forall (fun l => ~ In (ch "|") l) lines -> join (L "|") lines <> [] -> title_lines (Some (join (L "|") lines)) = lines.
Proof.
  intros lines N F J. unfold title_lines. destruct (join (L "|") lines) as [|c t] eqn:E; [contradiction|]. rewrite <- E. now apply (split_chr_join (ch "|")).
Qed.
Print Assumptions C108_title.
(** the axes of the crater diagrams say which density they show: per bin of root 2, or the equivalent of it if some plot has other bins; those of chronology and rate name the reference diameter, if it is a whole number *)
Theorem C108_axes : forall p binnings,
  (x_title p = L "Age, Ga" <-> p = Chronology \/ p = Rate) /\
  (forall d, (forall b, In b binnings -> b = "root-2"%string) -> y_title Hartmann binnings d = L "Craters per $" ++ bytes [226; 136; 154]%nat ++ L "$2-bin, km$^{-2}$") /\
  (forall d b, In b binnings -> b <> "root-2"%string -> y_title Hartmann binnings d = L "Craters per $" ++ bytes [226; 136; 154]%nat ++ L "$2-bin (equivalent), km$^{-2}$") /\
  (forall z, (0 <= z)%Z -> exists num, integer_numeral num z /\ y_title Chronology binnings (IZR z) = L "Cumulative crater density N(>" ++ num ++ L " km), km$^{-2}$" /\
     y_title Rate binnings (IZR z) = L "Crater formation rate N(>" ++ num ++ L " km), km$^{-2}$ Ga$^{-1}$").
Proof.
  intros p binnings. split; [|split; [|split]].
  - destruct p; cbn; split; intros H; try discriminate; try (destruct H; discriminate); try reflexivity; tauto.
  - intros d H. unfold y_title. replace (existsb _ binnings) with false; [reflexivity|]. symmetry. apply Bool.not_true_iff_false. intros E. apply existsb_exists in E as (b & I & N). rewrite (H b I) in N. discriminate.
  - intros d b I N. unfold y_title. replace (existsb _ binnings) with true; [reflexivity|]. symmetry. apply existsb_exists. exists b. split; [exact I|]. destruct (String.eqb_spec b "root-2"); [contradiction|reflexivity].
  - intros z Z0. assert (E : fmt_f 0 (IZR z) = dec_str z).
    { unfold fmt_f. assert (0 <= IZR z) by (apply IZR_le; lia). unfold sign. rewrite Rltb_false by lra. rewrite Rabs_pos_eq by lra. unfold ten. cbn [Z.of_nat powerRZ]. rewrite Rmult_1_r.
      assert (RE : round_even (IZR z) = z). { unfold round_even. assert (F : Rfloor (IZR z) = z). { unfold Rfloor. destruct (archimed (IZR z)) as (A1 & A2). assert (IZR z < IZR (up (IZR z))) by lra. assert (IZR (up (IZR z)) <= IZR (z + 1)) by (rewrite plus_IZR; lra). apply lt_IZR in H0. apply le_IZR in H1. lia. } rewrite F. replace (IZR z - IZR z) with 0 by lra. now rewrite Rltb_true by lra. }
      rewrite RE. change (10 ^ 0)%Z with 1%Z. rewrite Z.div_1_r, app_nil_r. reflexivity. }
    exists (dec_str z). split; [|unfold y_title; rewrite E; split; reflexivity].
    destruct (dec_str_spec z Z0) as (A & B & C). split.
    + exists false, (dec_str z), []. split; [exact B|]. split; [exact A|]. split; [constructor|]. split; [cbn; now rewrite app_nil_r|]. rewrite app_nil_r, C. cbn. lra.
    + intros I. unfold all_digits in A. rewrite Forall_forall in A. apply A in I. discriminate.
Qed.
Print Assumptions C108_axes.
(** The reference diameter is written as a whole number even if it is not one: half a kilometre as none *)
Theorem C108_reference_refuted : y_title Chronology [] (1 / 2) = L "Cumulative crater density N(>0 km), km$^{-2}$".
Proof.
  unfold y_title, fmt_f, sign. rewrite Rltb_false by lra. rewrite Rabs_pos_eq by lra. unfold ten. cbn [Z.of_nat powerRZ]. rewrite Rmult_1_r.
  assert (F : Rfloor (1 / 2) = 0%Z). { unfold Rfloor. destruct (archimed (1 / 2)) as (A1 & A2). assert (0 < IZR (up (1 / 2)) < 2) by lra. assert (0 < up (1 / 2) < 2)%Z by (split; apply lt_IZR; lra). lia. }
  unfold round_even. rewrite F. rewrite Rltb_false by lra. rewrite Rltb_false by lra. reflexivity.
Qed.
Print Assumptions C108_reference_refuted.

(** ** The names of the functions *)
(** one line for each function in use, in the order epochs, equilibrium, production and chronology; the sequence diagram has no equilibrium function, and an age axis of densities at 1 km without epochs does not depend on the production function *)
Theorem C108_functions : forall legend v ep ef pf cf ref, In "f"%char legend ->
  exists text place right, function_legend legend v ep ef (Some pf) (Some cf) ref = Ok (Some (text, place, right)) /\
    text = join [nl] ((match ep with Some n => [L "Epochs: " ++ n] | None => [] end) ++
                      (match ef with Some n => if (match v with SequenceView => true | _ => false end) then [] else [L "EF: " ++ n] | None => [] end) ++
                      (if (match v with Diagram Chronology | Diagram Rate => true | _ => false end) && Reqb ref 1 && (match ep with None => true | _ => false end) then [] else [L "PF: " ++ pf]) ++
                      [L "CF: " ++ cf]) /\
    (v <> UncertaintyView -> place = (5 / 100, 5 / 100) /\ right = false) /\ (v = UncertaintyView -> place = (95 / 100, 5 / 100) /\ right = true).
Proof.
  intros legend v ep ef pf cf ref I. unfold function_legend. rewrite (proj2 (mem_in (ch "f") legend) I).
  assert (NJ : forall (a : str) l, l <> [] -> join [nl] (a :: l) = a ++ nl :: join [nl] l) by (intros a [|b l] H; [contradiction|reflexivity]).
  assert (NN : forall (A : Type) (a b : list A) x, a ++ b ++ [x] <> []) by (intros A [|? ?] [|? ?] x; discriminate).
  assert (E : function_text v ep ef (Some pf) (Some cf) ref = Ok (join [nl] ((match ep with Some n => [L "Epochs: " ++ n] | None => [] end) ++
                      (match ef with Some n => if (match v with SequenceView => true | _ => false end) then [] else [L "EF: " ++ n] | None => [] end) ++
                      (if (match v with Diagram Chronology | Diagram Rate => true | _ => false end) && Reqb ref 1 && (match ep with None => true | _ => false end) then [] else [L "PF: " ++ pf]) ++
                      [L "CF: " ++ cf]))).
  { unfold function_text. replace (match v with Diagram p => is_time p | _ => false end) with (match v with Diagram Chronology | Diagram Rate => true | _ => false end) by (destruct v as [[]| |]; reflexivity).
    destruct (match v with Diagram Chronology | Diagram Rate => true | _ => false end), (Reqb ref 1), ep as [e|], ef as [g|], v as [q| |]; cbn [andb orb negb bind app]; rewrite ?NJ by discriminate; cbn [join]; rewrite <- ?app_assoc; cbn [app]; rewrite <- ?app_assoc; reflexivity. }
  rewrite E. cbn [bind]. destruct v as [q| |]; eexists; eexists; eexists; (split; [reflexivity|]); (split; [reflexivity|]); split; intros H; try contradiction; try discriminate; split; reflexivity.
Qed.
Print Assumptions C108_functions.
(** without the letter no names are written *)
Theorem C108_no_functions : forall legend v ep ef pf cf ref, ~ In "f"%char legend -> function_legend legend v ep ef pf cf ref = Ok None.
Proof. intros legend v ep ef pf cf ref N. unfold function_legend. destruct (mem (ch "f") legend) eqn:E; [apply mem_in in E; contradiction|reflexivity]. Qed.
Print Assumptions C108_no_functions.
Example C108_hypotheses_met : [L "Mare Imbrium"; L "all units"] <> [] /\ Forall (fun l => ~ In (ch "|") l) [L "Mare Imbrium"; L "all units"] /\ join (L "|") [L "Mare Imbrium"; L "all units"] <> [] /\ In "f"%char (L "fanrcp").
Proof.
  split; [discriminate|]. split; [|split; [discriminate|now left]]. repeat constructor; intros Q; repeat (destruct Q as [Q|Q]; [discriminate Q|]); exact Q.
Qed.
