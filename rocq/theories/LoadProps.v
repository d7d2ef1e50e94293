(** C95-C96: functions read from their definitions.  [make_chronology] is the constructor Chronologyfn(source, identifier), [make_production]
    the constructor Productionfn(source, identifier, equilibrium); [make_system] what the program builds for the chosen chronology system. *)
From Coq Require Import String Ascii List ZArith Reals Lra Lia Bool.
From Verif Require Import Base NumModel NumLemmas InterpProofs BinModel ChronModel ProdModel ProdSpec ProdProofs ProdProofs2 ProdProofs3 ProdProps.
From Verif Require Import StrModel StrSpec StrProofs CliModel CliSpec CliProofs CliProofs2 CliProps FmtSpec FmtProofs.
From Verif Require Import TsModel TsSpec TsProofs5 TsProps IoModel IoSpec IoProofs SccModel SccProofs3 EpModel EpSpec EpProps FlProps LoadModel LoadSpec LoadProofs.
Import ListNotations.
Local Open Scope R_scope.

(** ** C95 *)
(** a chronology function has the coefficients of the first definition of its name, wherever the definitions come from: densities and rates
    are those of the formula; the third coefficient is not used *)
Theorem C95_chronology :
  forall fs src l n fields p0 p1 p2 p3 more,
    given fs (L "chronology") src l -> defines l (L "chronology") n fields -> numbers_entry fields (L "coefficients") (p0 :: p1 :: p2 :: p3 :: more) ->
    exists c, make_chronology fs src n = Ok c /\
      forall t, N1 c t = p0 * (exp (p1 * t) - 1) + p3 * t /\ phi c t = p1 * p0 * exp (p1 * t) + p3.
Proof.
  intros fs src l n fields p0 p1 p2 p3 more G D C. destruct kind_key as (K & _ & _).
  destruct (definition_found fs _ src l n fields K G D) as (d & E & F). destruct (field_numbers d fields _ _ F C) as (H1 & H2 & _).
  exists (mkChron p0 p1 p3). split; [|intros t; split; reflexivity]. unfold make_chronology. rewrite E. cbn [bind]. rewrite H1, H2. reflexivity.
Qed.
(** without coefficients, or with fewer than four, there is no function *)
Theorem C95_chronology_incomplete :
  forall fs src l n fields,
    given fs (L "chronology") src l -> defines l (L "chronology") n fields ->
    (no_entry fields (L "coefficients") -> make_chronology fs src n = Err AttributeError) /\
    (forall ps, numbers_entry fields (L "coefficients") ps -> (length ps < 4)%nat -> make_chronology fs src n = Err IndexError).
Proof.
  intros fs src l n fields G D. destruct kind_key as (K & _ & _).
  destruct (definition_found fs _ src l n fields K G D) as (d & E & F). unfold make_chronology. rewrite E. cbn [bind]. split.
  - intros N. destruct (field_none d fields _ F N) as (H1 & _). rewrite H1. reflexivity.
  - intros ps C Hl. destruct (field_numbers d fields _ _ F C) as (H1 & H2 & _). rewrite H1, H2. cbn [bind].
    destruct ps as [|a [|b [|c [|e r]]]]; cbn [length] in Hl; try reflexivity. lia.
Qed.
(** a name that no definition of the kind has is refused, whatever the definitions of other kinds are called *)
Theorem C95_unknown_name :
  forall fs src l n, n <> L "null" ->
    (given fs (L "chronology") src l -> (exists e, In e l /\ key_of e = L "chronology") -> undefined l (L "chronology") n -> make_chronology fs src n = Err ValueError) /\
    (forall eq, given fs (kind_of eq) src l -> (exists e, In e l /\ key_of e = kind_of eq) -> undefined l (kind_of eq) n -> make_production fs src n eq = Err ValueError).
Proof.
  intros fs src l n Nn. destruct kind_key as (K1 & K2 & K3). split.
  - intros G X U. unfold make_chronology. now rewrite (definition_unknown fs _ src l n K1 G X U Nn).
  - intros eq G X U. unfold make_production. rewrite (definition_unknown fs _ src l n (kind_of_key eq) G X U Nn). reflexivity.
Qed.

Definition range_of (fields : list entry) (lo hi : R) : Prop :=
  numbers_entry fields (L "range") [lo; hi] \/ no_entry fields (L "range") /\ lo = 1 / 10000 /\ hi = 2000.
Definition yrange_of (fields : list entry) (y : option (list R)) : Prop :=
  match y with Some ys => numbers_entry fields (L "yrange") ys | None => no_entry fields (L "yrange") end.
Lemma yrange_read d fields y : fields_of d fields -> yrange_of fields y ->
  (if has (TDict d) (L "yrange") then do! v <- sub (TDict d) (L "yrange"); do! l <- number_array v; Ok (Some l) else Ok None) = Ok y.
Proof.
  intros F Y. destruct y as [ys|].
  - destruct (field_numbers d fields _ _ F Y) as (H1 & _ & H3). rewrite H1. destruct (sub (TDict d) (L "yrange")) as [v|x]; [|discriminate]. cbn [bind] in *. now rewrite H3.
  - destruct (field_none d fields _ F Y) as (H1 & _). now rewrite H1.
Qed.
(** a production (or equilibrium) function given by coefficients is that polynomial in the logarithm of the diameter, on the range of the
    definition, or from 0.1 m to 2000 km; its first coefficient is its own a0 *)
Theorem C95_production :
  forall fs src l n fields eq a0 a lo hi y,
    given fs (kind_of eq) src l -> defines l (kind_of eq) n fields -> text_or_none fields (L "type") (L "polynomial") ->
    numbers_entry fields (L "coefficients") (a0 :: a) -> range_of fields lo hi -> yrange_of fields y ->
    exists p pf, make_production fs src n eq = Ok p /\ pf_fn p = Some pf /\ pf_range pf = Ok (lo, hi) /\ hartmann_axes p = Ok None /\
      (forall d, ProdModel.evaluate pf "cumulative"%string d None = Ok (Some (pow10 (series 0 (a0 :: a) (log10 d))))) /\
      (forall d x, x <> 0 -> ProdModel.evaluate pf "cumulative"%string d (Some x) = Ok (Some (pow10 (series 0 (x :: a) (log10 d))))).
Proof.
  intros fs src l n fields eq a0 a lo hi y G D T C Rg Y.
  destruct (definition_found fs _ src l n fields (kind_of_key eq) G D) as (d & E & F).
  destruct (field_numbers d fields _ _ F C) as (H1 & H2 & _).
  exists (mkPf (Some (Poly (a0 :: a) lo hi)) None y), (Poly (a0 :: a) lo hi). split; [|split; [reflexivity|split; [reflexivity|split; [reflexivity|]]]].
  - unfold make_production. rewrite E. cbn [bind].
    assert (Ty : (if has (TDict d) (L "type") then sub (TDict d) (L "type") else Ok (TStr (L "polynomial"))) = Ok (TStr (L "polynomial"))).
    { destruct T as [T|T]; [destruct (field_none d fields _ F T) as (X & _)|destruct (field_word d fields _ _ F T) as (X & X2)]; rewrite X; [reflexivity|exact X2]. }
    rewrite Ty. cbn [bind].
    assert (Ra : exists r, (if has (TDict d) (L "range") then do! v <- sub (TDict d) (L "range"); number_array v else Ok [1 / 10000; 2000]) = Ok r /\ r = [lo; hi]).
    { destruct Rg as [Rg|(Rg & -> & ->)]; [destruct (field_numbers d fields _ _ F Rg) as (X & _ & X3)|destruct (field_none d fields _ F Rg) as (X & _)]; rewrite X; [rewrite X3|]; eauto. }
    destruct Ra as (r & Ra & ->). rewrite Ra. cbn [bind]. rewrite (yrange_read d fields y F Y). cbn [bind].
    assert (I : is_text (L "polynomial") (TStr (L "polynomial")) = true) by reflexivity. rewrite I, H2. reflexivity.
  - assert (V : forall d x, pf_value (Poly (a0 :: a) lo hi) "cumulative"%string d x = Ok (Some (pow10 (series 0 (x :: a) (log10 d))))).
    { intros d0 x. unfold pf_value. cbn [String.eqb Ascii.eqb Bool.eqb]. unfold poly_C, poly_C10. cbn [tl]. rewrite peval_series, poly_peval. cbn [pow]. now rewrite Rmult_1_l. }
    split.
    + intros d0. unfold ProdModel.evaluate, effective_a0. cbn [pyindex]. cbn. apply V.
    + intros d0 x Hx. rewrite evaluate_value by exact Hx. apply V.
Qed.
Lemma pow_half_root n : Rpower 2 (n / 2) * sqrt 2 = Rpower 2 ((n + 1) / 2).
Proof. rewrite <- (Rpower_sqrt 2) by lra. rewrite <- Rpower_plus. f_equal. lra. Qed.
(** a function given as a table of counts in root-2 bins: the cumulative densities at the edges of the bins are the sums of the counts, scaled so
    that the edge at 1 km has 10^a0; it is defined from the middle of the first bin to that of the last, and the axes of a Hartmann plot show all bins *)
Theorem C95_table :
  forall fs src l n fields eq h w y,
    given fs (kind_of eq) src l -> defines l (kind_of eq) n fields -> text_entry fields (L "type") (L "tabular incremental root-2") ->
    numbers_entry fields (L "H") h -> text_entry fields (L "index_1km") w -> all_digits w -> w <> [] ->
    Forall (fun x => 0 < x) h -> (2 <= length h)%nat -> (digits_value w < Z.of_nat (length h))%Z ->
    no_entry fields (L "range") \/ (exists r, numbers_entry fields (L "range") r) -> yrange_of fields y ->
    exists p pf, make_production fs src n eq = Ok p /\ pf_fn p = Some pf /\ built pf /\
      (forall i x, (i < length h)%nat -> x <> 0 ->
         ProdModel.evaluate pf "cumulative"%string (root2_edge (digits_value w) i) (Some x) = Ok (Some (pow10 x * total_from i h / total_from (Z.to_nat (digits_value w)) h))) /\
      pf_range pf = Ok (root2_centre (digits_value w) 0, root2_centre (digits_value w) (length h - 1)) /\
      hartmann_axes p = match y with
                        | Some ys => Ok (Some (log10 (root2_edge (digits_value w) 0), log10 (root2_edge (digits_value w) (length h)), ys))
                        | None => Err AttributeError
                        end.
Proof.
  intros fs src l n fields eq h w y G D T C W AW NW P Hl Hi Rg Y.
  destruct (definition_found fs _ src l n fields (kind_of_key eq) G D) as (d & E & F).
  destruct (field_numbers d fields _ _ F C) as (_ & H2 & _). destruct (field_word d fields _ _ F T) as (T1 & T2). destruct (field_word d fields _ _ F W) as (_ & W2).
  assert (Pz : (0 <= digits_value w)%Z).
  { now apply digits_nonneg. }
  set (idx := Z.to_nat (digits_value w)). assert (Ei : digits_value w = Z.of_nat idx) by (unfold idx; now rewrite Z2Nat.id).
  assert (Li : (idx < length h)%nat) by lia.
  pose proof (make_tabular_ok h idx (conj P Li)) as Mk. rewrite Ei.
  exists (mkPf (Some (Tab (the_table h idx))) (Some (log10 (root2_edge (Z.of_nat idx) 0), log10 (root2_edge (Z.of_nat idx) (length h)))) y), (Tab (the_table h idx)).
  split; [|split; [reflexivity|split; [now apply (built_tab h idx)|split; [|split]]]].
  - unfold make_production. rewrite E. cbn [bind]. rewrite T1, T2. cbn [bind].
    assert (Ra : exists r, (if has (TDict d) (L "range") then do! v <- sub (TDict d) (L "range"); number_array v else Ok [1 / 10000; 2000]) = Ok r).
    { destruct Rg as [Rg|(r & Rg)]; [destruct (field_none d fields _ F Rg) as (X & _)|destruct (field_numbers d fields _ _ F Rg) as (X & _ & X3)]; rewrite X; [|rewrite X3]; eauto. }
    destruct Ra as (r & Ra). rewrite Ra. cbn [bind]. rewrite (yrange_read d fields y F Y). cbn [bind].
    assert (I1 : is_text (L "polynomial") (TStr (L "tabular incremental root-2")) = false) by reflexivity.
    assert (I2 : is_text (L "tabular incremental root-2") (TStr (L "tabular incremental root-2")) = true) by reflexivity.
    rewrite I1, I2, H2. cbn [bind]. rewrite W2. cbn [bind]. rewrite (int_of_digits w AW NW). cbn [bind]. rewrite Ei, Mk. cbn [bind].
    assert (Ld : length (tab_dmin (Z.of_nat idx) (length h)) = length h) by (unfold tab_dmin; now rewrite map_length, seq_length).
    assert (P0 : pyindex (tab_dmin (Z.of_nat idx) (length h)) 0 = Ok (root2_edge (Z.of_nat idx) 0)).
    { change 0%Z with (Z.of_nat 0). rewrite (pyindex_nat _ 0%nat 0) by lia. unfold tab_dmin. rewrite nth_map_seq by lia. reflexivity. }
    assert (P1 : pyindex (tab_dmin (Z.of_nat idx) (length h)) (-1) = Ok (root2_edge (Z.of_nat idx) (length h - 1))).
    { rewrite (pyindex_end _ 0) by (intros Z0; rewrite Z0 in Ld; cbn in Ld; lia). rewrite Ld. unfold tab_dmin. rewrite nth_map_seq by lia. reflexivity. }
    rewrite P0, P1. cbn [bind]. do 3 f_equal. f_equal. unfold root2_edge. rewrite pow_half_root. do 3 f_equal.
    rewrite <- plus_IZR. f_equal. lia.
  - intros i x I Hx. rewrite evaluate_value by exact Hx. unfold pf_value. cbn [String.eqb Ascii.eqb Bool.eqb]. rewrite (tab_C_node h idx (conj P Li) x i I). cbn [bind].
    unfold idx. rewrite ?Nat2Z.id. reflexivity.
  - unfold pf_range. assert (Ld : length (tb_dmean10 (the_table h idx)) = length h) by apply dmean_len.
    change 0%Z with (Z.of_nat 0). rewrite (pyindex_nat _ 0%nat 0) by lia. cbn [bind]. rewrite (pyindex_end _ 0) by (intros Z0; rewrite Z0 in Ld; cbn in Ld; lia). cbn [bind].
    rewrite Ld, !dmean_nth by lia. rewrite !pow10_log10 by (unfold root2_centre; apply exp_pos). reflexivity.
  - unfold hartmann_axes. cbn [pf_xrange pf_yrange]. now destruct y.
Qed.
(** a definition of a type the program does not know is accepted, but has no function *)
Theorem C95_unknown_type_refuted :
  forall fs src l n fields eq w lo hi y,
    given fs (kind_of eq) src l -> defines l (kind_of eq) n fields -> text_entry fields (L "type") w ->
    w <> L "polynomial" -> w <> L "tabular incremental root-2" -> range_of fields lo hi -> yrange_of fields y ->
    exists p, make_production fs src n eq = Ok p /\ pf_fn p = None.
Proof.
  intros fs src l n fields eq w lo hi y G D T N1 N2 Rg Y.
  destruct (definition_found fs _ src l n fields (kind_of_key eq) G D) as (d & E & F). destruct (field_word d fields _ _ F T) as (T1 & T2).
  exists (mkPf None None y). split; [|reflexivity]. unfold make_production. rewrite E. cbn [bind]. rewrite T1, T2. cbn [bind].
  assert (Ra : exists r, (if has (TDict d) (L "range") then do! v <- sub (TDict d) (L "range"); number_array v else Ok [1 / 10000; 2000]) = Ok r).
  { destruct Rg as [Rg|(Rg & _)]; [destruct (field_numbers d fields _ _ F Rg) as (X & _ & X3)|destruct (field_none d fields _ F Rg) as (X & _)]; rewrite X; [rewrite X3|]; eauto. }
  destruct Ra as (r & Ra). rewrite Ra. cbn [bind]. rewrite (yrange_read d fields y F Y). cbn [bind is_text].
  destruct (seqb_spec w (L "polynomial")); [contradiction|]. destruct (seqb_spec w (L "tabular incremental root-2")); [contradiction|]. reflexivity.
Qed.
(** without coefficients (or counts) there is no function *)
Theorem C95_production_incomplete :
  forall fs src l n fields eq lo hi y,
    given fs (kind_of eq) src l -> defines l (kind_of eq) n fields -> range_of fields lo hi -> yrange_of fields y ->
    (text_or_none fields (L "type") (L "polynomial") -> no_entry fields (L "coefficients") -> make_production fs src n eq = Err KeyError) /\
    (text_entry fields (L "type") (L "tabular incremental root-2") -> no_entry fields (L "H") -> make_production fs src n eq = Err KeyError).
Proof.
  intros fs src l n fields eq lo hi y G D Rg Y.
  destruct (definition_found fs _ src l n fields (kind_of_key eq) G D) as (d & E & F).
  assert (Ra : exists r, (if has (TDict d) (L "range") then do! v <- sub (TDict d) (L "range"); number_array v else Ok [1 / 10000; 2000]) = Ok r).
  { destruct Rg as [Rg|(Rg & _)]; [destruct (field_numbers d fields _ _ F Rg) as (X & _ & X3)|destruct (field_none d fields _ F Rg) as (X & _)]; rewrite X; [rewrite X3|]; eauto. }
  destruct Ra as (r & Ra). unfold make_production. rewrite E. cbn [bind]. split.
  - intros T N. assert (Ty : (if has (TDict d) (L "type") then sub (TDict d) (L "type") else Ok (TStr (L "polynomial"))) = Ok (TStr (L "polynomial"))).
    { destruct T as [T|T]; [destruct (field_none d fields _ F T) as (X & _)|destruct (field_word d fields _ _ F T) as (X & X2)]; rewrite X; [reflexivity|exact X2]. }
    rewrite Ty. cbn [bind]. rewrite Ra. cbn [bind]. rewrite (yrange_read d fields y F Y). cbn [bind].
    assert (I : is_text (L "polynomial") (TStr (L "polynomial")) = true) by reflexivity. rewrite I. unfold float_column.
    destruct (field_none d fields _ F N) as (_ & X). rewrite X. reflexivity.
  - intros T N. destruct (field_word d fields _ _ F T) as (T1 & T2). rewrite T1, T2. cbn [bind]. rewrite Ra. cbn [bind]. rewrite (yrange_read d fields y F Y). cbn [bind].
    assert (I1 : is_text (L "polynomial") (TStr (L "tabular incremental root-2")) = false) by reflexivity.
    assert (I2 : is_text (L "tabular incremental root-2") (TStr (L "tabular incremental root-2")) = true) by reflexivity.
    rewrite I1, I2. unfold float_column. destruct (field_none d fields _ F N) as (_ & X). rewrite X. reflexivity.
Qed.
Lemma pow10_div x y : pow10 x / pow10 y = pow10 (x - y).
Proof.
  unfold Rminus. rewrite pow10_plus. unfold Rdiv. f_equal. pose proof (pow10_pos y). apply (Rmult_eq_reg_l (pow10 y)); [|lra]. rewrite <- pow10_plus, Rinv_r by lra.
  rewrite Rplus_opp_r. now rewrite pow10_0.
Qed.
(** the curve of a chronology function that is plotted: a thousand ages, evenly spaced from 0 to 5 Ga, or evenly spaced in the logarithm from 1 a to
    5 Ga, with the density (or the rate) of each *)
Theorem C95_plotted_curve :
  forall c rate,
    (exists ts, cf_plotdata c rate true = map (fun t => (t, if rate then phi c t else N1 c t)) ts /\ length ts = 1000%nat /\
       forall i, (i < 1000)%nat -> nth i ts 0 = 5 * INR i / 999) /\
    (exists ts, cf_plotdata c rate false = map (fun t => (t, if rate then phi c t else N1 c t)) ts /\ length ts = 1000%nat /\
       nth 0 ts 0 = powerRZ 10 (-9) /\ nth 999 ts 0 = 5 /\ forall i, (S i < 1000)%nat -> nth (S i) ts 0 / nth i ts 0 = Rpower (5 / powerRZ 10 (-9)) (1 / 999)).
Proof.
  intros c rate. split.
  - exists (linspace 0 5 1000). split; [reflexivity|]. split; [apply linspace_length|]. intros i Hi. rewrite linspace_nth by exact Hi.
    replace (INR (1000 - 1)) with 999 by (rewrite INR_IZR_INZ; reflexivity). field.
  - exists (map pow10 (linspace (-9) (log10 5) 1000)). split; [reflexivity|]. split; [now rewrite map_length, linspace_length|].
    assert (P9 : pow10 (-9) = powerRZ 10 (-9)) by (unfold pow10; rewrite powerRZ_Rpower by lra; reflexivity).
    assert (N : forall i, (i < 1000)%nat -> nth i (map pow10 (linspace (-9) (log10 5) 1000)) 0 = pow10 (-9 + INR i * ((log10 5 - -9) / 999))).
    { intros i Hi. rewrite (nth_map_lt _ _ _ 0) by (now rewrite linspace_length). rewrite linspace_nth by exact Hi.
      replace (INR (1000 - 1)) with 999 by (rewrite INR_IZR_INZ; reflexivity). reflexivity. }
    split; [|split].
    + rewrite N by lia. cbn [INR]. rewrite Rmult_0_l, Rplus_0_r. exact P9.
    + rewrite N by lia. replace (INR 999) with 999 by (rewrite INR_IZR_INZ; reflexivity).
      replace (-9 + 999 * ((log10 5 - -9) / 999)) with (log10 5) by (field; lra). apply pow10_log10. lra.
    + intros i Hi. rewrite !N by lia. rewrite S_INR. rewrite <- P9.
      rewrite pow10_div.
      replace (-9 + (INR i + 1) * ((log10 5 - -9) / 999) - (-9 + INR i * ((log10 5 - -9) / 999))) with ((log10 5 - -9) / 999) by (field; lra).
      pose proof (pow10_pos (-9)). unfold Rpower. unfold Rdiv at 3. rewrite ln_mult, ln_Rinv; [|lra..|now apply Rinv_0_lt_compat].
      unfold pow10. rewrite ln_exp. f_equal. unfold log10. field. pose proof ln10_pos. lra.
Qed.

(** a file that has one definition of a kind only is refused, although the same text given directly is accepted *)
Definition one_chronology : str :=
  L "chronology={" ++ nl :: L " name='A'" ++ nl :: L " coefficients=[1,2,0,3]" ++ nl :: L "}" ++ [nl].
Theorem C95_single_definition_in_a_file_refuted :
  exists fs name, file_get fs name = Some one_chronology /\
    (exists c, make_chronology fs (SText one_chronology) (L "A") = Ok c /\ N1 c 1 = 1 * (exp (2 * 1) - 1) + 3 * 1) /\
    make_chronology fs (SText name) (L "A") = Err TypeError.
Proof.
  exists [(L "f", one_chronology)], (L "f"). split; [reflexivity|]. split.
  - assert (E : exists d, definition [(L "f", one_chronology)] (L "chronology") (SText one_chronology) (L "A") = Ok (TDict d) /\
      lookup d (L "coefficients") = Some (TList (map TStr (map L ["1"; "2"; "0"; "3"]%string)))).
    { eexists. split; vm_compute; reflexivity. }
    destruct E as (d & E & K). unfold make_chronology. rewrite E. cbn [bind]. unfold has, float_column, sub, dict_get. rewrite K. cbn [bind elements].
    assert (D : forall w z, all_digits w -> w <> [] -> digits_value w = z -> decimal w (IZR z)).
    { intros w z A N <-. exists [], [], false, w, false, [], [], 0%Z, []. split; [constructor|]. split; [constructor|]. split; [left; auto|].
      split; [exact A|]. split; [constructor|]. split; [now rewrite app_nil_r|]. split; [reflexivity|]. split; [left; auto|]. cbn [app length pow powerRZ]. rewrite !app_nil_r.
      split; [reflexivity|]. field. }
    rewrite (numbers_ok (map L ["1"; "2"; "0"; "3"]%string) [1; 2; 0; 3]).
    + eexists. split; [reflexivity|]. reflexivity.
    + repeat constructor; (apply D; [repeat constructor|discriminate|reflexivity]).
  - unfold make_chronology.
    assert (E : definition [(L "f", one_chronology)] (L "chronology") (SText (L "f")) (L "A") = Err TypeError) by (vm_compute; reflexivity).
    now rewrite E.
Qed.

(** ** C96 *)
Definition system_fields (fields : list entry) (cf pf body : str) : Prop :=
  text_entry fields (L "cf") cf /\ text_entry fields (L "pf") pf /\ text_entry fields (L "body") body.
Lemma same_abbreviates : forall a b, same_text a b -> abbreviates a b.
Proof.
  induction a as [|c a IH]; intros [|x b] H; try discriminate H; [constructor|]. unfold same_text in H. cbn [map] in H.
  apply abbr_take; [exact (f_equal (hd c) H)|apply IH; exact (f_equal (@tl ascii) H)].
Qed.
Lemma system_found f l n fields : read_from f l -> several l (L "chronology_system") -> defines l (L "chronology_system") n fields ->
  exists vs d, dict_get f (L "chronology_system") = Ok (TList vs) /\ find_definition vs n = Ok (TDict d) /\ fields_of d fields.
Proof.
  intros (OK & ts & M & H) S D. destruct (values_several l _ ts M S) as (v1 & v2 & vs & E).
  destruct (values_first l _ n fields ts OK M D) as (d & F & G). exists (values_of (L "chronology_system") l ts), d. split; [|split; [now apply find_first|exact G]].
  unfold dict_get. rewrite (holds_lookup f l ts _ H), E. reflexivity.
Qed.
(** a chronology system has the chronology and the production function that its definition names, and the area of its body; a body the
    program does not know leaves the area at 10^12 km2, more than any *)
Theorem C96_system :
  forall f l n fields cfn pfn body cf pf,
    read_from f l -> several l (L "chronology_system") -> defines l (L "chronology_system") n fields -> system_fields fields cfn pfn body ->
    make_chronology [] (SDict f) cfn = Ok cf -> make_production [] (SDict f) pfn false = Ok pf -> plain_text body ->
    (forall w, In w planets -> abbreviates body w -> same_text body w) ->
    exists s, make_system f n = Ok s /\ sy_cf s = cf /\ sy_pf s = pf /\
      (same_text body (L "Moon") -> sy_area s = 37900000) /\ (same_text body (L "Mars") -> sy_area s = 144000000) /\
      (same_text body (L "Mercury") -> sy_area s = 74800000) /\
      ((forall w, In w planets -> ~ abbreviates body w) -> sy_area s = 10 ^ 12).
Proof.
  intros f l n fields cfn pfn body cf pf RF S D (T1 & T2 & T3) Ec Ep PT B. destruct (system_found f l n fields RF S D) as (vs & d & E1 & E2 & F).
  pose proof (C33_decode planets body false true PT) as Q.
  assert (NN : Forall no_newline planets) by (unfold planets; cbn [map]; repeat (apply Forall_cons; [unfold no_newline; cbn; intuition discriminate|]); apply Forall_nil). specialize (Q NN).
  assert (ST : forall a b, same_text a b -> forall c, same_text a c -> map lower b = map lower c) by (unfold same_text; congruence).
  assert (R : exists a, (do! i <- decode_abbreviation planets body false true;
                match i with Some i => match nth_error surface_areas i with Some a => Ok a | None => Err IndexError end | None => Ok (10 ^ 12) end) = Ok a /\
      (same_text body (L "Moon") -> a = 37900000) /\ (same_text body (L "Mars") -> a = 144000000) /\ (same_text body (L "Mercury") -> a = 74800000) /\
      ((forall w, In w planets -> ~ abbreviates body w) -> a = 10 ^ 12)).
  { assert (AB : forall w, same_text body w -> abbreviates body w) by (intros w; apply same_abbreviates).
    destruct (decode_abbreviation planets body false true) as [[i|]|x] eqn:Ed.
    - destruct Q as (e & Ei & A & _). assert (Ie : In e planets) by (eapply nth_error_In, Ei). pose proof (B e Ie A) as Sa.
      destruct i as [|[|[|i]]]; [| | |destruct i; discriminate Ei]; injection Ei as <-; cbn [bind nth_error surface_areas]; eexists; (split; [reflexivity|]); repeat split; intros X;
        try reflexivity; try (exfalso; exact (X _ Ie A)); exfalso; pose proof (ST _ _ Sa _ X) as Y; vm_compute in Y; discriminate Y.
    - destruct Q as (_ & Q). cbn [bind]. eexists. split; [reflexivity|]. repeat split; auto; intros X; exfalso; [apply (Q 0%nat (L "Moon"))|apply (Q 1%nat (L "Mars"))|apply (Q 2%nat (L "Mercury"))]; auto.
    - exfalso. destruct Q as (_ & [(Q & _)|(_ & i & j & e & e' & Hij & Ei & A & Ej & A')]); [discriminate|].
      pose proof (B e (nth_error_In _ _ Ei) A) as Sa. pose proof (B e' (nth_error_In _ _ Ej) A') as Sb. unfold same_text in Sa, Sb. rewrite Sa in Sb.
      destruct i as [|[|[|i]]]; [| | |destruct i; discriminate Ei]; injection Ei as <-;
        (destruct j as [|[|[|j]]]; [| | |destruct j; discriminate Ej]); injection Ej as <-; try congruence; vm_compute in Sb; discriminate Sb. }
  destruct R as (a & Ea & Ra). exists (mkSystem cf pf a). split; [|auto].
  unfold make_system. rewrite E1. cbn [bind elements]. rewrite E2. cbn [bind].
  destruct (field_word d fields _ _ F T1) as (_ & X1). destruct (field_word d fields _ _ F T2) as (_ & X2). destruct (field_word d fields _ _ F T3) as (_ & X3).
  rewrite X1, X2, X3. cbn [bind name_text]. rewrite Ec. cbn [bind]. rewrite Ep. cbn [bind]. destruct (decode_abbreviation planets body false true) as [i|x]; [|discriminate Ea].
  cbn [bind] in *. rewrite Ea. reflexivity.
Qed.
(** with the functions: for polynomials, from the text of the definitions to the densities *)
Theorem C96_densities :
  forall f l n fields cfn pfn body cfields pfields p0 p1 p2 p3 more a0 a lo hi y,
    read_from f l -> several l (L "chronology_system") -> several l (L "chronology") -> several l (L "production") ->
    defines l (L "chronology_system") n fields -> system_fields fields cfn pfn body -> plain_text body ->
    (forall w, In w planets -> abbreviates body w -> same_text body w) ->
    defines l (L "chronology") cfn cfields -> numbers_entry cfields (L "coefficients") (p0 :: p1 :: p2 :: p3 :: more) ->
    defines l (L "production") pfn pfields -> text_or_none pfields (L "type") (L "polynomial") -> numbers_entry pfields (L "coefficients") (a0 :: a) ->
    range_of pfields lo hi -> yrange_of pfields y ->
    exists s pf, make_system f n = Ok s /\ pf_fn (sy_pf s) = Some pf /\
      (forall t, N1 (sy_cf s) t = p0 * (exp (p1 * t) - 1) + p3 * t) /\
      (forall d x, x <> 0 -> ProdModel.evaluate pf "cumulative"%string d (Some x) = Ok (Some (pow10 (series 0 (x :: a) (log10 d))))) /\
      pf_range pf = Ok (lo, hi).
Proof.
  intros f l n fields cfn pfn body cfields pfields p0 p1 p2 p3 more a0 a lo hi y RF S1 S2 S3 D1 SF PT B D2 C2 D3 T3 C3 R3 Y3.
  destruct (C95_chronology [] (SDict f) l cfn cfields p0 p1 p2 p3 more (given_dict [] _ f l RF S2) D2 C2) as (c & Ec & Nc).
  destruct (C95_production [] (SDict f) l pfn pfields false a0 a lo hi y (given_dict [] _ f l RF S3) D3 T3 C3 R3 Y3) as (p & pf & Ep & Fp & Rp & _ & _ & Vp).
  destruct (C96_system f l n fields cfn pfn body c p RF S1 D1 SF Ec Ep PT B) as (s & Es & E1 & E2 & _).
  exists s, pf. split; [exact Es|]. rewrite E1, E2. split; [exact Fp|]. split; [intros t; apply Nc|]. split; [exact Vp|exact Rp].
Qed.
(** a system that is not defined ends the program; one whose functions are not defined is refused *)
Theorem C96_unknown_system :
  forall f l n, read_from f l -> several l (L "chronology_system") -> undefined l (L "chronology_system") n -> make_system f n = Err SysExit.
Proof.
  intros f l n (OK & ts & M & H) S U. destruct (values_several l _ ts M S) as (v1 & v2 & vs & E). unfold make_system, dict_get.
  rewrite (holds_lookup f l ts _ H). pose proof (values_named l _ n ts OK M U) as V. rewrite E in *. cbn [collected bind elements].
  rewrite (find_none n _ V). reflexivity.
Qed.
Theorem C96_unknown_functions :
  forall f l n fields cfn pfn body, read_from f l -> several l (L "chronology_system") -> several l (L "chronology") -> several l (L "production") ->
    defines l (L "chronology_system") n fields -> system_fields fields cfn pfn body ->
    (undefined l (L "chronology") cfn -> cfn <> L "null" -> make_system f n = Err ValueError) /\
    (forall c, make_chronology [] (SDict f) cfn = Ok c -> undefined l (L "production") pfn -> pfn <> L "null" -> make_system f n = Err ValueError).
Proof.
  intros f l n fields cfn pfn body RF S1 S2 S3 D (T1 & T2 & T3). destruct (system_found f l n fields RF S1 D) as (vs & d & E1 & E2 & F).
  destruct (field_word d fields _ _ F T1) as (_ & X1). destruct (field_word d fields _ _ F T2) as (_ & X2).
  assert (EX : forall k, several l k -> exists e, In e l /\ key_of e = k).
  { intros k (l1 & e1 & l2 & e2 & l3 & -> & K & _). exists e1. split; [apply in_or_app; right; now left|exact K]. }
  unfold make_system. rewrite E1. cbn [bind elements]. rewrite E2. cbn [bind]. rewrite X1, X2. cbn [bind name_text]. split.
  - intros U Nn. destruct (C95_unknown_name [] (SDict f) l cfn Nn) as (Q & _). rewrite Q; auto. now apply given_dict.
  - intros c Ec U Nn. rewrite Ec. cbn [bind]. destruct (C95_unknown_name [] (SDict f) l pfn Nn) as (_ & Q). rewrite (Q false); auto. now apply given_dict.
Qed.
(** definitions of the user: added to the built-in ones they are found under new names, also from each other; under a name that is built in the
    built-in definition is used *)
Theorem C96_user_definitions :
  forall l1 l2 kind n fields,
    (defines l1 kind n fields -> defines (l1 ++ l2) kind n fields) /\
    (undefined l1 kind n -> defines l2 kind n fields -> defines (l1 ++ l2) kind n fields).
Proof.
  intros l1 l2 kind n fields. split.
  - intros (b & e & a & -> & H). exists b, e, (a ++ l2). split; [now rewrite <- app_assoc|exact H].
  - intros U (b & e & a & -> & K & N & B). exists (l1 ++ b), e, a. split; [now rewrite app_assoc|]. split; [exact K|]. split; [exact N|].
    intros e' I Ke. apply in_app_or in I as [I|I]; auto.
Qed.
(** the equilibrium function is sought among the equilibrium definitions; with an empty name there is none *)
Theorem C96_equilibrium :
  forall f l n fields a0 a lo hi y,
    make_equilibrium f [] = Ok None /\
    (n <> [] -> read_from f l -> several l (L "equilibrium") -> defines l (L "equilibrium") n fields ->
     text_or_none fields (L "type") (L "polynomial") -> numbers_entry fields (L "coefficients") (a0 :: a) -> range_of fields lo hi -> yrange_of fields y ->
     exists p pf, make_equilibrium f n = Ok (Some p) /\ pf_fn p = Some pf /\ pf_range pf = Ok (lo, hi) /\
       forall d, ProdModel.evaluate pf "cumulative"%string d None = Ok (Some (pow10 (series 0 (a0 :: a) (log10 d))))).
Proof.
  intros f l n fields a0 a lo hi y. split; [reflexivity|]. intros N RF S D T C Rg Y.
  destruct (C95_production [] (SDict f) l n fields true a0 a lo hi y (given_dict [] _ f l RF S) D T C Rg Y) as (p & pf & Ep & Fp & Rp & _ & V & _).
  exists p, pf. split; [|auto]. unfold make_equilibrium. destruct n; [contradiction|]. rewrite Ep. reflexivity.
Qed.
(** a body written as an abbreviation of several names ends the program instead of being taken as unknown *)
Theorem C96_ambiguous_body_refuted :
  forall f l n fields cfn pfn body cf pf,
    read_from f l -> several l (L "chronology_system") -> defines l (L "chronology_system") n fields -> system_fields fields cfn pfn body ->
    make_chronology [] (SDict f) cfn = Ok cf -> make_production [] (SDict f) pfn false = Ok pf -> plain_text body ->
    abbreviates body (L "Moon") -> abbreviates body (L "Mars") ->
    make_system f n = Err SysExit.
Proof.
  intros f l n fields cfn pfn body cf pf RF S D (T1 & T2 & T3) Ec Ep PT A1 A2. destruct (system_found f l n fields RF S D) as (vs & d & E1 & E2 & F).
  pose proof (C33_decode planets body false true PT) as Q.
  assert (NN : Forall no_newline planets) by (unfold planets; cbn [map]; repeat (apply Forall_cons; [unfold no_newline; cbn; intuition discriminate|]); apply Forall_nil). specialize (Q NN).
  unfold make_system. rewrite E1. cbn [bind elements]. rewrite E2. cbn [bind].
  destruct (field_word d fields _ _ F T1) as (_ & X1). destruct (field_word d fields _ _ F T2) as (_ & X2). destruct (field_word d fields _ _ F T3) as (_ & X3).
  rewrite X1, X2, X3. cbn [bind name_text]. rewrite Ec. cbn [bind]. rewrite Ep. cbn [bind]. destruct (decode_abbreviation planets body false true) as [[i|]|x].
  - exfalso. destruct Q as (e & _ & _ & Q). destruct (Q 0%nat (L "Moon") eq_refl A1) as (_ & Q1). destruct (Q 1%nat (L "Mars") eq_refl A2) as (_ & Q2).
    specialize (Q1 eq_refl). specialize (Q2 eq_refl). congruence.
  - exfalso. destruct Q as (_ & Q). exact (Q 0%nat (L "Moon") eq_refl A1).
  - destruct Q as (-> & _). reflexivity.
Qed.

(** two systems, one with polynomials, one with a table, meet the hypotheses *)
Definition text_field (k w : str) : entry := Entry (L " ") k false [] [] (InQuote sq w) [].
Definition list_field (k : str) (ws : list str) : entry := Entry (L " ") k false [] [] (Array true false (map (fun w => Item [] None w []) ws)) [].
Definition structure_entry (kind : str) (fields : list entry) : entry := Entry [nl] kind false [] [] (Struct [nl] fields []) [].
Definition system_a := [text_field (L "name") (L "A"); text_field (L "cf") (L "A"); text_field (L "pf") (L "P"); text_field (L "body") (L "mars")].
Definition system_b := [text_field (L "name") (L "B"); text_field (L "cf") (L "A"); text_field (L "pf") (L "T"); text_field (L "body") (L "Ceres")].
Definition chronology_a := [text_field (L "name") (L "A"); list_field (L "coefficients") (map L ["2"; "1"; "0"; "3"]%string)].
Definition chronology_b := [text_field (L "name") (L "A"); list_field (L "coefficients") (map L ["5"]%string)].
Definition production_p := [text_field (L "name") (L "P"); list_field (L "coefficients") (map L ["-3"; "-4"; "1"]%string); list_field (L "range") (map L ["1"; "300"]%string)].
Definition production_t := [text_field (L "name") (L "T"); text_field (L "type") (L "tabular incremental root-2"); list_field (L "H") (map L ["8"; "4"; "2"]%string);
  text_field (L "index_1km") (L "1"); list_field (L "yrange") (map L ["-7"; "3"]%string)].
Definition both : list entry :=
  [structure_entry (L "chronology_system") system_a; structure_entry (L "production") production_p; structure_entry (L "chronology") chronology_a;
   structure_entry (L "chronology_system") system_b; structure_entry (L "production") production_t; structure_entry (L "chronology") chronology_b].
Definition plain_value (w : str) : Prop := Forall (fun c => ~ In c (L " ,[]{}" ++ [nl; dq; sq])) w.
Lemma text_field_ok k w : key_ok k -> plain_value w \/ w = L "tabular incremental root-2" -> frame_ok (text_field k w) /\ flat_ok true (value_of (text_field k w)).
Proof.
  intros K P. split.
  - cbn [frame_ok text_field]. split; [repeat constructor|]. split; [exact K|]. split; [constructor|]. split; [constructor|]. split; [easy|constructor].
  - cbn [value_of text_field flat_ok]. split; [now right|].
    assert (Q : Forall (fun c => c <> nl /\ ~ In c (L "{}")) w).
    { destruct P as [P| ->].
      - eapply Forall_impl; [|exact P]. intros c H. split; [intros ->; apply H; cbn; auto 10|intros I; apply H; cbn in I |- *; intuition].
      - repeat (apply Forall_cons; [split; [discriminate|cbn; intuition discriminate]|]); apply Forall_nil. }
    rewrite Forall_forall in Q. split; [intros I; now destruct (Q nl I)|]. intros _. unfold without. apply Forall_forall. intros c I. now destruct (Q c I).
Qed.
Lemma list_field_ok k ws : key_ok k -> ws <> [] -> Forall (fun w => w <> [] /\ plain_value w) ws -> frame_ok (list_field k ws) /\ flat_ok true (value_of (list_field k ws)).
Proof.
  intros K N F. split.
  - cbn [frame_ok list_field]. split; [repeat constructor|]. split; [exact K|]. split; [constructor|]. split; [constructor|]. split; [easy|constructor].
  - cbn [value_of list_field flat_ok]. split; [destruct ws; [contradiction|discriminate]|]. split.
    + apply Forall_map. eapply Forall_impl; [|exact F]. intros w (Nw & P). cbn [item_ok]. split; [constructor|]. split; [constructor|]. split; [|split; [|split]].
      * unfold without. eapply Forall_impl; [|exact P]. intros c H I. apply H. cbn in I |- *. intuition.
      * destruct w as [|c w]; [contradiction|]. cbn [hd]. inversion P as [|? ? H _]; subst. intros ->. apply H. cbn. auto.
      * intros E. destruct (exists_last Nw) as (u & c & ->). rewrite last_last in E. subst c. apply Forall_app in P as (_ & P). inversion P as [|? ? H _]; subst. apply H. cbn. auto.
      * intros q u Q ->. inversion P as [|? ? H _]; subst. destruct Q as [-> | ->]; apply H; cbn; auto 10.
    + intros I. exfalso. cbn [value_text] in I. rewrite map_map in I.
      assert (NL : ~ In nl (join (L ",") ws)).
      { clear I N. induction F as [|w ws (_ & P) F IH]; [easy|]. assert (Nw : ~ In nl w) by (intros J; unfold plain_value in P; rewrite Forall_forall in P; apply (P nl J); cbn; auto 10).
        destruct ws as [|w2 ws]; [exact Nw|]. cbn [join]. rewrite !in_app_iff. intros [J|[J|J]]; [now apply Nw|cbn in J; intuition discriminate|now apply IH]. }
      assert (M : map (fun x : str => item_text (Item [] None x [])) ws = ws).
      { clear. induction ws as [|w ws IH]; [reflexivity|]. cbn [map]. f_equal; [cbn [item_text quoted app]; apply app_nil_r|exact IH]. }
      rewrite !in_app_iff in I. destruct I as [J|[J|[J|J]]]; [vm_compute in J; destruct J as [J|[]]; discriminate J|vm_compute in J; destruct J as [J|[]]; discriminate J| |vm_compute in J; destruct J as [J|[]]; discriminate J].
      apply NL. rewrite M in J. exact J.
Qed.
Lemma structure_entry_ok kind fields : key_ok kind -> fields <> [] -> NoDup (map key_of fields) -> Forall (fun e => frame_ok e /\ flat_ok true (value_of e)) fields ->
  entry_ok (structure_entry kind fields).
Proof.
  intros K N ND F. split.
  - cbn [frame_ok structure_entry]. split; [repeat constructor|]. split; [exact K|]. split; [constructor|]. split; [constructor|]. split; [easy|constructor].
  - cbn [value_of structure_entry]. split; [discriminate|]. split; [repeat constructor|]. split; [constructor|]. split; [exact N|]. split; [|exact F].
    intros l1 e l2 -> _ (e' & I & E). exfalso. rewrite map_app in ND. cbn [map] in ND. apply NoDup_remove_2 in ND. apply ND. apply in_or_app. left. rewrite <- E. now apply in_map.
Qed.
Ltac good_key := split; [discriminate|repeat (constructor; [left; reflexivity|]); constructor].
Ltac good_value := repeat (apply Forall_cons; [cbn; intuition discriminate|]); apply Forall_nil.
Ltac good_structure := apply structure_entry_ok;
  [good_key|discriminate|repeat (constructor; [cbn; intuition discriminate|]); constructor|
   repeat (apply Forall_cons; [first [apply text_field_ok; [good_key|first [right; reflexivity|left; good_value]]|
       apply list_field_ok; [good_key|discriminate|repeat (apply Forall_cons; [split; [discriminate|good_value]|]); apply Forall_nil]]|]); apply Forall_nil].
Lemma both_ok : well_written both [nl].
Proof.
  split; [discriminate|]. split; [unfold both; repeat (apply Forall_cons; [good_structure|]); apply Forall_nil|]. split; [|right; exists []; split; [reflexivity|constructor]].
  intros l1 e l2 E (a & b & l & A) _. exfalso. assert (I : In e both) by (rewrite E; apply in_or_app; right; now left).
  cbn in I. destruct I as [<- |[<- |[<- |[<- |[<- |[<- |[]]]]]]]; discriminate A.
Qed.
Lemma whole w z : all_digits w -> w <> [] -> digits_value w = z -> decimal w (IZR z).
Proof.
  intros A N <-. exists [], [], false, w, false, [], [], 0%Z, []. split; [constructor|]. split; [constructor|]. split; [left; auto|].
  split; [exact A|]. split; [constructor|]. split; [now rewrite app_nil_r|]. split; [reflexivity|]. split; [left; auto|]. cbn [app length pow powerRZ]. rewrite !app_nil_r.
  split; [reflexivity|]. field.
Qed.
Lemma negative w z : all_digits w -> w <> [] -> digits_value w = z -> decimal (L "-" ++ w) (- IZR z).
Proof.
  intros A N <-. exists [], (L "-"), true, w, false, [], [], 0%Z, []. split; [constructor|]. split; [constructor|]. split; [right; auto|].
  split; [exact A|]. split; [constructor|]. split; [now rewrite app_nil_r|]. split; [reflexivity|]. split; [left; auto|]. cbn [app length pow powerRZ]. rewrite !app_nil_r.
  split; [reflexivity|]. field.
Qed.
Lemma sole_of l1 e l2 : Forall (fun e' => key_of e' <> key_of e) (l1 ++ l2) -> sole (l1 ++ e :: l2) e.
Proof. intros H. exists l1, l2. auto. Qed.
Ltac differ := cbn [app]; repeat (apply Forall_cons; [discriminate|]); apply Forall_nil.
Ltac text_at l1 w l2 := match goal with |- text_entry _ ?k _ => exists (text_field k w); split; [apply (sole_of l1 (text_field k w) l2); differ|split; [reflexivity|right; exists sq; reflexivity]] end.
Ltac whole_numbers := repeat (apply Forall2_cons; [first [apply whole; [repeat constructor|discriminate|reflexivity]|apply (negative (L _)); [repeat constructor|discriminate|reflexivity]]|]); apply Forall2_nil.
Ltac named_as l2 := split; [eexists; eexists; reflexivity|match goal with |- text_entry _ _ ?w => text_at (@nil entry) w l2 end].
Lemma list_at l1 k ws l2 xs : Forall (fun e' => key_of e' <> k) (l1 ++ l2) -> Forall2 decimal ws xs -> numbers_entry (l1 ++ list_field k ws :: l2) k xs.
Proof.
  intros H F. exists ws. split; [|exact F]. exists (list_field k ws), true, false, (map (fun w => Item [] None w []) ws).
  split; [now apply sole_of|]. split; [reflexivity|]. split; [reflexivity|]. rewrite map_map. apply map_id.
Qed.
Lemma both_chronology : defines both (L "chronology") (L "A") chronology_a.
Proof.
  exists (firstn 2 both), (structure_entry (L "chronology") chronology_a), (skipn 3 both). split; [reflexivity|]. split; [reflexivity|].
  split; [named_as (tl chronology_a)|]. intros e' [<- |[<- |[]]] K; discriminate K.
Qed.
Lemma both_production : defines both (L "production") (L "P") production_p.
Proof.
  exists (firstn 1 both), (structure_entry (L "production") production_p), (skipn 2 both). split; [reflexivity|]. split; [reflexivity|].
  split; [named_as (tl production_p)|]. intros e' [<- |[]] K; discriminate K.
Qed.
Lemma both_table : defines both (L "production") (L "T") production_t.
Proof.
  exists (firstn 4 both), (structure_entry (L "production") production_t), (skipn 5 both). split; [reflexivity|]. split; [reflexivity|].
  split; [named_as (tl production_t)|]. intros e' [<- |[<- |[<- |[<- |[]]]]] K; try discriminate K.
  exists (L "P"), production_p. split; [named_as (tl production_p)|discriminate].
Qed.
Lemma both_given kind : given [] kind (SText (document both [nl])) both.
Proof. apply given_text; [unfold document; apply in_or_app; right; now left|exact both_ok]. Qed.
Lemma chronology_numbers : numbers_entry chronology_a (L "coefficients") [2; 1; 0; 3].
Proof. apply (list_at [text_field (L "name") (L "A")] _ _ []); [differ|whole_numbers]. Qed.
Lemma polynomial_numbers : numbers_entry production_p (L "coefficients") [-3; -4; 1] /\ range_of production_p 1 300.
Proof.
  split; [apply (list_at [text_field (L "name") (L "P")] _ _ [list_field (L "range") (map L ["1"; "300"]%string)]); [differ|]|].
  - apply Forall2_cons; [apply (negative (L "3") 3); [repeat constructor|discriminate|reflexivity]|].
    apply Forall2_cons; [apply (negative (L "4") 4); [repeat constructor|discriminate|reflexivity]|]. whole_numbers.
  - left. apply (list_at [text_field (L "name") (L "P"); list_field (L "coefficients") (map L ["-3"; "-4"; "1"]%string)] _ _ []); [differ|whole_numbers].
Qed.
Example C95_hypotheses_met :
  given [] (L "chronology") (SText (document both [nl])) both /\ defines both (L "chronology") (L "A") chronology_a /\
  numbers_entry chronology_a (L "coefficients") [2; 1; 0; 3] /\
  given [] (kind_of false) (SText (document both [nl])) both /\ defines both (kind_of false) (L "P") production_p /\ text_or_none production_p (L "type") (L "polynomial") /\
  numbers_entry production_p (L "coefficients") [-3; -4; 1] /\ range_of production_p 1 300 /\ yrange_of production_p None /\
  defines both (kind_of false) (L "T") production_t /\ text_entry production_t (L "type") (L "tabular incremental root-2") /\
  numbers_entry production_t (L "H") [8; 4; 2] /\ text_entry production_t (L "index_1km") (L "1") /\ yrange_of production_t (Some [-7; 3]) /\
  undefined both (L "production") (L "A") /\
  exists c, make_chronology [] (SText (document both [nl])) (L "A") = Ok c /\ N1 c 1 = 2 * (exp (1 * 1) - 1) + 3 * 1.
Proof.
  split; [apply both_given|]. split; [exact both_chronology|]. split; [exact chronology_numbers|]. split; [apply both_given|]. split; [exact both_production|].
  split; [left; unfold no_entry; differ|]. split; [apply polynomial_numbers|]. split; [apply polynomial_numbers|]. split; [cbn [yrange_of]; unfold no_entry; differ|].
  split; [exact both_table|]. split; [text_at [text_field (L "name") (L "T")] (L "tabular incremental root-2") (skipn 2 production_t)|].
  split; [apply (list_at (firstn 2 production_t) _ _ (skipn 3 production_t)); [differ|whole_numbers]|].
  split; [text_at (firstn 3 production_t) (L "1") (skipn 4 production_t)|].
  split; [cbn [yrange_of]; apply (list_at (firstn 4 production_t) _ _ []); [differ|]; apply Forall2_cons; [apply (negative (L "7") 7); [repeat constructor|discriminate|reflexivity]|whole_numbers]|].
  split.
  - intros e I K. cbn in I. destruct I as [<- |[<- |[<- |[<- |[<- |[<- |[]]]]]]]; try discriminate K;
      [exists (L "P"), production_p; split; [named_as (tl production_p)|discriminate]|exists (L "T"), production_t; split; [named_as (tl production_t)|discriminate]].
  - destruct (C95_chronology [] _ both (L "A") chronology_a 2 1 0 3 [] (both_given _) both_chronology chronology_numbers) as (c & E & N). exists c. split; [exact E|apply N].
Qed.
Example C96_hypotheses_met :
  exists f, read_from f both /\ several both (L "chronology_system") /\ several both (L "chronology") /\ several both (L "production") /\
    defines both (L "chronology_system") (L "A") system_a /\ system_fields system_a (L "A") (L "P") (L "mars") /\ plain_text (L "mars") /\
    (forall w, In w planets -> abbreviates (L "mars") w -> same_text (L "mars") w) /\
    exists s pf, make_system f (L "A") = Ok s /\ pf_fn (sy_pf s) = Some pf /\ sy_area s = 144000000 /\ N1 (sy_cf s) 1 = 2 * (exp (1 * 1) - 1) + 3 * 1.
Proof.
  destruct both_ok as (N & OK & RP & T). destruct (C30_reading both [nl] N OK RP T) as (f & ts & _ & M & H). exists f.
  assert (RF : read_from f both) by (split; [exact OK|]; exists ts; auto).
  assert (S1 : several both (L "chronology_system")) by (exists [], (nth 0 both (text_field [] [])), (firstn 2 (tl both)), (nth 3 both (text_field [] [])), (skipn 4 both); repeat split).
  assert (S2 : several both (L "chronology")) by (exists (firstn 2 both), (nth 2 both (text_field [] [])), (firstn 2 (skipn 3 both)), (nth 5 both (text_field [] [])), []; repeat split).
  assert (S3 : several both (L "production")) by (exists (firstn 1 both), (nth 1 both (text_field [] [])), (firstn 2 (skipn 2 both)), (nth 4 both (text_field [] [])), (skipn 5 both); repeat split).
  assert (D : defines both (L "chronology_system") (L "A") system_a).
  { exists [], (structure_entry (L "chronology_system") system_a), (tl both). split; [reflexivity|]. split; [reflexivity|]. split; [named_as (tl system_a)|intros e' []]. }
  assert (SF : system_fields system_a (L "A") (L "P") (L "mars")).
  { split; [text_at (firstn 1 system_a) (L "A") (skipn 2 system_a)|]. split; [text_at (firstn 2 system_a) (L "P") (skipn 3 system_a)|text_at (firstn 3 system_a) (L "mars") (@nil entry)]. }
  assert (PT : plain_text (L "mars")) by (unfold plain_text; repeat (apply Forall_cons; [cbn; intuition discriminate|]); apply Forall_nil).
  assert (B : forall w, In w planets -> abbreviates (L "mars") w -> same_text (L "mars") w).
  { assert (NN : forall w, In w planets -> no_newline w) by (intros w I; cbn in I; destruct I as [<- |[<- |[<- |[]]]]; unfold no_newline; cbn; intuition discriminate).
    intros w I A. apply (abbr_match_spec _ _ PT (NN w I)) in A. cbn in I. destruct I as [<- |[<- |[<- |[]]]]; [vm_compute in A; discriminate A|reflexivity|vm_compute in A; discriminate A]. }
  repeat (split; [assumption|]).
  destruct (C95_chronology [] (SDict f) both (L "A") chronology_a 2 1 0 3 [] (given_dict [] _ f both RF S2) both_chronology chronology_numbers) as (c & Ec & Nc).
  destruct polynomial_numbers as (P1 & P2).
  destruct (C95_production [] (SDict f) both (L "P") production_p false (-3) [-4; 1] 1 300 None (given_dict [] _ f both RF S3) both_production) as (p & pf & Ep & Fp & _).
  { left. unfold no_entry. differ. } { exact P1. } { exact P2. } { cbn [yrange_of]. unfold no_entry. differ. }
  destruct (C96_system f both (L "A") system_a (L "A") (L "P") (L "mars") c p RF S1 D SF Ec Ep PT B) as (s & Es & E1 & E2 & _ & Am & _).
  exists s, pf. split; [exact Es|]. rewrite E1, E2. split; [exact Fp|]. split; [apply Am; reflexivity|apply Nc].
Qed.

Print Assumptions C95_chronology.
Print Assumptions C95_chronology_incomplete.
Print Assumptions C95_unknown_name.
Print Assumptions C95_production.
Print Assumptions C95_table.
Print Assumptions C95_unknown_type_refuted.
Print Assumptions C95_production_incomplete.
Print Assumptions C95_plotted_curve.
Print Assumptions C95_single_definition_in_a_file_refuted.
Print Assumptions C96_system.
Print Assumptions C96_densities.
Print Assumptions C96_unknown_system.
Print Assumptions C96_unknown_functions.
Print Assumptions C96_user_definitions.
Print Assumptions C96_equilibrium.
Print Assumptions C96_ambiguous_body_refuted.
