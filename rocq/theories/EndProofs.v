(** Lemmas on ages from files. *)
From Coq Require Import String Ascii List ZArith Reals Lra Lia Bool Permutation Sorted.
From Verif Require Import Base NumModel NumLemmas StrModel FmtModel TsModel IoModel TsSpec IoSpec IoProofs IoProofs2 CliModel SccModel EpModel BinModel BinSpec BinProofs ApplyProofs ChronModel ChronSpec ChronProofs InterpProofs BinProps CountModel CountSpec CountProofs CountProps CountProofs2 CountProofs3.
From Verif Require Import ProdModel ProdSpec ProdProofs ProdProofs2 ProdProofs3 ProdProps PdfModel PdfSpec AgeModel AgeSpec AgeProofs AgeProps LoadModel LoadSpec LoadProofs LoadProps OverModel EndModel EndSpec.
Import ListNotations.
Local Open Scope R_scope.

(** ** the fit of a polynomial *)
Lemma misfit_quadratic (model : R -> R -> R) (f s : R -> R) d : (forall x a, In x d -> log10 (model x a) = a + s x) ->
  exists K, forall a, log_misfit model (map f d) d (map f d) a = Rsum (map f d) * a ^ 2 - 2 * Rsum (map (fun x => f x * (log10 (f x) - s x)) d) * a + K.
Proof.
  induction d as [|x d IH]; intros H.
  - exists 0. intros a. cbn [map log_misfit Rsum]. ring.
  - destruct IH as (K & E); [intros y a Hy; apply H; now right|]. exists (K + f x * (s x - log10 (f x)) ^ 2). intros a. cbn [map log_misfit Rsum]. rewrite E, H by now left. ring.
Qed.
Lemma quadratic_minimum W Z K a : 0 < W -> (forall b, W * a ^ 2 - 2 * Z * a + K <= W * b ^ 2 - 2 * Z * b + K) -> a = Z / W.
Proof.
  intros P H. specialize (H (Z / W)). assert (E : W * a ^ 2 - 2 * Z * a + K - (W * (Z / W) ^ 2 - 2 * Z * (Z / W) + K) = W * (a - Z / W) ^ 2) by (field; lra).
  assert (Q : (a - Z / W) ^ 2 <= 0). { apply (Rmult_le_reg_l W); [exact P|]. rewrite Rmult_0_r. lra. }
  assert (N : a - Z / W = 0); [|lra]. destruct (Req_dec (a - Z / W) 0) as [N|N]; [exact N|]. exfalso. assert (G : 0 < (a - Z / W) ^ 2) by (destruct (Rdichotomy _ _ N); nra). lra.
Qed.
Lemma Rsum_pos l : l <> [] -> Forall (fun x => 0 < x) l -> 0 < Rsum l.
Proof.
  induction l as [|x l IH]; intros N F; [contradiction|]. inversion F as [|? ? F1 F2]; subst. cbn [Rsum]. destruct l as [|y l]; [cbn [Rsum]; lra|].
  assert (0 < Rsum (y :: l)) by (apply IH; [discriminate|exact F2]). lra.
Qed.
Lemma poly_value a0 a lo hi x c : pf_value (Poly (a0 :: a) lo hi) "cumulative"%string x c = Ok (Some (pow10 (series 0 (c :: a) (log10 x)))).
Proof. unfold pf_value. cbn [String.eqb Ascii.eqb Bool.eqb]. unfold poly_C, poly_C10. cbn [tl]. rewrite peval_series, poly_peval. cbn [pow]. now rewrite Rmult_1_l. Qed.
Lemma best_fit_poly a0 a lo hi f d best : d <> [] -> (forall x, In x d -> 0 < f x) ->
  best_fit (Poly (a0 :: a) lo hi) "cumulative" (map f d) d (map f d) best ->
  best = weighted_mean f (fun x => log10 (f x) - series 1 a (log10 x)) d.
Proof.
  intros NE P B. set (model := fun x c => pow10 (series 0 (c :: a) (log10 x))).
  assert (M : forall x c, In x d -> log10 (model x c) = c + series 1 a (log10 x)) by (intros x c _; unfold model; rewrite log10_pow10; cbn [series pow]; ring).
  destruct (misfit_quadratic model f (fun x => series 1 a (log10 x)) d M) as (K & E).
  unfold best_fit in B. specialize (B model). assert (Mi : minimises (log_misfit model (map f d) d (map f d)) best).
  { apply B. intros x c _. split; [apply poly_value|apply pow10_pos]. }
  unfold weighted_mean. apply (quadratic_minimum _ _ K).
  - apply Rsum_pos; [intros Q; apply map_eq_nil in Q; contradiction|]. rewrite Forall_map, Forall_forall. exact P.
  - intros b. rewrite <- !E. apply Mi.
Qed.

(** ** what was read *)
Lemma chronology_read fs src l n fields p0 p1 p2 p3 more :
  given fs (L "chronology") src l -> defines l (L "chronology") n fields -> numbers_entry fields (L "coefficients") (p0 :: p1 :: p2 :: p3 :: more) ->
  make_chronology fs src n = Ok (mkChron p0 p1 p3).
Proof.
  intros G D C. destruct kind_key as (K & _ & _).
  destruct (definition_found fs _ src l n fields K G D) as (d & E & F). destruct (field_numbers d fields _ _ F C) as (H1 & H2 & _).
  unfold make_chronology. rewrite E. cbn [bind]. rewrite H1, H2. reflexivity.
Qed.
Lemma production_read fs src l n fields eq a0 a lo hi y :
  given fs (kind_of eq) src l -> defines l (kind_of eq) n fields -> text_or_none fields (L "type") (L "polynomial") ->
  numbers_entry fields (L "coefficients") (a0 :: a) -> range_of fields lo hi -> yrange_of fields y ->
  make_production fs src n eq = Ok (mkPf (Some (Poly (a0 :: a) lo hi)) None y).
Proof.
  intros G D T C Rg Y.
  destruct (definition_found fs _ src l n fields (kind_of_key eq) G D) as (d & E & F).
  destruct (field_numbers d fields _ _ F C) as (H1 & H2 & _). unfold make_production. rewrite E. cbn [bind].
  assert (Ty : (if has (TDict d) (L "type") then sub (TDict d) (L "type") else Ok (TStr (L "polynomial"))) = Ok (TStr (L "polynomial"))).
  { destruct T as [T|T]; [destruct (field_none d fields _ F T) as (X & _)|destruct (field_word d fields _ _ F T) as (X & X2)]; rewrite X; [reflexivity|exact X2]. }
  rewrite Ty. cbn [bind].
  assert (Ra : exists r, (if has (TDict d) (L "range") then do! v <- sub (TDict d) (L "range"); number_array v else Ok [1 / 10000; 2000]) = Ok r /\ r = [lo; hi]).
  { destruct Rg as [Rg|(Rg & -> & ->)]; [destruct (field_numbers d fields _ _ F Rg) as (X & _ & X3)|destruct (field_none d fields _ F Rg) as (X & _)]; rewrite X; [rewrite X3|]; eauto. }
  destruct Ra as (r & Ra & ->). rewrite Ra. cbn [bind]. rewrite (yrange_read d fields y F Y). cbn [bind].
  assert (I : is_text (L "polynomial") (TStr (L "polynomial")) = true) by reflexivity. rewrite I, H2. reflexivity.
Qed.

(** ** the order of craters *)
Lemma fraction_from_perm lo l m : Permutation l m -> fraction_from lo l = fraction_from lo m.
Proof. induction 1 as [|(d, f) l m P IH|(d, f) (e, g) l|l m k P1 I1 P2 I2]; cbn [fraction_from]; lra. Qed.
Lemma number_from_perm lo l m : Permutation l m -> number_from lo l = number_from lo m.
Proof. induction 1 as [|(d, f) l m P IH|(d, f) (e, g) l|l m k P1 I1 P2 I2]; cbn [number_from]; lia. Qed.
Lemma rev_total x y : pair_leb y x = false -> pair_leb x y = true.
Proof. intros H. now apply pair_leb_total. Qed.
Lemma sorted_same l m : Permutation l m -> sort (fun p q => pair_leb q p) l = sort (fun p q => pair_leb q p) m.
Proof.
  apply sort_perm_eq; [intros x y; apply rev_total|intros x y z A B; exact (pair_leb_trans _ _ _ B A)|].
  intros x y A B. now apply pair_leb_antisym.
Qed.

(** ** the age does not depend on what the count was used for before *)
Lemma age_history erf cfit I1 pf cf ref craters area h per b range m : (forall b' off, In (CApply b' off) h -> off = 0) ->
  calculate_age erf cfit I1 pf cf ref (after_calls (fresh craters area) h) per b range m = calculate_age erf cfit I1 pf cf ref (fresh craters area) per b range m.
Proof.
  intros H. destruct (C06_calls_never_change_the_craters (fresh craters area) h) as (E1 & E2 & _).
  unfold calculate_age. destruct m; cbv zeta; rewrite ?(C06_getplotdata_history_independent craters area h _ _ _ _ _ _ H), ?E1, ?E2; reflexivity.
Qed.

(** ** the bins *)
Lemma grid_mono' b z z' : In b real_binnings -> (z <= z')%Z -> grid b 0 z <= grid b 0 z'.
Proof.
  intros I H. assert (G : forall n, grid b 0 z <= grid b 0 (z + Z.of_nat n)).
  { induction n as [|n IH]; [rewrite Z.add_0_r; lra|]. pose proof (grid_step b 0 (z + Z.of_nat n) I) as Q. replace (z + Z.of_nat (Datatypes.S n))%Z with (z + Z.of_nat n + 1)%Z by lia. lra. }
  specialize (G (Z.to_nat (z' - z))). rewrite Z2Nat.id in G by lia. now replace (z + (z' - z))%Z with z' in G by lia.
Qed.
Lemma grid_lt_inv b z z' : In b real_binnings -> grid b 0 z < grid b 0 z' -> (z < z')%Z.
Proof. intros I H. destruct (Z_lt_le_dec z z') as [Q|Q]; [exact Q|]. pose proof (grid_mono' b z' z I Q). lra. Qed.
Lemma grid_inj b z z' : In b real_binnings -> grid b 0 z = grid b 0 z' -> z = z'.
Proof.
  intros I H. destruct (Z.lt_trichotomy z z') as [Q|[Q|Q]]; [|exact Q|].
  - pose proof (grid_step b 0 z I). pose proof (grid_mono' b (z + 1) z' I ltac:(lia)). lra.
  - pose proof (grid_step b 0 z' I). pose proof (grid_mono' b (z' + 1) z I ltac:(lia)). lra.
Qed.
Lemma in_grid_points b z n x : In x (grid_points b 0 z n) <-> exists k, (z <= k < z + Z.of_nat n)%Z /\ x = grid b 0 k.
Proof.
  unfold grid_points. rewrite in_map_iff. split.
  - intros (i & <- & I). apply in_seq in I. exists (z + Z.of_nat i)%Z. split; [lia|reflexivity].
  - intros (k & K & ->). exists (Z.to_nat (k - z)). rewrite Z2Nat.id by lia. split; [f_equal; lia|apply in_seq; lia].
Qed.
Lemma combine_grid b z n : combine (grid_points b 0 z n) (grid_points b 0 (z + 1) n) = map (fun i => (grid b 0 (z + Z.of_nat i), grid b 0 (z + 1 + Z.of_nat i))) (seq 0 n).
Proof. unfold grid_points. generalize (seq 0 n). induction l as [|i l IH]; [reflexivity|]. cbn [map combine]. now rewrite IH. Qed.
Lemma fraction_between_nonneg lo hi cs : Forall (fun c => 0 < snd c) cs -> 0 <= fraction_between lo hi cs.
Proof. induction 1 as [|(d, f) cs H F IH]; cbn [fraction_between]; [lra|]. cbn in H. destruct (Rle_dec lo d); [destruct (Rlt_dec d hi)|]; lra. Qed.
Lemma fraction_between_pos lo hi cs : Forall (fun c => 0 < snd c) cs -> (0 < fraction_between lo hi cs <-> exists c, In c cs /\ lo <= fst c < hi).
Proof.
  induction 1 as [|(d, f) cs H F IH]; cbn [fraction_between]; [split; [lra|intros (c & [] & _)]|]. cbn in H. pose proof (fraction_between_nonneg lo hi cs F) as NN. split.
  - intros P. destruct (Rle_dec lo d) as [A|A]; [destruct (Rlt_dec d hi) as [B|B]|]; [exists (d, f); split; [now left|cbn; lra]| |];
      (destruct (proj1 IH) as (c & I & C); [lra|exists c; split; [now right|exact C]]).
  - intros (c & [<-|I] & C).
    + cbn in C. destruct (Rle_dec lo d); [destruct (Rlt_dec d hi)|]; lra.
    + assert (0 < fraction_between lo hi cs) by (apply IH; eauto). destruct (Rle_dec lo d); [destruct (Rlt_dec d hi)|]; lra.
Qed.
Lemma number_between_pos lo hi cs c : In c cs -> lo <= fst c < hi -> (0 < number_between lo hi cs)%nat.
Proof.
  induction cs as [|(d, f) cs IH]; [intros []|]. intros [I|I] H.
  - subst c. cbn in *. destruct (Rle_dec lo d); [destruct (Rlt_dec d hi)|]; try lra. lia.
  - cbn [number_between]. specialize (IH I H). lia.
Qed.
Lemma number_from_below lo lo' cs : lo <= lo' -> (forall c, In c cs -> lo' <= fst c) -> number_from lo cs = number_from lo' cs.
Proof.
  intros A. induction cs as [|(d, f) cs IH]; intros H; [reflexivity|]. cbn [number_from]. rewrite IH by (intros c I; apply H; now right).
  specialize (H (d, f) (or_introl eq_refl)). cbn in H. destruct (Rle_dec lo d), (Rle_dec lo' d); try lra; reflexivity.
Qed.
Lemma sorted_filter {A} (P : A -> A -> Prop) f l : StronglySorted P l -> StronglySorted P (filter f l).
Proof.
  induction 1 as [|x l H IH F]; [constructor|]. cbn [filter]. destruct (f x); [|exact IH]. constructor; [exact IH|]. rewrite Forall_forall in *. intros y Hy. apply filter_In in Hy. now apply F.
Qed.
Lemma sorted_map_fst (f : nat -> R * R) a n : (forall i j, (i < j)%nat -> fst (f i) < fst (f j)) -> StronglySorted (fun p q : R * R => fst p < fst q) (map f (seq a n)).
Proof.
  intros H. revert a. induction n as [|n IH]; intros a; [constructor|]. cbn [seq map]. constructor; [apply IH|]. rewrite Forall_map, Forall_forall. intros i I. apply in_seq in I. apply H. lia.
Qed.
Lemma sorted_fst (l : list (R * R)) : StronglySorted (fun p q => fst p < fst q) l -> StronglySorted Rlt (map fst l).
Proof. induction 1 as [|x l H IH F]; [constructor|]. cbn [map]. constructor; [exact IH|]. rewrite Forall_map. exact F. Qed.
Lemma used_fitted b craters z0 n lo hi : In b real_binnings -> Forall (fun c => 0 < snd c) craters ->
  (forall c, In c craters -> grid b 0 z0 <= fst c < grid b 0 (z0 + Z.of_nat (Datatypes.S n))) ->
  fitted_at b lo hi craters (map fst (bins_used craters lo hi (grid_points b 0 z0 (Datatypes.S n)) (grid_points b 0 (z0 + 1) (Datatypes.S n)))).
Proof.
  intros I F C. unfold bins_used, populated_bins. rewrite combine_grid. split.
  - apply sorted_fst, sorted_filter, sorted_filter, sorted_map_fst. intros i j H. cbn [fst]. pose proof (grid_step b 0 (z0 + Z.of_nat i) I). pose proof (grid_mono' b (z0 + Z.of_nat i + 1) (z0 + Z.of_nat j) I ltac:(lia)). lra.
  - intros x. rewrite in_map_iff. split.
    + intros ((u, v) & E & H). cbn in E. subst u. apply filter_In in H. destruct H as (H & H2). apply filter_In in H. destruct H as (H & H1). apply in_map_iff in H. destruct H as (i & E & _). injection E as <- <-. cbn [fst snd] in *.
      exists (z0 + Z.of_nat i)%Z. split; [reflexivity|]. replace (z0 + 1 + Z.of_nat i)%Z with (z0 + Z.of_nat i + 1)%Z in * by lia.
      destruct (Rlt_dec 0 _) as [P|] in H1; [|discriminate]. destruct (Rle_dec lo _) as [A|] in H2; [|discriminate]. destruct (Rle_dec _ hi) as [B|] in H2; [|discriminate].
      split; [exact A|]. split; [exact B|]. now apply fraction_between_pos in P.
    + intros (z & -> & A & B & c & Ic & Cc). specialize (C c Ic). assert (Z1 : (z0 < z + 1)%Z) by (apply (grid_lt_inv b); [exact I|lra]). assert (Z2 : (z < z0 + Z.of_nat (Datatypes.S n))%Z) by (apply (grid_lt_inv b); [exact I|lra]).
      exists (grid b 0 z, grid b 0 (z + 1)). split; [reflexivity|]. apply filter_In. split; [apply filter_In; split|].
      * apply in_map_iff. exists (Z.to_nat (z - z0)). rewrite Z2Nat.id by lia. split; [f_equal; f_equal; lia|apply in_seq; lia].
      * cbn [fst snd]. destruct (Rlt_dec 0 _) as [P|P]; [reflexivity|]. exfalso. apply P, fraction_between_pos; eauto.
      * cbn [fst snd]. destruct (Rle_dec lo _); [|lra]. destruct (Rle_dec _ hi); [reflexivity|lra].
Qed.
Lemma fitted_unique b lo hi craters d d' : fitted_at b lo hi craters d -> fitted_at b lo hi craters d' -> d = d'.
Proof.
  intros (S1 & M1) (S2 & M2). assert (M : forall x, In x d <-> In x d') by (intros x; rewrite M1, M2; reflexivity). clear M1 M2. revert d' S2 M. induction S1 as [|x d S1 IH F]; intros d' S2 M.
  - destruct d' as [|y d']; [reflexivity|]. exfalso. apply (M y). now left.
  - destruct S2 as [|y d' S2 G]; [exfalso; apply (M x); now left|]. rewrite Forall_forall in F, G.
    assert (E : x = y). { destruct (proj1 (M x) (or_introl eq_refl)) as [E|E]; [now symmetry|]. destruct (proj2 (M y) (or_introl eq_refl)) as [E'|E']; [exact E'|]. apply G in E. apply F in E'. lra. }
    subst y. f_equal. apply IH; [exact S2|]. intros z. split; intros Hz.
    + destruct (proj1 (M z) (or_intror Hz)) as [E|E]; [|exact E]. subst z. apply F in Hz. lra.
    + destruct (proj2 (M z) (or_intror Hz)) as [E|E]; [|exact E]. subst z. apply G in Hz. lra.
Qed.
