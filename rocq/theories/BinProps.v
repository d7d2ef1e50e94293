(** Properties C01-C05: binning. *)
From Coq Require Import String List ZArith Reals Lra Permutation.
From Verif Require Import Base BinModel BinSpec BinProofs ApplyProofs.
Import ListNotations.
Local Open Scope R_scope.

(** The running example: four craters, one on a bin boundary, one of fraction 1/2. *)
Definition ex_craters : list (R * R) := [(1, 1); (2.3, 1/2); (3, 1); (1.7, 1)].
Lemma ex_craters_ok : ex_craters <> [] /\ Forall (fun c => 0 < fst c) ex_craters.
Proof. split; [discriminate|]. repeat constructor; cbn; lra. Qed.

(** C01: the boundaries reach from at or below the smallest diameter to above the largest. *)
Theorem C01_bins_cover_all_diameters :
  forall (binning : string) (d : list R) (offset : R),
    In binning real_binnings -> d <> [] -> Forall (fun x => 0 < x) d ->
    exists bins, generate_bins binning d offset true = Ok bins /\ (2 <= length bins)%nat /\
      forall x, In x d -> hd 0 bins <= x < last bins 0.
Proof. exact bins_cover. Qed.
Print Assumptions C01_bins_cover_all_diameters.

(** C02: the boundaries are consecutive points of a fixed grid, with the smallest
    diameter in the first bin (closed) and the last bin really needed (up to the code's
    eps of 10^0.001). *)
Theorem C02_bins_consecutive_on_fixed_grid :
  forall (binning : string) (d : list R) (offset : R),
    In binning real_binnings -> d <> [] -> Forall (fun x => 0 < x) d ->
    exists z0 n, generate_bins binning d offset true = Ok (grid_points binning offset z0 (S (S n))) /\
      (forall x, In x d -> grid binning offset z0 <= x < grid binning offset (z0 + Z.of_nat (S n))) /\
      (exists x, In x d /\ x <= grid binning offset (z0 + 1)) /\
      (exists x, In x d /\ grid binning offset (z0 + Z.of_nat n) < x * Rpower 10 (1 / 1000)).
Proof. exact generate_bins_grid. Qed.
Print Assumptions C02_bins_consecutive_on_fixed_grid.

Theorem C02_bins_strictly_ascending :
  forall binning d offset bins,
    In binning real_binnings -> d <> [] -> Forall (fun x => 0 < x) d ->
    generate_bins binning d offset true = Ok bins -> ascending bins.
Proof. exact ascending_bins. Qed.
Print Assumptions C02_bins_strictly_ascending.

(** bins of two different counts either coincide or do not overlap *)
Theorem C02_bins_of_two_counts_comparable :
  forall binning d d' offset bins bins' i j,
    In binning real_binnings -> d <> [] -> d' <> [] ->
    Forall (fun x => 0 < x) d -> Forall (fun x => 0 < x) d' ->
    generate_bins binning d offset true = Ok bins ->
    generate_bins binning d' offset true = Ok bins' ->
    (S i < length bins)%nat -> (S j < length bins')%nat ->
    nth i bins 0 < nth (S j) bins' 0 -> nth j bins' 0 < nth (S i) bins 0 ->
    nth i bins 0 = nth j bins' 0 /\ nth (S i) bins 0 = nth (S j) bins' 0.
Proof. exact bins_comparable. Qed.
Print Assumptions C02_bins_of_two_counts_comparable.

Example C01_C02_hypotheses_met :
  In "root-2"%string real_binnings /\ map fst ex_craters <> [] /\ Forall (fun x => 0 < x) (map fst ex_craters).
Proof. split; [cbn; tauto|]. split; [discriminate|]. repeat constructor; cbn; lra. Qed.

(** C03: each bin holds exactly its craters; nothing is lost or counted twice. *)
Theorem C03_binning_conserves_craters :
  forall craters binning offset bd ri,
    In binning real_binnings -> craters <> [] -> Forall (fun c => 0 < fst c) craters ->
    apply_binning craters binning offset = Ok (bd, ri) ->
    length (b_n bd) = length (b_dmin bd) /\ length (b_nevent bd) = length (b_dmin bd) /\
    length (b_dmax bd) = length (b_dmin bd) /\
    (forall i, (i < length (b_dmin bd))%nat ->
       nth i (b_n bd) 0 = fraction_between (nth i (b_dmin bd) 0) (nth i (b_dmax bd) 0) craters /\
       nth i (b_nevent bd) 0 = INR (number_between (nth i (b_dmin bd) 0) (nth i (b_dmax bd) 0) craters)) /\
    Rsum (b_n bd) = total_fraction craters /\
    Rsum (b_nevent bd) = INR (length craters).
Proof. exact binning_conserves. Qed.
Print Assumptions C03_binning_conserves_craters.

Theorem C03_each_crater_in_exactly_one_bin :
  forall craters binning offset bd ri,
    In binning real_binnings -> craters <> [] -> Forall (fun c => 0 < fst c) craters ->
    apply_binning craters binning offset = Ok (bd, ri) ->
    exists idx, ri = Some idx /\ length idx = length craters /\
    forall k, (k < length craters)%nat ->
      exists i, nth k idx O = S i /\ (i < length (b_dmin bd))%nat /\
        nth i (b_dmin bd) 0 <= fst (nth k craters (0, 0)) < nth i (b_dmax bd) 0 /\
        forall j, (j < length (b_dmin bd))%nat ->
          nth j (b_dmin bd) 0 <= fst (nth k craters (0, 0)) < nth j (b_dmax bd) 0 -> j = i.
Proof. exact one_bin_each. Qed.
Print Assumptions C03_each_crater_in_exactly_one_bin.

(** binning a non-empty count of positive diameters always succeeds; the bins, widths and
    geometric means are those of the grid *)
Theorem C03_binning_total_and_exact :
  forall craters b off,
    In b real_binnings -> craters <> [] -> Forall (fun c => 0 < fst c) craters ->
    exists z0 n bd ri, apply_binning craters b off = Ok (bd, Some ri) /\
      generate_bins b (map fst craters) off true = Ok (grid_points b off z0 (S (S n))) /\
      b_dmin bd = grid_points b off z0 (S n) /\
      b_dmax bd = grid_points b off (z0 + 1) (S n) /\
      (forall c, In c craters -> grid b off z0 <= fst c < grid b off (z0 + Z.of_nat (S n))) /\
      b_width bd = map (fun i => grid b off (z0 + 1 + Z.of_nat i) - grid b off (z0 + Z.of_nat i)) (seq 0 (S n)) /\
      b_dmean bd = map (fun i => sqrt (grid b off (z0 + 1 + Z.of_nat i) * grid b off (z0 + Z.of_nat i))) (seq 0 (S n)) /\
      b_n bd = map (fun i => fraction_between (grid b off (z0 + Z.of_nat i)) (grid b off (z0 + Z.of_nat i + 1)) craters) (seq 0 (S n)) /\
      b_nevent bd = map (fun i => INR (number_between (grid b off (z0 + Z.of_nat i)) (grid b off (z0 + Z.of_nat i + 1)) craters)) (seq 0 (S n)) /\
      b_ncum bd = map (fun i => fraction_from (grid b off (z0 + Z.of_nat i)) craters) (seq 0 (S n)) /\
      b_ncum_event bd = map (fun i => INR (number_from (grid b off (z0 + Z.of_nat i)) craters)) (seq 0 (S n)) /\
      ri = map (fun c => NumModel.digitize (grid_points b off z0 (S (S n))) (fst c)) craters.
Proof. exact apply_binning_spec. Qed.
Print Assumptions C03_binning_total_and_exact.

Example C03_hypotheses_met :
  exists bd ri, apply_binning ex_craters "pseudo-log" (1/2) = Ok (bd, ri) /\
    In "pseudo-log"%string real_binnings /\ ex_craters <> [] /\ Forall (fun c => 0 < fst c) ex_craters.
Proof.
  destruct ex_craters_ok as [H1 H2].
  destruct (apply_binning_spec ex_craters "pseudo-log" (1/2) ltac:(cbn; tauto) H1 H2)
    as (_ & _ & bd & ri & H & _). exists bd, (Some ri). repeat split; try assumption. cbn; tauto.
Qed.

(** C04: cumulative counts. *)
Theorem C04_cumulative_counts :
  forall craters binning offset bd ri,
    In binning real_binnings -> craters <> [] -> Forall (fun c => 0 < fst c) craters ->
    apply_binning craters binning offset = Ok (bd, ri) ->
    length (b_ncum bd) = length (b_dmin bd) /\ length (b_ncum_event bd) = length (b_dmin bd) /\
    (forall i, (i < length (b_dmin bd))%nat ->
       nth i (b_ncum bd) 0 = fraction_from (nth i (b_dmin bd) 0) craters /\
       nth i (b_ncum_event bd) 0 = INR (number_from (nth i (b_dmin bd) 0) craters)) /\
    nth 0 (b_ncum bd) 0 = total_fraction craters /\
    nth 0 (b_ncum_event bd) 0 = INR (length craters) /\
    (Forall (fun c => 0 <= snd c) craters ->
       forall i j, (i <= j < length (b_dmin bd))%nat -> nth j (b_ncum bd) 0 <= nth i (b_ncum bd) 0).
Proof. exact cumulative_counts. Qed.
Print Assumptions C04_cumulative_counts.

(** binning 'none': one point per crater, ascending, cumulative counts over the sorted list *)
Theorem C04_unbinned_counts :
  forall craters offset bd ri,
    apply_binning craters "none" offset = Ok (bd, ri) ->
    Permutation (combine (b_dmin bd) (b_n bd)) craters /\
    b_dmax bd = b_dmin bd /\ b_dmean bd = b_dmin bd /\
    (forall i j, (i <= j < length craters)%nat -> nth i (b_dmin bd) 0 <= nth j (b_dmin bd) 0) /\
    b_nevent bd = repeat 1 (length craters) /\ b_width bd = repeat 0 (length craters) /\
    (forall i, (i < length craters)%nat ->
       nth i (b_ncum bd) 0 = Rsum (skipn i (b_n bd)) /\
       nth i (b_ncum_event bd) 0 = INR (length craters - i)).
Proof. exact unbinned_counts. Qed.
Print Assumptions C04_unbinned_counts.

Example C04_unbinned_hypothesis_met : exists bd, apply_binning ex_craters "none" 0 = Ok (bd, None).
Proof. eexists. reflexivity. Qed.

(** C05: the order of the craters is irrelevant, for every binning name (also 'none' and
    invalid ones, which fail alike). *)
Theorem C05_binning_order_independent :
  forall craters craters' binning offset, Permutation craters craters' ->
    match apply_binning craters binning offset, apply_binning craters' binning offset with
    | Ok (x, _), Ok (y, _) => x = y
    | Err e, Err e' => e = e'
    | _, _ => False
    end.
Proof. exact apply_binning_perm. Qed.
Print Assumptions C05_binning_order_independent.

Example C05_hypothesis_met : Permutation ex_craters (rev ex_craters).
Proof. apply Permutation_rev. Qed.
