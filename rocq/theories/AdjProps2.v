(** Single trials, trials one after the other, and what a significance says. *)
From Coq Require Import String Ascii List ZArith Reals Bool Permutation Sorted Lia Lra.
From Verif Require Import Base NumModel NumLemmas StrModel StrProofs RaModel RaSpec RaProofs RaProofs2 RaProofs3 RaProofs4 RaProps AdjModel AdjSpec AdjProofs AdjProps.
Import ListNotations.
Local Open Scope R_scope.

(** * C121 *)
Section C121.
Context {Point Shape : Type}.
Variables (lonlat : Point -> R * R) (voronoi : list xyz -> res diagram) (create_polygon : list (R * R) -> res Shape) (intersection : Shape -> Shape -> res Shape) (area : R -> Shape -> R) (polygon : Shape) (radius : R).
Variables (dist : Point -> Point -> R) (inside : Point -> bool) (pix : Point -> Z) (cone : Point -> R -> list Z) (neighbours : Z -> res (list Z)).
(** a trial of m2cnd: the mean distance to the second nearest neighbour in a population of n points of the area, no two within a crater radius *)
Theorem C121_trial_m2cnd fuel fuel' b n rate batch m : metric dist -> search_covers dist pix cone radius -> 0 <= b ->
  run_trial lonlat voronoi create_polygon intersection area polygon radius dist inside pix cone neighbours fuel fuel' (L "m2cnd") b n rate batch = Some (Ok m) ->
  exists pts second, Z.of_nat (length pts) = n /\ Forall (fun p => inside p = true) pts /\ apart dist (b / 2) pts /\
    Forall2 (fun pt nb => In nb pts /\ exists others, Permutation pts (pt :: others) /\ kth_smallest 2 (map (dist pt) others) (dist pt nb)) pts second /\
    m = Rsum (map (fun p => dist (fst p) (snd p)) (combine pts second)) / INR (length pts).
Proof.
  intros M SC B E. unfold run_trial in E. destruct (sprinkle_discs _ _ _ _ _ _ _ _ _ _ _) as [[[[pts ids] h]|]|] eqn:SP; try discriminate.
  destruct (C44_population dist inside pix cone radius _ _ _ _ _ _ _ _ M SC B SP) as (Ln & In & Ap & -> & Ho & _).
  unfold evaluate_randomness in E. change (seqb (L "m2cnd") (L "m2cnd")) with true in E. cbv iota in E.
  destruct (kth_nearest_neighbour _ _ _ _ _ _ _ _ _ 2) as [[[mm nb]|]|] eqn:K; try discriminate. cbn [bind] in E. injection E as <-.
  destruct (C45_exact dist pix cone neighbours radius _ _ _ _ _ _ M SC Ho (le_S _ _ (le_n 1)) K) as (F & Em). exists pts, nb. auto.
Qed.
(** a trial of sdaa: the standard deviation of the adjacent areas of such a population *)
Theorem C121_trial_sdaa fuel fuel' b n rate batch m : metric dist -> search_covers dist pix cone radius -> 0 <= b ->
  (forall ps vs rs, Forall unit_vector ps -> voronoi ps = Ok (mkDiagram vs rs) -> Forall unit_vector vs /\ exists ls, Forall2 (corners vs) rs ls) ->
  run_trial lonlat voronoi create_polygon intersection area polygon radius dist inside pix cone neighbours fuel fuel' (L "sdaa") b n rate batch = Some (Ok m) ->
  exists pts cells vs rs, Z.of_nat (length pts) = n /\ Forall (fun p => inside p = true) pts /\ apart dist (b / 2) pts /\
    voronoi (map (fun p => on_sphere (lonlat p)) pts) = Ok (mkDiagram vs rs) /\
    Forall2 (fun region cell => exists places whole, corners vs region (map on_sphere places) /\ create_polygon places = Ok whole /\ intersection polygon whole = Ok cell) rs cells /\
    deviation (map (area radius) cells) m.
Proof.
  intros M SC B V E. unfold run_trial in E. destruct (sprinkle_discs _ _ _ _ _ _ _ _ _ _ _) as [[[[pts ids] h]|]|] eqn:SP; try discriminate.
  destruct (C44_population dist inside pix cone radius _ _ _ _ _ _ _ _ M SC B SP) as (Ln & In & Ap & -> & Ho & _).
  unfold evaluate_randomness in E. change (seqb (L "sdaa") (L "m2cnd")) with false in E. change (seqb (L "sdaa") (L "sdaa")) with true in E. cbv iota in E.
  destruct (sdaa _ _ _ _ _ _ _ _) as [[mm cs]|] eqn:K; [|discriminate]. cbn [bind] in E. injection E as <-.
  destruct (C119_measure _ _ _ _ _ _ _ _ _ _ V K) as (vs & rs & E1 & E2 & E3 & _). exists pts, cs, vs, rs. auto 10.
Qed.
(** of the real craters and of a trial the same thing is measured; no other measure is known *)
Theorem C121_other_measure fuel measure pts ids h : measure <> L "m2cnd" -> measure <> L "sdaa" ->
  evaluate_randomness lonlat voronoi create_polygon intersection area polygon radius dist cone neighbours fuel measure pts ids h = Some (Err NameError).
Proof. intros A B. unfold evaluate_randomness. destruct (seqb_spec measure (L "m2cnd")); [congruence|]. destruct (seqb_spec measure (L "sdaa")); [congruence|]. reflexivity. Qed.
(** with fewer than three craters there is no mean second closest distance *)
Theorem C121_few_points_refuted fuel pts ids h m drawn : holds pix h pts -> ids = map pix pts -> (length pts <= 2)%nat ->
  evaluate_randomness lonlat voronoi create_polygon intersection area polygon radius dist cone neighbours fuel (L "m2cnd") pts ids h <> Some (Ok (m, drawn)).
Proof.
  intros H -> Ln E. unfold evaluate_randomness in E. change (seqb (L "m2cnd") (L "m2cnd")) with true in E. cbv iota in E.
  destruct (kth_nearest_neighbour _ _ _ _ _ _ _ _ _ 2) as [[[mm nb]|]|] eqn:K; try discriminate. destruct pts as [|p pts]; [discriminate K|]. exact (C45_few_points_refuted dist pix cone neighbours radius _ _ _ _ 2 _ H Ln K).
Qed.
End C121.
(** trials one after the other: the draws of the generator in order, with the number done after each; the same as a pool with one worker *)
Theorem C121_serial {Measure Rng} (f : Rng -> Measure * Rng) g trials :
  montecarlo_serial (fun _ => f) g trials = (map (draw f g) (seq 0 trials), seq 1 trials) /\
  forall schedule measures, montecarlo _ _ (fun _ => f) (fun _ => g) 1 trials schedule = Some measures -> measures = fst (montecarlo_serial (fun _ => f) g trials).
Proof.
  assert (Q : montecarlo_serial (fun _ => f) g trials = (map (draw f g) (seq 0 trials), seq 1 trials)).
  { unfold montecarlo_serial. assert (H : forall n a g, serial_from (fun _ => f) g (seq a n) = (map (draw f g) (seq 0 n), seq (S a) n)).
    { clear. induction n as [|n IH]; intros a g; [reflexivity|]. cbn [seq serial_from map draw]. destruct (f g) as [m g'] eqn:Fg. rewrite IH. cbn [fst]. rewrite Nat.add_1_r. f_equal. f_equal. rewrite <- seq_shift, map_map. apply map_ext. intros i. cbn [draw]. now rewrite Fg. }
    apply H. }
  split; [exact Q|]. intros schedule measures E. rewrite Q. cbn [fst]. now apply C46_one_worker with (schedule := schedule).
Qed.
Print Assumptions C121_trial_m2cnd.
Print Assumptions C121_trial_sdaa.
Print Assumptions C121_other_measure.
Print Assumptions C121_few_points_refuted.
Print Assumptions C121_serial.
Lemma ex_population : exists fuel pts ids h, sprinkle_discs R ex_dist (fun _ => true) ex_pix ex_cone 1 fuel 3 1 1 (fun _ _ => [0; 1 / 4; 1; 2]) = Some (Ok (pts, ids, h)) /\ length pts = 3%nat /\ ids = map ex_pix pts /\ holds ex_pix h pts.
Proof.
  destruct C44_hypotheses_met as (M & C & fuel & pts & ids & h & E). exists fuel, pts, ids, h. destruct (C44_population ex_dist _ ex_pix ex_cone 1 fuel 3 1 1 _ pts ids h M C ltac:(lra) E) as (Ln & _ & _ & Ei & Ho & _).
  split; [exact E|]. split; [lia|]. split; assumption.
Qed.
Definition ex_run (fuel : nat) (measure : str) : option (res R) :=
  run_trial (fun p : R => (0, p)) ex_voronoi (fun l => Ok l) (fun _ c => Ok c) ex_area [] 1 ex_dist (fun _ => true) ex_pix ex_cone ex_neighbours fuel 3 measure 1 3 1 (fun _ _ => [0; 1 / 4; 1; 2]).
Example C121_hypotheses_met : metric ex_dist /\ search_covers ex_dist ex_pix ex_cone 1 /\
  (forall ps vs rs, Forall unit_vector ps -> ex_voronoi ps = Ok (mkDiagram vs rs) -> Forall unit_vector vs /\ exists ls, Forall2 (corners vs) rs ls) /\
  exists fuel m m', ex_run fuel (L "m2cnd") = Some (Ok m) /\ ex_run fuel (L "sdaa") = Some (Ok m').
Proof.
  split; [exact ex_metric|]. split; [exact ex_covers|]. split. { intros ps vs rs U E. unfold ex_voronoi in E. injection E as <- <-. split; [exact U|]. eexists. apply ex_corners. }
  destruct ex_population as (fuel & pts & ids & h & E & Ln & -> & Ho). destruct C45_hypotheses_met as (_ & _ & Cg & _). exists fuel. unfold ex_run, run_trial. rewrite E. unfold evaluate_randomness.
  change (seqb (L "m2cnd") (L "m2cnd")) with true. change (seqb (L "sdaa") (L "m2cnd")) with false. change (seqb (L "sdaa") (L "sdaa")) with true. cbv iota.
  assert (K : exists r, kth_nearest_neighbour R ex_dist ex_cone ex_neighbours 1 3 pts (map ex_pix pts) h 2 = Some (Ok r)).
  { apply (C45_total ex_dist ex_pix ex_cone ex_neighbours 1 pts h 2 [0; 1]%Z ex_covers Ho); [lia|repeat constructor; cbn; intuition congruence|exact Cg| |].
    - intros p _. unfold ex_pix. destruct (Rltb p 1); cbn; auto.
    - intros p q _ _. assert (R01 : reach ex_neighbours 0 1). { apply (reach_next _ _ 0%Z); [constructor|]. exists [1%Z]. cbn. auto. }
      assert (R10 : reach ex_neighbours 1 0). { apply (reach_next _ _ 1%Z); [constructor|]. exists [0%Z]. cbn. auto. }
      unfold ex_pix. destruct (Rltb p 1), (Rltb q 1); try constructor; assumption. }
  destruct K as ([mm nb] & ->). exists mm. unfold sdaa, ex_voronoi. cbn [bind v_vertices v_regions]. rewrite (corners_read _ _ _ (ex_corners _)). cbn [bind].
  rewrite (mapM_Forall2 _ _ (map (map to_lonlat) (map (fun v => [v]) (map (fun p => to_xyz (0, p)) pts)))) by (induction (map (map to_lonlat) (map (fun v => [v]) (map (fun p => to_xyz (0, p)) pts))); constructor; auto). cbn [bind].
  rewrite (mapM_Forall2 _ _ (map (map to_lonlat) (map (fun v => [v]) (map (fun p => to_xyz (0, p)) pts)))) by (induction (map (map to_lonlat) (map (fun v => [v]) (map (fun p => to_xyz (0, p)) pts))); constructor; auto). cbn [bind].
  destruct pts as [|p pts]; [discriminate|]. cbn [map]. eexists. split; reflexivity.
Qed.

(** * C122 *)
(** the significance does not depend on the unit nor on the zero of the measure *)
Theorem C122_units k c m0 m s : 0 < k -> calculate_stats m0 m = Ok s ->
  exists t, calculate_stats (k * m0 + c) (map (fun x => k * x + c) m) = Ok t /\ s_n_sigma t = s_n_sigma s /\ s_percentile t = s_percentile s /\ s_mn t = k * s_mn s + c /\ s_sd t = k * s_sd s.
Proof.
  intros K E. assert (NE : m <> []) by (intros ->; discriminate). assert (NE' : map (fun x => k * x + c) m <> []) by now destruct m.
  assert (Q : exists t, calculate_stats (k * m0 + c) (map (fun x => k * x + c) m) = Ok t) by (destruct m; [congruence|]; eexists; reflexivity). destruct Q as (t & Et). exists t. split; [exact Et|].
  pose proof (C50_percentile _ _ _ E) as [P _]. pose proof (C50_percentile _ _ _ Et) as [P' _].
  assert (PP : s_percentile t = s_percentile s). { rewrite P, P'. unfold percent_below. rewrite map_length. assert (RaSpec.count (fun x => Rltb x (k * m0 + c)) (map (fun x => k * x + c) m) = RaSpec.count (fun x => Rltb x m0) m) as ->; [|reflexivity]. unfold RaSpec.count. clear - K. induction m as [|x m IH]; [reflexivity|]. cbn [map filter].
    destruct (Rltb_spec (k * x + c) (k * m0 + c)), (Rltb_spec x m0); cbn [length]; try congruence; exfalso; nra. }
  unfold calculate_stats in E, Et. destruct m as [|x m]; [congruence|]. set (l := x :: m) in *. cbv zeta in E. injection E as <-. change (map (fun x => k * x + c) l) with ((k * x + c) :: map (fun x => k * x + c) m) in Et. cbv iota zeta in Et.
  change ((k * x + c) :: map (fun x => k * x + c) m) with (map (fun x => k * x + c) l) in Et. rewrite mean_affine, std_affine in Et by (try exact NE; lra). injection Et as <-. cbn [s_n_sigma s_percentile s_mn s_sd] in *.
  split; [|split; [exact PP|split; reflexivity]]. set (a := mean l) in *. set (b := std l) in *. destruct (Reqb_spec (k * b) 0) as [Z|Z], (Reqb_spec b 0) as [Z'|Z']; try reflexivity; [apply Rmult_integral in Z; lra|subst b; rewrite Z' in Z; lra|]. f_equal. field. split; lra.
Qed.
(** a trial like the others: within the root of n - 1 standard deviations *)
Theorem C122_one_of_them m0 m s sigma : calculate_stats m0 m = Ok s -> In m0 m -> s_n_sigma s = Some sigma -> sigma ^ 2 <= INR (length m) - 1.
Proof.
  intros E I N. unfold calculate_stats in E. destruct m as [|x m]; [discriminate|]. set (l := x :: m) in *. cbv zeta in E. injection E as <-. cbn [s_n_sigma] in N. pose proof (within_of_mean l m0 I) as Q. pose proof (std_nonneg l) as P.
  destruct (Reqb_spec (std l) 0) as [Z|Z]; [discriminate|]. injection N as <-. assert (P2 : 0 < std l ^ 2) by nra. replace (((m0 - mean l) / std l) ^ 2) with ((m0 - mean l) ^ 2 / std l ^ 2) by (field; exact Z). apply (Rmult_le_reg_r (std l ^ 2)); [exact P2|].
  unfold Rdiv. rewrite Rmult_assoc, Rinv_l, Rmult_1_r by lra. exact Q.
Qed.
(** few trials are as far out: those with a significance of k or more, up or down, are at most one in k squared *)
Theorem C122_few_as_far m k : 0 < k -> (exists a b, In a m /\ In b m /\ a <> b) ->
  k ^ 2 * INR (length (filter (fun x => match calculate_stats x m with Ok s => match s_n_sigma s with Some sigma => Rleb k (Rabs sigma) | None => false end | Err _ => false end) m)) <= INR (length m).
Proof.
  intros K (a & b & Ia & Ib & D). assert (NE : m <> []) by (intros ->; destruct Ia). assert (SP : 0 < std m). { destruct (std_nonneg m) as [H|H]; [exact H|]. exfalso. apply D. symmetry in H. exact (proj1 (std_zero m NE) H a b Ia Ib). }
  match goal with |- k ^ 2 * INR (length (filter ?f m)) <= _ => pose proof (far_few m k f) as Q end. apply (Rmult_le_reg_r (std m ^ 2)); [nra|]. eapply Rle_trans; [|apply Q; [|exact NE]]; [right; ring|].
  intros x Fx. unfold calculate_stats in Fx. destruct m as [|y m]; [congruence|]. set (l := y :: m) in *. cbv zeta in Fx. cbn [s_n_sigma] in Fx. destruct (Reqb_spec (std l) 0) as [Z|Z]; [discriminate|]. destruct (Rleb_spec k (Rabs ((x - mean l) / std l))) as [B|B]; [|discriminate].
  unfold Rdiv in B. rewrite Rabs_mult, (Rabs_right (/ std l)) in B by (apply Rle_ge, Rlt_le, Rinv_0_lt_compat, SP). assert (B' : k * std l <= Rabs (x - mean l)). { apply (Rmult_le_reg_r (/ std l)); [now apply Rinv_0_lt_compat|]. rewrite Rmult_assoc, Rinv_r by lra. lra. }
  replace (k ^ 2 * std l ^ 2) with ((k * std l) ^ 2) by ring. rewrite <- (pow2_abs (x - mean l)). apply pow_incr. split; [nra|exact B'].
Qed.
(** there is one exactly if the trials are not all the same; it has the sign of the difference from their mean *)
Theorem C122_defined m0 m s : calculate_stats m0 m = Ok s -> average m (s_mn s) /\ deviation m (s_sd s) /\
  (s_n_sigma s = None <-> forall x y, In x m -> In y m -> x = y) /\
  forall sigma, s_n_sigma s = Some sigma -> sigma * s_sd s = m0 - s_mn s /\ (0 < sigma <-> s_mn s < m0) /\ (sigma < 0 <-> m0 < s_mn s).
Proof.
  intros E. unfold calculate_stats in E. destruct m as [|x m]; [discriminate|]. set (l := x :: m) in *. cbv zeta in E. injection E as <-. cbn [s_mn s_sd s_n_sigma]. assert (NE : l <> []) by discriminate.
  split; [now apply average_mean|]. split; [now apply std_deviation|]. pose proof (std_nonneg l) as P. destruct (Reqb_spec (std l) 0) as [Z|Z].
  - split; [|discriminate]. split; [intros _; now apply std_zero|reflexivity].
  - split; [split; [discriminate|]; intros H; exfalso; apply Z; now apply std_zero|]. intros sigma Es. injection Es as <-. assert (SP : 0 < std l) by lra. assert (IP : 0 < / std l) by now apply Rinv_0_lt_compat.
    split; [field; exact Z|]. unfold Rdiv. split; split; intros H; nra.
Qed.
Print Assumptions C122_units.
Print Assumptions C122_one_of_them.
Print Assumptions C122_few_as_far.
Print Assumptions C122_defined.
Example C122_hypotheses_met : exists s sigma, calculate_stats 3 [3; 1; 5; 2] = Ok s /\ In 3 [3; 1; 5; 2] /\ s_n_sigma s = Some sigma /\ 0 < sigma.
Proof.
  destruct (calculate_stats 3 [3; 1; 5; 2]) as [s|] eqn:E; [|discriminate]. destruct (C122_defined _ _ _ E) as (A & D & N & Sg). destruct (s_n_sigma s) as [sigma|] eqn:Es.
  - exists s, sigma. split; [reflexivity|]. split; [now left|]. split; [exact Es|]. apply (Sg sigma eq_refl). unfold average in A. cbn in A. lra.
  - exfalso. assert (3 = 1) by (apply (proj1 N eq_refl); cbn; auto). lra.
Qed.
