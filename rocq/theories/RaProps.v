(** The randomness analysis: random populations, neighbour search, parallel trials, statistics, bins, stored trials. *)
From Coq Require Import String Ascii List ZArith Reals Bool Permutation Sorted Lia Lra.
From Verif Require Import Base NumModel NumLemmas BinModel BinSpec BinProofs ApplyProofs StrModel StrProofs FmtModel FmtProofs CliModel RaModel RaSpec RaProofs RaProofs2 RaProofs3 RaProofs4.
Import ListNotations.
Local Open Scope R_scope.

(** * C44 *)
Section C44.
Context {Point : Type}.
Variables (dist : Point -> Point -> R) (inside : Point -> bool) (pix : Point -> Z) (cone : Point -> R -> list Z) (radius : R).
(** whatever is drawn: if sprinkle_discs returns, it returns n points, all in the polygon, no two within a crater radius, each with its
    cell, filed under it; they are what is left when each point drawn in the polygon erases the earlier ones within a
    crater radius, up to the first time that n are left *)
Theorem C44_population fuel n diam rate (batch : nat -> Z -> list Point) pts ids h :
  metric dist -> search_covers dist pix cone radius -> 0 <= diam ->
  sprinkle_discs Point dist inside pix cone radius fuel n diam rate batch = Some (Ok (pts, ids, h)) ->
  Z.of_nat (length pts) = n /\ Forall (fun p => inside p = true) pts /\ apart dist (diam / 2) pts /\ ids = map pix pts /\ holds pix h pts /\
  exists zs drawn rest, stream batch zs = drawn ++ rest /\ Permutation pts (survivors dist (diam / 2) (filter inside drawn)) /\
    forall a b, b <> [] -> filter inside drawn = a ++ b -> (Z.of_nat (length (survivors dist (diam / 2) a)) < n)%Z.
Proof.
  intros (_ & _ & Sy) SC D E. destruct (sprinkle_ok dist pix cone radius inside fuel n diam rate batch pts ids h SC D E) as (NP & Ei & Ef & zs & raw & rest & Es & Ho & Lp & B).
  pose proof Ho as (H1 & H2 & Pe). rewrite <- Ef in Pe.
  split; [rewrite Lp; lia|]. split.
  { apply Forall_forall. intros p Ip. apply (Permutation_in _ Pe) in Ip. apply survivors_in in Ip. apply filter_In in Ip. tauto. }
  split. { apply (pairs_permutation _ (survivors dist (diam / 2) (filter inside raw))); [intros x y; now rewrite Sy|now symmetry|]. eapply pairs_impl; [|apply survivors_apart]. cbv beta. intros x y. now rewrite Sy. }
  split; [exact Ei|]. split; [split; [exact H1|]; split; [exact H2|now rewrite <- Ef]|]. exists zs, raw, rest. auto.
Qed.
(** it ends as soon as one batch holds n such points in a row *)
Theorem C44_ends n diam rate (batch : nat -> Z -> list Point) m :
  metric dist -> search_covers dist pix cone radius -> 0 <= diam -> (0 < n)%Z ->
  (forall z, exists before good after, filter inside (batch m z) = before ++ good ++ after /\ Z.of_nat (length good) = n /\ apart dist (diam / 2) good) ->
  exists fuel pts ids h, sprinkle_discs Point dist inside pix cone radius fuel n diam rate batch = Some (Ok (pts, ids, h)).
Proof.
  intros (_ & _ & Sy) SC D NP H. apply (sprinkle_ends dist pix cone radius inside n diam rate batch m SC D NP). intros z. destruct (H z) as (a & l & b & E & L & A). exists a, l, b. repeat split; auto.
  eapply pairs_impl; [|exact A]. cbv beta. intros x y. now rewrite Sy.
Qed.
(** the other side: it does not return in these cases *)
Theorem C44_no_room_refuted n diam rate (batch : nat -> Z -> list Point) :
  metric dist -> search_covers dist pix cone radius -> 0 <= diam -> (0 < n)%Z ->
  (forall l, Z.of_nat (length l) = n -> Forall (fun p => inside p = true) l -> ~ apart dist (diam / 2) l) ->
  forall fuel, sprinkle_discs Point dist inside pix cone radius fuel n diam rate batch = None.
Proof.
  intros M SC D NP H fuel. destruct (sprinkle_discs Point dist inside pix cone radius fuel n diam rate batch) as [[[[pts ids] h]|e]|] eqn:E; [| |reflexivity].
  - exfalso. destruct (C44_population _ _ _ _ _ _ _ _ M SC D E) as (L & F & A & _). exact (H pts L F A).
  - exfalso. exact (sprinkle_err dist pix cone radius inside _ _ _ _ _ _ SC D NP E).
Qed.
Theorem C44_none_refuted fuel n diam rate (batch : nat -> Z -> list Point) : (n <= 0)%Z ->
  sprinkle_discs Point dist inside pix cone radius (S fuel) n diam rate batch = Some (Err ValueError).
Proof. apply sprinkle_none. Qed.
End C44.
Print Assumptions C44_population.
Print Assumptions C44_ends.
Print Assumptions C44_no_room_refuted.
Print Assumptions C44_none_refuted.

(** points on a line in two cells *)
Definition ex_dist (x y : R) : R := Rabs (x - y).
Definition ex_pix (x : R) : Z := if Rltb x 1 then 0%Z else 1%Z.
Definition ex_cone (_ : R) (_ : R) : list Z := [0; 1]%Z.
Lemma ex_metric : metric ex_dist.
Proof.
  unfold ex_dist. split; [intros; apply Rabs_pos|]. split; [intros; rewrite Rminus_eq_0; apply Rabs_R0|]. intros. apply Rabs_minus_sym.
Qed.
Lemma ex_covers : search_covers ex_dist ex_pix ex_cone 1.
Proof.
  split; [lra|]. split; [intros; repeat constructor; cbn; intuition congruence|]. intros p q a _. unfold ex_pix, ex_cone. destruct (Rltb q 1); cbn; auto.
Qed.
Example C44_hypotheses_met : metric ex_dist /\ search_covers ex_dist ex_pix ex_cone 1 /\
  exists fuel pts ids h, sprinkle_discs R ex_dist (fun _ => true) ex_pix ex_cone 1 fuel 3 1 1 (fun _ _ => [0; 1 / 4; 1; 2]) = Some (Ok (pts, ids, h)).
Proof.
  split; [exact ex_metric|]. split; [exact ex_covers|]. apply (C44_ends ex_dist (fun _ => true) ex_pix ex_cone 1 3 1 1 _ 0 ex_metric ex_covers); [lra|lia|].
  intros _. exists [0], [1 / 4; 1; 2], []. cbn [filter app length]. split; [reflexivity|]. split; [reflexivity|]. unfold apart, ex_dist.
  repeat constructor; rewrite Rabs_left; lra.
Qed.
Example C44_no_room_hypotheses_met : exists inside : R -> bool, forall l, Z.of_nat (length l) = 2%Z -> Forall (fun p => inside p = true) l -> ~ apart ex_dist (1 / 2) l.
Proof.
  exists (fun x => Rleb 0 x && Rleb x (1 / 2)). intros [|x [|y [|]]] L F A; try (cbn in L; lia). inversion F as [|? ? Fx F']; subst. inversion F' as [|? ? Fy _]; subst. inversion A as [|? ? Ax _]; subst. inversion Ax as [|? ? D _]; subst.
  apply andb_true_iff in Fx, Fy. destruct Fx as [X1 X2], Fy as [Y1 Y2]. destruct (Rleb_spec 0 x), (Rleb_spec x (1 / 2)), (Rleb_spec 0 y), (Rleb_spec y (1 / 2)); try discriminate. unfold ex_dist, Rabs in D. destruct (Rcase_abs (x - y)); lra.
Qed.

(** * C45 *)
Section C45.
Context {Point : Type}.
Variables (dist : Point -> Point -> R) (pix : Point -> Z) (cone : Point -> R -> list Z) (neighbours : Z -> res (list Z)) (radius : R).
(** whenever the search returns, the neighbour of each point is at the k-th smallest distance to the other points, and the
    first result is the mean of these distances *)
Theorem C45_exact fuel pts (h : list (Z * list Point)) k mean_distance found :
  metric dist -> search_covers dist pix cone radius -> holds pix h pts -> (1 <= k)%nat ->
  kth_nearest_neighbour Point dist cone neighbours radius fuel pts (map pix pts) h k = Some (Ok (mean_distance, found)) ->
  Forall2 (fun pt nb => In nb pts /\ exists others, Permutation pts (pt :: others) /\ kth_smallest k (map (dist pt) others) (dist pt nb)) pts found /\
  mean_distance = Rsum (map (fun p => dist (fst p) (snd p)) (combine pts found)) / INR (length pts).
Proof.
  intros M SC H Hk E. unfold kth_nearest_neighbour in E. destruct (each Point dist cone neighbours radius fuel h k (combine (map pix pts) pts)) as [[q|]|] eqn:Q; try discriminate. cbn [bind] in E.
  assert (F : Forall (fun p => In (snd p) pts) (combine (map pix pts) pts)). { apply Forall_forall. intros [a b] I. apply in_combine_r in I. exact I. }
  pose proof (each_spec dist pix cone neighbours radius fuel h pts k q M SC H Hk _ F Q) as F2.
  assert (E' : Rsum (map fst q) / INR (length q) = mean_distance /\ map snd q = found) by (destruct q; [discriminate|]; injection E as <- <-; auto). destruct E' as [<- <-]. clear E F Q.
  assert (G : forall l, Forall2 (fun p r => exists others, Permutation pts (snd p :: others) /\ kth_smallest k (map (dist (snd p)) others) (fst r) /\ In (snd r) pts /\ dist (snd p) (snd r) = fst r) (combine (map pix l) l) q ->
     Forall2 (fun pt nb => In nb pts /\ exists others, Permutation pts (pt :: others) /\ kth_smallest k (map (dist pt) others) (dist pt nb)) l (map snd q) /\
     map (fun p => dist (fst p) (snd p)) (combine l (map snd q)) = map fst q /\ length q = length l).
  { intros l. clear F2. revert q. induction l as [|pt l IH]; intros q F2; cbn [map combine] in F2; inversion F2 as [|? r ? q' (others & P & K & I & Ed) F3]; subst; [repeat constructor|].
    cbn [snd] in *. destruct (IH _ F3) as (A & B & C). cbn [map combine fst snd length]. split; [constructor; [|exact A]|].
    - split; [exact I|]. exists others. rewrite Ed. auto.
    - rewrite B, C, Ed. auto. }
  destruct (G pts F2) as (A & B & C). split; [exact A|]. now rewrite B, C.
Qed.
(** it returns whenever there are more than k points, in cells connected over a grid in which all neighbours are cells *)
Theorem C45_total pts (h : list (Z * list Point)) k grid :
  search_covers dist pix cone radius -> holds pix h pts -> (k < length pts)%nat -> NoDup grid -> closed_grid neighbours grid ->
  (forall p, In p pts -> In (pix p) grid) -> (forall p q, In p pts -> In q pts -> reach neighbours (pix p) (pix q)) ->
  exists r, kth_nearest_neighbour Point dist cone neighbours radius (S (length grid)) pts (map pix pts) h k = Some (Ok r).
Proof.
  intros SC H L Ng Cg Ig Rg. destruct (each_total dist pix cone neighbours radius h pts k grid SC H L Ng Cg (combine (map pix pts) pts)) as [q Q].
  - intros id pt I. assert (Ip : In pt pts) by exact (in_combine_r _ _ _ _ I). assert (id = pix pt) as ->. { clear - I. induction pts as [|x l IH]; [destruct I|]. cbn in I. destruct I as [I|I]; [now injection I as <- <-|auto]. }
    split; [now apply Ig|]. intros p Ip'. now apply Rg.
  - unfold kth_nearest_neighbour. rewrite Q. cbn [bind]. destruct q as [|r q]; [|eauto]. exfalso. destruct pts as [|p pts]; [cbn in L; lia|]. cbn [map combine each] in Q.
    destruct (nearest _ _ _ _ _ _ _ _ _ _) as [[]|]; try discriminate. destruct (each _ _ _ _ _ _ _ _ _) as [[]|]; discriminate.
Qed.
(** the other side: with k points or fewer there is no result (on a grid without holes the search never ends), and next to a cell that lacks a neighbour it may stop with an error *)
Theorem C45_few_points_refuted fuel pt pts (h : list (Z * list Point)) k r :
  holds pix h (pt :: pts) -> (length (pt :: pts) <= k)%nat ->
  kth_nearest_neighbour Point dist cone neighbours radius fuel (pt :: pts) (map pix (pt :: pts)) h k <> Some (Ok r).
Proof.
  intros H L E. unfold kth_nearest_neighbour in E. cbn [map combine] in E. destruct (each Point dist cone neighbours radius fuel h k ((pix pt, pt) :: combine (map pix pts) pts)) as [[q|]|] eqn:Q; try discriminate.
  exact (each_few dist pix cone neighbours radius h (pt :: pts) k fuel _ _ _ q H L Q).
Qed.
Theorem C45_few_points_never_end fuel pt pts (h : list (Z * list Point)) k grid :
  holds pix h (pt :: pts) -> (length (pt :: pts) <= k)%nat -> closed_grid neighbours grid -> In (pix pt) grid ->
  kth_nearest_neighbour Point dist cone neighbours radius fuel (pt :: pts) (map pix (pt :: pts)) h k = None.
Proof.
  intros H L Cg Ig. unfold kth_nearest_neighbour. cbn [map combine each]. unfold nearest.
  rewrite (grow_closed_none pix neighbours fuel h (pt :: pts) k grid [] [pix pt] H L Cg (NoDup_nil _)); [reflexivity|]. intros x [<-|[]]. exact Ig.
Qed.
Theorem C45_missing_neighbour_refuted fuel pt pts (h : list (Z * list Point)) k ns :
  holds pix h (pt :: pts) -> neighbours (pix pt) = Ok ns -> In (-1)%Z ns -> pix pt <> (-1)%Z ->
  neighbours (-1)%Z = Err ValueError -> (forall id x, neighbours id = Err x -> x = ValueError) ->
  (length (filter (fun p => isin (pix pt :: ns) (pix p)) (pt :: pts)) <= k)%nat ->
  kth_nearest_neighbour Point dist cone neighbours radius (S (S fuel)) (pt :: pts) (map pix (pt :: pts)) h k = Some (Err ValueError).
Proof.
  intros H N Im D E1 Er L. unfold kth_nearest_neighbour. cbn [map combine each]. unfold nearest.
  assert (G : grow Point neighbours (S (S fuel)) h k [] [pix pt] = Some (Err ValueError)); [|rewrite G; reflexivity].
  set (u1 := union [] [pix pt]). assert (U1 : forall x, In x u1 <-> x = pix pt). { intros x. unfold u1. rewrite union_In. split; [intros [[]|[<-|[]]]; reflexivity|intros ->; right; now left]. }
  assert (N1 : NoDup u1) by (apply union_NoDup; constructor).
  assert (Few : forall zone, NoDup zone -> incl zone (pix pt :: ns) -> (length (in_zone Point h zone) <= k)%nat).
  { intros zone Nz Iz. rewrite (Permutation_length (in_zone_filter pix h (pt :: pts) zone H Nz)). etransitivity; [|exact L]. clear - Iz.
    assert (Q : forall l, (length (filter (fun p => isin zone (pix p)) l) <= length (filter (fun p => isin (pix pt :: ns) (pix p)) l))%nat).
    { induction l as [|x l IH]; [auto|]. cbn [filter]. destruct (isin zone (pix x)) eqn:A.
      - assert (isin (pix pt :: ns) (pix x) = true) as -> by (apply isin_In, Iz, isin_In, A). apply le_n_S. exact IH.
      - destruct (isin (pix pt :: ns) (pix x)); [apply le_S|]; exact IH. }
    apply Q. }
  cbn [grow]. fold u1. destruct (Nat.leb_spec (k + 1) (length (in_zone Point h u1))) as [B|_].
  { pose proof (Few u1 N1) as F. assert (incl u1 (pix pt :: ns)) as I1 by (intros x Ix; apply U1 in Ix; left; now symmetry). specialize (F I1). lia. }
  cbn [mapM]. rewrite N. cbn [bind concat]. rewrite app_nil_r. set (outer := minus ns u1). assert (Io : In (-1)%Z outer). { apply minus_In. split; [exact Im|]. rewrite U1. congruence. }
  destruct (Nat.leb_spec (k + 1) (length (in_zone Point h (union u1 outer)))) as [B|_].
  { assert (I : incl (union u1 outer) (pix pt :: ns)). { intros x Ix. apply union_In in Ix. destruct Ix as [Ix|Ix]; [apply U1 in Ix; left; now symmetry|]. apply minus_In in Ix. right. tauto. }
    pose proof (Few _ (union_NoDup u1 outer N1) I). lia. }
  assert (X : forall l, In (-1)%Z l -> mapM neighbours l = Err ValueError).
  { induction l as [|x l IH]; intros I; [destruct I|]. cbn [mapM]. destruct (neighbours x) as [a|x'] eqn:Ex.
    - cbn [bind]. destruct I as [->|I]; [congruence|]. rewrite IH; [reflexivity|exact I].
    - cbn [bind]. f_equal. exact (Er _ _ Ex). }
  rewrite X by exact Io. reflexivity.
Qed.
End C45.
Print Assumptions C45_exact.
Print Assumptions C45_total.
Print Assumptions C45_few_points_refuted.
Print Assumptions C45_few_points_never_end.
Print Assumptions C45_missing_neighbour_refuted.
Definition ex_neighbours (z : Z) : res (list Z) := if Z.eqb z 0 then Ok [1%Z] else Ok [0%Z].
Example C45_hypotheses_met : metric ex_dist /\ search_covers ex_dist ex_pix ex_cone 1 /\ closed_grid ex_neighbours [0; 1]%Z /\
  holds ex_pix [(0%Z, [0; 1 / 2]); (1%Z, [3])] [0; 1 / 2; 3] /\
  (exists r, kth_nearest_neighbour R ex_dist ex_cone ex_neighbours 1 3 [0; 1 / 2; 3] (map ex_pix [0; 1 / 2; 3]) [(0%Z, [0; 1 / 2]); (1%Z, [3])] 2 = Some (Ok r)).
Proof.
  assert (C : closed_grid ex_neighbours [0; 1]%Z). { intros b [<-|[<-|[]]]; eexists; (split; [reflexivity|]); intros x [<-|[]]; cbn; auto. }
  assert (H : holds ex_pix [(0%Z, [0; 1 / 2]); (1%Z, [3])] [0; 1 / 2; 3]).
  { split; [repeat constructor; cbn; intuition congruence|]. split; [|apply Permutation_refl]. intros id l [I|[I|[]]]; injection I as <- <-; repeat constructor; unfold ex_pix; match goal with |- context [Rltb ?a 1] => destruct (Rltb_spec a 1) end; try reflexivity; lra. }
  split; [exact ex_metric|]. split; [exact ex_covers|]. split; [exact C|]. split; [exact H|]. apply (C45_total ex_dist ex_pix ex_cone ex_neighbours 1 _ _ 2 [0; 1]%Z ex_covers H).
  - cbn. lia.
  - repeat constructor; cbn; intuition congruence.
  - exact C.
  - intros p _. unfold ex_pix. destruct (Rltb p 1); cbn; auto.
  - intros p q _ _. assert (R01 : reach ex_neighbours 0 1). { apply (reach_next _ _ 0%Z); [constructor|]. exists [1%Z]. cbn. auto. }
    assert (R10 : reach ex_neighbours 1 0). { apply (reach_next _ _ 1%Z); [constructor|]. exists [0%Z]. cbn. auto. }
    unfold ex_pix. destruct (Rltb p 1), (Rltb q 1); try constructor; assumption.
Qed.
(** a cell 0 with the neighbours 1 and -1 (none) *)
Example C45_missing_neighbour_hypotheses_met : let nb := fun z => if Z.eqb z (-1) then Err ValueError else if Z.eqb z 0 then Ok [1; -1]%Z else Ok [0; 2]%Z in
  holds (fun z : Z => z) [(0, [0]); (2, [2]); (3, [3])]%Z [0; 2; 3]%Z /\ nb 0%Z = Ok [1; -1]%Z /\ (length (filter (fun p => isin (0 :: [1; -1])%Z p) [0; 2; 3]%Z) <= 2)%nat /\ (forall id x, nb id = Err x -> x = ValueError).
Proof.
  cbv zeta. split. { split; [repeat constructor; cbn; intuition congruence|]. split; [|apply Permutation_refl]. intros id l [I|[I|[I|[]]]]; injection I as <- <-; repeat constructor. }
  split; [reflexivity|]. split; [cbn; lia|]. intros id x. destruct (Z.eqb id (-1)); [congruence|]. destruct (Z.eqb id 0); discriminate.
Qed.

(** * C46 *)
Section C46.
Context {Measure Rng : Type}.
(** for every schedule: one measure per trial, in the order of the trials, whatever the order in which they end; they depend only on
    which worker takes up which trial *)
Theorem C46_trial_order (trial : nat -> Rng -> Measure * Rng) start workers trials schedule measures :
  montecarlo _ _ trial start workers trials schedule = Some measures ->
  length measures = trials /\ measures = one_after_the_other trial 0 start (takers_of taken schedule).
Proof. apply montecarlo_value. Qed.
(** whatever has happened, it can be brought to an end *)
Theorem C46_completes (trial : nat -> Rng -> Measure * Rng) start workers trials schedule p :
  (0 < workers)%nat -> exec _ _ trial workers trials (pool0 _ _ start) schedule = Some p ->
  exists rest measures, montecarlo _ _ trial start workers trials (schedule ++ rest) = Some measures.
Proof. apply montecarlo_completes. Qed.
Theorem C46_same_takers_same_measures (trial : nat -> Rng -> Measure * Rng) start workers workers' trials schedule schedule' m m' :
  takers_of taken schedule = takers_of taken schedule' -> montecarlo _ _ trial start workers trials schedule = Some m ->
  montecarlo _ _ trial start workers' trials schedule' = Some m' -> m = m'.
Proof. intros T E E'. apply montecarlo_value in E, E'. destruct E as [_ ->], E' as [_ ->]. now rewrite T. Qed.
(** worker processes that start with a copy of one generator: trial i is the n-th draw of that generator, n being the number of trials its worker did before *)
Theorem C46_draws (f : Rng -> Measure * Rng) g workers trials schedule measures i :
  montecarlo _ _ (fun _ => f) (fun _ => g) workers trials schedule = Some measures -> (i < trials)%nat ->
  nth_error measures i = Some (draw f g (earlier_of_same (takers_of taken schedule) i)).
Proof.
  intros E Hi. apply montecarlo_value in E. destruct E as [L E]. rewrite E in L. rewrite one_after_length in L. rewrite E. apply (one_after_forked f g _ 0 _ (fun _ => 0%nat)); [reflexivity|lia].
Qed.
(** one worker: the draws one after the other, every time *)
Theorem C46_one_worker (f : Rng -> Measure * Rng) g trials schedule measures :
  montecarlo _ _ (fun _ => f) (fun _ => g) 1 trials schedule = Some measures -> measures = map (draw f g) (seq 0 trials).
Proof.
  intros E. pose proof E as E0. apply montecarlo_value in E. destruct E as [L E].
  assert (T : Forall (fun w => w = 0%nat) (takers_of taken schedule)).
  { unfold montecarlo in E0. destruct (exec _ _ (fun _ => f) 1 trials (pool0 _ _ (fun _ => g)) schedule) as [p|] eqn:X; [|discriminate]. clear - X. revert X. generalize (pool0 Measure Rng (fun _ => g)) as q.
    induction schedule as [|a l IH]; intros q X; [constructor|]. cbn [exec] in X. destruct (step _ _ (fun _ => f) 1 trials q a) as [q'|] eqn:St; [|discriminate]. specialize (IH _ X).
    destruct a as [w|w]; cbn [takers_of taken]; [|exact IH]. constructor; [|exact IH]. cbn [step] in St. destruct (p_busy _ _ q w); [discriminate|]. destruct (Nat.ltb_spec w 1); [lia|discriminate]. }
  apply nth_error_eq; [rewrite map_length, seq_length; exact L|]. intros i Hi. rewrite L in Hi. rewrite (C46_draws _ _ _ _ _ _ _ E0 Hi).
  rewrite nth_error_map. rewrite (nth_error_nth' _ O) by (rewrite seq_length; exact Hi). rewrite seq_nth by exact Hi. cbn [option_map Nat.add]. do 2 f_equal. unfold earlier_of_same.
  assert (Lt : length (takers_of taken schedule) = trials) by (rewrite E, one_after_length in L; exact L). revert T Lt. generalize (takers_of taken schedule) as tk. intros tk T Lt.
  rewrite (proj1 (Forall_forall _ _) T (nth i tk 0%nat)) by (apply nth_In; lia).
  assert (Q : forall l, Forall (fun w => w = 0%nat) l -> count_occ Nat.eq_dec l 0%nat = length l). { induction 1 as [|x l -> _ IHl]; [reflexivity|]. cbn. now rewrite IHl. }
  rewrite Q; [rewrite firstn_length; lia|]. rewrite <- (firstn_skipn i tk) in T. apply Forall_app in T. tauto.
Qed.
(** the other side: with two workers two trials can be the same draw, and two runs can differ *)
Theorem C46_distinct_draws_refuted (f : Rng -> Measure * Rng) g workers : (2 <= workers)%nat ->
  exists schedule m, montecarlo _ _ (fun _ => f) (fun _ => g) workers 2 schedule = Some [m; m].
Proof.
  intros W. exists [Take 0; Finish 0; Take 1; Finish 1], (fst (f g)). apply (montecarlo_sequential (fun _ => f) (fun _ => g) workers [0; 1]%nat). repeat constructor; lia.
Qed.
Theorem C46_same_again_refuted (f : Rng -> Measure * Rng) g workers : (2 <= workers)%nat -> draw f g 0 <> draw f g 1 ->
  exists schedule schedule' m m', montecarlo _ _ (fun _ => f) (fun _ => g) workers 2 schedule = Some m /\ montecarlo _ _ (fun _ => f) (fun _ => g) workers 2 schedule' = Some m' /\ m <> m'.
Proof.
  intros W D. exists [Take 0; Finish 0; Take 1; Finish 1], [Take 0; Finish 0; Take 0; Finish 0]. do 2 eexists.
  split; [apply (montecarlo_sequential (fun _ => f) (fun _ => g) workers [0; 1]%nat); repeat constructor; lia|]. split; [apply (montecarlo_sequential (fun _ => f) (fun _ => g) workers [0; 0]%nat); repeat constructor; lia|].
  cbn in *. congruence.
Qed.
(** with a single processor it is refused *)
Theorem C46_single_processor_refuted (trial : nat -> Rng -> Measure * Rng) start trials schedule :
  montecarlo_pp _ _ trial start 1 trials schedule = Some (Err ValueError).
Proof. reflexivity. Qed.
Theorem C46_more_processors (trial : nat -> Rng -> Measure * Rng) start cpus trials schedule r : (2 <= cpus)%nat ->
  montecarlo_pp _ _ trial start cpus trials schedule = Some r ->
  exists measures, r = Ok measures /\ length measures = trials /\ measures = one_after_the_other trial 0 start (takers_of taken schedule).
Proof.
  intros C E. unfold montecarlo_pp in E. destruct (cpus - 1)%nat as [|w] eqn:W; [lia|]. destruct (montecarlo _ _ trial start (S w) trials schedule) as [m|] eqn:M; [|discriminate]. injection E as <-.
  exists m. split; [reflexivity|]. now apply montecarlo_value in M.
Qed.
End C46.
Print Assumptions C46_trial_order.
Print Assumptions C46_completes.
Print Assumptions C46_same_takers_same_measures.
Print Assumptions C46_draws.
Print Assumptions C46_one_worker.
Print Assumptions C46_distinct_draws_refuted.
Print Assumptions C46_same_again_refuted.
Print Assumptions C46_single_processor_refuted.
Print Assumptions C46_more_processors.
(** trial 1 ends before trial 0 *)
Example C46_hypotheses_met : montecarlo nat nat (fun i g => (10 * i + g, g + 1)%nat) (fun _ => 7%nat) 2 3 [Take 0; Take 1; Finish 1; Take 1; Finish 0; Finish 1] = Some [7; 17; 28]%nat.
Proof. reflexivity. Qed.

(** * C47 *)
(** for every interleaving of the workers' reads and writes: never more than the trials counted, never 0 after the first *)
Theorem C47_progress_bounds l s : accesses progress0 l = Some s ->
  (fst s <= Z.of_nat (writes l))%Z /\ ((0 < writes l)%nat -> (1 <= fst s)%Z).
Proof.
  intros E. destruct (accesses_bounds l 0%Z (fun _ => None) s 0%Z E) as (A & _ & B); [lia|intros w x X; discriminate X|]. split; [lia|]. intros W. apply B. auto.
Qed.
(** the count is right when no two updates overlap *)
Theorem C47_no_overlap ws : exists s, accesses progress0 (flat_map (fun w => [Read w; Write w]) ws) = Some s /\ fst s = Z.of_nat (length ws).
Proof. apply (one_by_one ws 0%Z (fun _ => None)). reflexivity. Qed.
(** the other side: n workers that overlap count 1 *)
Theorem C47_counts_all_refuted n : (2 <= n)%nat ->
  exists l s, accesses progress0 l = Some s /\ writes l = n /\ fst s = 1%Z.
Proof.
  intros N. destruct (reads_all n 0%Z (fun _ => None)) as (p & E & A & _); [reflexivity|]. destruct (writes_all n 0%Z 0%Z p A) as (p' & E' & _).
  exists (map Read (seq 0 n) ++ map Write (seq 0 n)), (1%Z, p'). split; [|split; [|reflexivity]].
  - rewrite accesses_app. unfold progress0. rewrite E. destruct n; [lia|]. exact E'.
  - unfold writes. rewrite filter_app, app_length. assert (F1 : filter is_write (map Read (seq 0 n)) = []) by (clear; induction (seq 0 n) as [|a l IH]; [reflexivity|exact IH]). assert (F2 : filter is_write (map Write (seq 0 n)) = map Write (seq 0 n)) by (clear; induction (seq 0 n) as [|a l IH]; [reflexivity|cbn [map filter is_write]; now rewrite IH]).
    rewrite F1, F2, map_length, seq_length. reflexivity.
Qed.
Print Assumptions C47_progress_bounds.
Print Assumptions C47_no_overlap.
Print Assumptions C47_counts_all_refuted.
Example C47_hypotheses_met : exists s, accesses progress0 [Read 0; Read 1; Write 0; Read 0; Write 1; Write 0] = Some s /\ fst s = 2%Z.
Proof. eexists. split; reflexivity. Qed.

(** * C49 *)
(** requests of (trials, measure), one after the other; each may be computed by another program state *)
Definition requests (s : store) (l : list ((str -> Z -> list (str * list R)) * Z * str)) : store :=
  fold_left (fun s r => run_montecarlo (fst (fst r)) s (snd (fst r)) (snd r)) l s.
Theorem C49_never_fewer l : forall s k r, stored s k = Some r -> exists r', stored (requests s l) k = Some r' /\ (n_trials r <= n_trials r')%Z.
Proof.
  induction l as [|[[c n] m] l IH]; intros s k r E; [exists r; split; [exact E|lia]|]. cbn [requests fold_left fst snd]. destruct (run_never_fewer c s n m k r E) as (r1 & E1 & L & _).
  destruct (IH _ _ _ E1) as (r2 & E2 & L2). exists r2. split; [exact E2|lia].
Qed.
Theorem C49_as_many_as_asked compute s n m : exists r, stored (run_montecarlo compute s n m) m = Some r /\ (n <= n_trials r)%Z.
Proof. apply run_enough. Qed.
Theorem C49_enough_unchanged compute s n m r : stored s m = Some r -> (n <= n_trials r)%Z -> run_montecarlo compute s n m = s.
Proof. apply run_kept. Qed.
Theorem C49_repeat_unchanged compute compute' s n m : run_montecarlo compute' (run_montecarlo compute s n m) n m = run_montecarlo compute s n m.
Proof. destruct (run_enough compute s n m) as (r & E & L). exact (run_kept compute' _ _ _ _ E L). Qed.
Theorem C49_other_measures compute s n m k : k <> m -> stored (run_montecarlo compute s n m) k = stored s k.
Proof. apply run_others. Qed.
(** the other side: asking for more trials throws the stored ones away, and all of them are computed again *)
Theorem C49_missing_only_refuted compute s n m r : stored s m = Some r -> (n_trials r < n)%Z ->
  stored (run_montecarlo compute s n m) m = Some (mkRecord n (compute m n)).
Proof. intros E L. unfold run_montecarlo. rewrite E. destruct (Z.leb_spec n (n_trials r)); [lia|]. rewrite stored_set, seqb_refl. reflexivity. Qed.
Print Assumptions C49_never_fewer.
Print Assumptions C49_as_many_as_asked.
Print Assumptions C49_enough_unchanged.
Print Assumptions C49_repeat_unchanged.
Print Assumptions C49_other_measures.
Print Assumptions C49_missing_only_refuted.
Example C49_hypotheses_met : stored [(L "sdaa", mkRecord 300 [(L "-1", [1; 2])])] (L "sdaa") = Some (mkRecord 300 [(L "-1", [1; 2])]) /\ (100 <= 300)%Z /\ (300 < 1000)%Z /\ L "m2cnd" <> L "sdaa".
Proof. split; [reflexivity|]. split; [lia|]. split; [lia|]. intros H. discriminate H. Qed.

(** * C50 *)
Theorem C50_percentile m0 m s : calculate_stats m0 m = Ok s ->
  s_percentile s = percent_below m m0 /\ 0 <= s_percentile s <= 100.
Proof.
  intros E. destruct m as [|x m]; [discriminate|]. assert (NE : x :: m <> []) by discriminate. pose proof (percentile_count (x :: m) m0 NE) as Q. pose proof (percent_bounds (x :: m) m0 NE) as B.
  unfold calculate_stats in E. injection E as <-. unfold s_percentile. split; [exact Q|]. rewrite <- Q in B. exact B.
Qed.
Theorem C50_percentile_grows m0 m1 m s t : m0 <= m1 -> calculate_stats m0 m = Ok s -> calculate_stats m1 m = Ok t -> s_percentile s <= s_percentile t.
Proof.
  intros H E F. destruct (C50_percentile _ _ _ E) as [-> _]. destruct (C50_percentile _ _ _ F) as [-> _]. apply percent_mono; [|exact H]. intros ->. discriminate.
Qed.
(** above every trial 100, not above any 0; the numbers come in any order *)
Theorem C50_extremes m0 m s : calculate_stats m0 m = Ok s ->
  (Forall (fun x => x < m0) m -> s_percentile s = 100) /\ (Forall (fun x => m0 <= x) m -> s_percentile s = 0).
Proof.
  intros E. destruct (C50_percentile _ _ _ E) as [-> _]. assert (NE : m <> []) by (intros ->; discriminate). assert (LP : INR (length m) <> 0) by (apply not_0_INR; now destruct m). unfold percent_below. split; intros F.
  - assert (count (fun x => Rltb x m0) m = length m) as ->; [|field; exact LP]. unfold count. f_equal. apply filter_all. eapply Forall_impl; [|exact F]. cbv beta. intros x Hx. destruct (Rltb_spec x m0); [reflexivity|lra].
  - assert (count (fun x => Rltb x m0) m = 0%nat) as ->; [|cbn; field; exact LP]. apply count_none. eapply Forall_impl; [|exact F]. cbv beta. intros x Hx. destruct (Rltb_spec x m0); [lra|reflexivity].
Qed.
Print Assumptions C50_percentile.
Print Assumptions C50_percentile_grows.
Print Assumptions C50_extremes.
Example C50_hypotheses_met : exists s, calculate_stats 2 [3; 1; 5] = Ok s.
Proof. eexists. reflexivity. Qed.

(** * C51 *)
(** the craters (diameters from 2^-99 to 2^99 km) given for bin i are those with diameters in the bin, n_event in number; all bins together give every crater once *)
Theorem C51_partition {A} craters bd idx (items : list A) :
  craters <> [] -> Forall (fun c => / 2 ^ 99 <= fst c <= 2 ^ 99) craters -> length items = length craters ->
  apply_binning craters "root-2" 0 = Ok (bd, Some idx) ->
  exists parts, mapM (fun b => bin_craters bd idx items (bin_key b)) (b_dmin bd) = Ok parts /\ length parts = length (b_dmin bd) /\
    Permutation (concat parts) items /\
    forall i, (i < length (b_dmin bd))%nat ->
      nth i parts [] = map snd (filter (fun p => Rleb (nth i (b_dmin bd) 0) (fst (fst p)) && Rltb (fst (fst p)) (nth i (b_dmax bd) 0)) (combine craters items)) /\
      INR (length (nth i parts [])) = nth i (b_nevent bd) 0.
Proof.
  intros NE F L E. pose proof (conj NE F : ordinary craters) as O. pose proof (ordinary_pos _ O) as P. assert (I : In "root-2"%string real_binnings) by (cbn; tauto).
  destruct (binning_conserves _ _ _ _ _ I NE P E) as (Ln & Le & Lm & Hb & _). destruct (one_bin_each _ _ _ _ _ I NE P E) as (idx' & Ei & Li & H1). injection Ei as <-.
  set (part := fun i => map snd (filter (fun p : R * R * A => in_range (nth i (b_dmin bd) 0) (nth i (b_dmax bd) 0) (fst p)) (combine craters items))).
  set (n := length (b_dmin bd)) in *. exists (map part (seq 0 n)).
  assert (M : mapM (fun b => bin_craters bd idx items (bin_key b)) (b_dmin bd) = Ok (map part (seq 0 n))).
  { replace (b_dmin bd) with (map (fun i => nth i (b_dmin bd) 0) (seq 0 n)) at 1 by (apply (nth_ext _ _ 0 0); [now rewrite map_length, seq_length|]; intros i Hi; rewrite map_length, seq_length in Hi; now rewrite (nth_map_seq _ n i 0 Hi)).
    assert (Q : forall l, Forall (fun i => (i < n)%nat) l -> mapM (fun b => bin_craters bd idx items (bin_key b)) (map (fun i => nth i (b_dmin bd) 0) l) = Ok (map part l)).
    { induction 1 as [|i l Hi _ IH]; [reflexivity|]. cbn [map mapM]. rewrite (bin_craters_spec craters bd idx items i O E Hi). cbn [bind]. rewrite IH. reflexivity. }
    apply Q. apply Forall_forall. intros i Ii. apply in_seq in Ii. lia. }
  split; [exact M|]. split; [now rewrite map_length, seq_length|]. split.
  - rewrite <- flat_map_concat_map. rewrite <- (combine_map_snd craters items) at 1 by now symmetry.
    assert (X : forall l, flat_map part l = map snd (flat_map (fun i => filter (fun p : R * R * A => in_range (nth i (b_dmin bd) 0) (nth i (b_dmax bd) 0) (fst p)) (combine craters items)) l)).
    { induction l as [|i l IH]; [reflexivity|]. cbn [flat_map]. rewrite map_app, IH. reflexivity. }
    rewrite X. apply Permutation_map. apply (partition_filters (fun i p => in_range (nth i (b_dmin bd) 0) (nth i (b_dmax bd) 0) (fst p)) n). apply Forall_forall. intros [c a] Ic.
    apply in_combine_l in Ic. apply (In_nth _ _ (0, 0)) in Ic. destruct Ic as (k & Lk & <-). destruct (H1 k Lk) as (i & _ & Hi & Ri & Ui). exists i. cbn [fst]. split; [exact Hi|]. split.
    + unfold in_range. apply andb_true_iff. split; [apply Rleb_true; lra|]. destruct (Rltb_spec (fst (nth k craters (0, 0))) (nth i (b_dmax bd) 0)); [reflexivity|lra].
    + intros j Hj Q. unfold in_range in Q. apply andb_true_iff in Q. destruct Q as [U V]. destruct (Rleb_spec (nth j (b_dmin bd) 0) (fst (nth k craters (0, 0)))); [|discriminate]. destruct (Rltb_spec (fst (nth k craters (0, 0))) (nth j (b_dmax bd) 0)); [|discriminate]. now apply Ui.
  - intros i Hi. rewrite (nth_map_seq part n i [] Hi). split; [reflexivity|]. destruct (Hb i Hi) as [_ ->]. f_equal. rewrite number_between_filter. unfold part. rewrite map_length.
    clear - L. revert items L. induction craters as [|c cs IH]; intros [|x items] L; try discriminate; [reflexivity|]. cbn [combine filter fst]. destruct (in_range _ _ c); cbn [length]; rewrite IH by (now injection L); reflexivity.
Qed.
(** the trials of a measure are those of the bins with at least 4 craters (sdaa) or 3 (m2cnd), each once, in order *)
Theorem C51_enough_craters {M} measure (run : R -> Z -> M) craters bd ri least :
  craters <> [] -> Forall (fun c => / 2 ^ 99 <= fst c <= 2 ^ 99) craters -> apply_binning craters "root-2" 0 = Ok (bd, ri) ->
  (measure = L "sdaa" /\ least = 4) \/ (measure = L "m2cnd" /\ least = 3) ->
  montecarlo_split measure run bd =
  Ok (map (fun p => (bin_key (fst p), run (fst p) (Rfloor (snd p)))) (filter (fun p => Rleb least (snd p)) (combine (b_dmin bd) (b_nevent bd)))) /\
  NoDup (map bin_key (b_dmin bd)).
Proof.
  intros NE F E Hm. pose proof (conj NE F : ordinary craters) as O. pose proof (keys_distinct _ _ _ O E) as KD. split; [|exact KD].
  destruct (ordinary_bins _ _ _ O E) as (z0 & n & Eb & _). unfold montecarlo_split. destruct (b_dmin bd) as [|b0 bs] eqn:B; [unfold grid_points in Eb; discriminate Eb|].
  assert (Kc : forall (a b : list R), NoDup (map bin_key a) -> NoDup (map (fun p => bin_key (fst p)) (combine a b))).
  { clear. induction a as [|x a IH]; intros [|y b] N; try constructor; inversion N; subst; [|now apply IH]. intros I. apply H1. apply in_map_iff in I. destruct I as ([u v] & Eu & Iu). apply in_combine_l in Iu. cbn [fst] in Eu. rewrite <- Eu. now apply in_map. }
  destruct Hm as [[-> ->]|[-> ->]]; cbn [min_count seqb bind]; [change (min_count (L "sdaa")) with (Ok 4%Z)|change (min_count (L "m2cnd")) with (Ok 3%Z)]; cbn [bind]; rewrite split_fold; try reflexivity; cbn [map app]; apply Kc; exact KD.
Qed.
(** a name that is not that of a bin of this count has no craters, and no points *)
Theorem C51_unknown_bin {A} bd idx (items : list A) bin r : ~ In bin (map bin_key (b_dmin bd)) -> bin_craters bd idx items bin = Ok r -> r = [].
Proof.
  intros N E. unfold bin_craters in E. destruct (mapM (fun i => pyindex (map bin_key (b_dmin bd)) (Z.of_nat i - 1)) idx) as [keys|] eqn:M; [|discriminate]. cbn [bind] in E. injection E as <-.
  assert (K : Forall (fun k => In k (map bin_key (b_dmin bd))) keys).
  { revert keys M. induction idx as [|i idx IH]; intros keys M; cbn [mapM] in M; [injection M as <-; constructor|]. destruct (pyindex (map bin_key (b_dmin bd)) (Z.of_nat i - 1)) as [k|] eqn:Pk; [|discriminate]. cbn [bind] in M.
    destruct (mapM (fun i => pyindex (map bin_key (b_dmin bd)) (Z.of_nat i - 1)) idx) as [ks|] eqn:M'; [|discriminate]. cbn [bind] in M. injection M as <-. constructor; [|now apply IH].
    unfold pyindex in Pk. set (j := if Z.ltb (Z.of_nat i - 1) 0 then _ else _) in Pk. destruct (Z.ltb j 0); [discriminate|]. destruct (nth_error (map bin_key (b_dmin bd)) (Z.to_nat j)) eqn:X; [|discriminate]. injection Pk as <-. now apply nth_error_In in X. }
  assert (X : filter (fun p : str * A => seqb (fst p) bin) (combine keys items) = []); [|now rewrite X].
  apply filter_none. apply Forall_forall. intros [k a] I. apply in_combine_l in I. cbn [fst]. destruct (seqb_spec k bin) as [->|]; [|reflexivity]. exfalso. apply N. exact (proj1 (Forall_forall _ _) K _ I).
Qed.
Print Assumptions C51_partition.
Print Assumptions C51_enough_craters.
Print Assumptions C51_unknown_bin.
Example C51_hypotheses_met : [(1, 1); (3, 1); (3, 1)] <> [] /\ Forall (fun c : R * R => / 2 ^ 99 <= fst c <= 2 ^ 99) [(1, 1); (3, 1); (3, 1)] /\ exists bd idx, apply_binning [(1, 1); (3, 1); (3, 1)] "root-2" 0 = Ok (bd, Some idx).
Proof.
  split; [discriminate|]. assert (1 <= 2 ^ 97) by (apply pow_R1_Rle; lra). assert (2 ^ 99 = 4 * 2 ^ 97) by (cbn [pow]; ring). assert (/ 2 ^ 99 <= 1) by (rewrite <- Rinv_1; apply Rinv_le_contravar; lra).
  split; [repeat constructor; cbn [fst]; lra|].
  destruct (apply_binning_spec [(1, 1); (3, 1); (3, 1)] "root-2" 0) as (z0 & n & bd & ri & E & _); [cbn; tauto|discriminate|repeat constructor; cbn [fst]; lra|]. eauto.
Qed.

(** * C69 *)
(** -measure: exactly the measures named, each once; a wrong name ends the program *)
Theorem C69_measures_named default a : a <> [] ->
  (Forall (fun m => m = L "m2cnd" \/ m = L "sdaa") (split_chr (ch ",") [] a) ->
   exists l, chosen_measures default (Some a) = Ok l /\ NoDup l /\ forall m, In m l <-> In m (split_chr (ch ",") [] a)) /\
  (Exists (fun m => m <> L "m2cnd" /\ m <> L "sdaa") (split_chr (ch ",") [] a) -> chosen_measures default (Some a) = Err SysExit).
Proof.
  intros NE. unfold chosen_measures. destruct a as [|c a]; [contradiction|]. set (parts := split_chr (ch ",") [] (c :: a)). set (l := nodup (list_eq_dec ascii_dec) parts).
  assert (Il : forall m, In m l <-> In m parts) by (intros m; apply nodup_In).
  assert (Nl : NoDup l) by apply NoDup_nodup.
  assert (Ok1 : forall m, existsb (seqb m) [L "m2cnd"; L "sdaa"] = true <-> m = L "m2cnd" \/ m = L "sdaa").
  { intros m. cbn [existsb]. rewrite orb_false_r, orb_true_iff. destruct (seqb_spec m (L "m2cnd")), (seqb_spec m (L "sdaa")); intuition congruence. }
  split; intros H.
  - assert (forallb (fun m => existsb (seqb m) [L "m2cnd"; L "sdaa"]) l = true) as ->.
    { apply forallb_forall. intros m Im. apply Ok1. apply Il in Im. exact (proj1 (Forall_forall _ _) H m Im). }
    exists l. auto.
  - assert (forallb (fun m => existsb (seqb m) [L "m2cnd"; L "sdaa"]) l = false) as ->; [|reflexivity].
    apply not_true_iff_false. intros X. rewrite forallb_forall in X. apply Exists_exists in H. destruct H as (m & Im & N1 & N2). apply Il in Im. apply X, Ok1 in Im. tauto.
Qed.
Theorem C69_default default : chosen_measures default None = Ok default.
Proof. reflexivity. Qed.
(** the other side: an empty value is not checked, and the analysis of the measure without name fails in every count with craters *)
Theorem C69_empty_refuted {M} default (run : R -> Z -> M) bd : b_dmin bd <> [] ->
  chosen_measures default (Some []) = Ok [[]] /\ montecarlo_split [] run bd = Err NameError.
Proof. intros NE. split; [reflexivity|]. unfold montecarlo_split. destruct (b_dmin bd); [contradiction|reflexivity]. Qed.
Print Assumptions C69_measures_named.
Print Assumptions C69_default.
Print Assumptions C69_empty_refuted.
Example C69_hypotheses_met : L "sdaa,m2cnd,sdaa" <> [] /\ Forall (fun m => m = L "m2cnd" \/ m = L "sdaa") (split_chr (ch ",") [] (L "sdaa,m2cnd,sdaa")) /\ Exists (fun m => m <> L "m2cnd" /\ m <> L "sdaa") (split_chr (ch ",") [] (L "sdaa,x")).
Proof. split; [discriminate|]. split. { change (split_chr (ch ",") [] (L "sdaa,m2cnd,sdaa")) with [L "sdaa"; L "m2cnd"; L "sdaa"]. constructor; [now right|]. constructor; [now left|]. constructor; [now right|constructor]. }
  change (split_chr (ch ",") [] (L "sdaa,x")) with [L "sdaa"; L "x"]. apply Exists_cons_tl, Exists_cons_hd. split; intros H; discriminate H. Qed.

(** * C70 *)
(** the number of cells along a side is a power of two that is at least 1 exactly if the globe is at least 60 / trials times the area *)
Theorem C70_cells planetary_radius area n : 0 < planetary_radius -> 0 < area -> 0 < n ->
  (60 * area <= 4 * PI * planetary_radius ^ 2 * n -> exists k, nside planetary_radius area n = 2 ^ k) /\
  (4 * PI * planetary_radius ^ 2 * n < 60 * area -> nside planetary_radius area n < 1).
Proof.
  intros Hr Ha Hn. unfold nside. set (g := 4 * PI * planetary_radius ^ 2). assert (Hg : 0 < g). { unfold g. pose proof PI_RGT_0. apply Rmult_lt_0_compat; [lra|]. now apply pow_lt. }
  assert (E : g / (area / (n / 10)) / 12 = g * n / (120 * area)) by (field; lra). rewrite E. set (q := g * n / (120 * area)).
  assert (Hq : 0 < q). { unfold q. apply Rdiv_lt_0_compat; [now apply Rmult_lt_0_compat|lra]. } rewrite log2_half by exact Hq. pose proof ln2_pos as L2.
  assert (Eq : q * (120 * area) = g * n) by (unfold q; field; lra).
  assert (Half : ln (/ 2) = - ln 2) by (apply ln_Rinv; lra). split; intros H.
  - assert (Q : / 2 <= q). { apply (Rmult_le_reg_r (120 * area)); [lra|]. rewrite Eq. lra. }
    assert (LQ : - ln 2 <= ln q). { rewrite <- Half. destruct (Rle_lt_or_eq_dec _ _ Q) as [T|<-]; [left; apply ln_increasing; lra|lra]. }
    assert (X : - (1 / 2) <= ln q / ln 2 / 2). { assert (-1 <= ln q / ln 2). { apply (Rmult_le_reg_r (ln 2)); [exact L2|]. replace (ln q / ln 2 * ln 2) with (ln q) by (field; lra). lra. } lra. }
    set (z := round_even (ln q / ln 2 / 2)). assert (Z0 : (0 <= z)%Z).
    { destruct (round_even_spec (ln q / ln 2 / 2)) as [A B]. fold z in A, B. destruct (Z.leb_spec 0 z) as [|G]; [assumption|]. exfalso. assert (ZL : (z <= -1)%Z) by lia. apply IZR_le in ZL.
      assert (D : Rabs (ln q / ln 2 / 2 - IZR z) = 1 / 2). { rewrite Rabs_right in * by lra. lra. }
      specialize (B D). rewrite Rabs_right in D by lra. assert (IZR z = -1) by lra. apply eq_IZR in H0. rewrite H0 in B. destruct B as [k Hk]. lia. }
    exists (Z.to_nat z). rewrite pow_powerRZ, Z2Nat.id by exact Z0. reflexivity.
  - assert (Q : q < / 2). { apply (Rmult_lt_reg_r (120 * area)); [lra|]. rewrite Eq. lra. }
    assert (LQ : ln q < - ln 2). { rewrite <- Half. apply ln_increasing; lra. }
    assert (X : ln q / ln 2 / 2 < - (1 / 2)). { assert (ln q / ln 2 < -1). { apply (Rmult_lt_reg_r (ln 2)); [exact L2|]. replace (ln q / ln 2 * ln 2) with (ln q) by (field; lra). lra. } lra. }
    set (z := round_even (ln q / ln 2 / 2)). assert (Z0 : (z < 0)%Z).
    { destruct (round_even_spec (ln q / ln 2 / 2)) as [A _]. fold z in A. destruct (Z.ltb_spec z 0) as [|G]; [assumption|]. exfalso. apply IZR_le in G. rewrite Rabs_left in A by lra. lra. }
    clearbody z. destruct z as [|p|p]; try lia. cbn [powerRZ]. rewrite <- Rinv_1. apply Rinv_lt_contravar.
    + rewrite Rmult_1_l. apply pow_lt. lra.
    + apply Rlt_pow_R1; [lra|]. apply Pos2Nat.is_pos.
Qed.
Theorem C70_few_trials_refuted planetary_radius : 0 < planetary_radius -> nside planetary_radius (4 * PI * planetary_radius ^ 2) 50 < 1.
Proof.
  intros Hr. assert (0 < 4 * PI * planetary_radius ^ 2). { pose proof PI_RGT_0. apply Rmult_lt_0_compat; [lra|]. now apply pow_lt. } apply C70_cells; lra.
Qed.
Print Assumptions C70_cells.
Print Assumptions C70_few_trials_refuted.
Example C70_hypotheses_met : 60 * 1 <= 4 * PI * 1 ^ 2 * 1000 /\ 4 * PI * 1 ^ 2 * 1 < 60 * 1.
Proof. pose proof PI_4. pose proof PI_RGT_0. pose proof (PI2_3_2). split; cbn [pow]; lra. Qed.

(** * C71 *)
(** the panels of the summary figure lie in the square, no two in the same place; one for each bin, and one for n_sigma *)
Theorem C71_panels n_bins n_sigma :
  length (panels n_bins n_sigma) = (n_bins + (if n_sigma then 1 else 0))%nat /\ NoDup (panels n_bins n_sigma) /\
  Forall (fun p => (0 <= fst p < panel_dim n_bins n_sigma)%Z /\ (0 <= snd p < panel_dim n_bins n_sigma)%Z) (panels n_bins n_sigma).
Proof.
  split; [|apply panels_spec]. unfold panels. rewrite app_length, map_length, seq_length. destruct n_sigma; reflexivity.
Qed.
(** -select: the bins chosen, counted from 1, in the order given; numbers that are no bin are left out; 0 is n_sigma *)
Theorem C71_selection {A} (bins : list A) sel : sel <> [] ->
  map Some (fst (select_bins bins (Some sel))) = map (fun i => nth_error bins (Z.to_nat (i - 1))) (filter (fun i => Z.leb 1 i && Z.leb i (Z.of_nat (length bins))) sel) /\
  (snd (select_bins bins (Some sel)) = true <-> In 0%Z sel).
Proof.
  intros NE. unfold select_bins. destruct sel as [|s0 sel]; [contradiction|]. cbn [fst snd]. split.
  - generalize (s0 :: sel) as l. clear. induction l as [|i l IH]; [reflexivity|]. cbn [flat_map filter]. rewrite map_app, IH. destruct (Z.leb_spec 1 i); cbn [andb]; [|reflexivity]. destruct (Z.leb_spec i (Z.of_nat (length bins))); [|reflexivity].
    cbn [map]. destruct (nth_error bins (Z.to_nat (i - 1))) eqn:E; [reflexivity|]. apply nth_error_None in E. lia.
  - rewrite existsb_exists. split; [intros (x & I & E); apply Z.eqb_eq in E; now subst|]. intros I. exists 0%Z. auto.
Qed.
Print Assumptions C71_panels.
Print Assumptions C71_selection.
Example C71_hypotheses_met : [3; 0; 9; 1]%Z <> [] /\ fst (select_bins [10; 20; 30]%Z (Some [3; 0; 9; 1]%Z)) = [30; 10]%Z.
Proof. split; [discriminate|reflexivity]. Qed.

(** * C72 *)
(** a random point lies in the enclosing limits, its longitude in proportion to one random number, the sine of its latitude to the other *)
Theorem C72_in_limits xr yr u v : fst xr <= snd xr -> -90 <= fst yr -> fst yr <= snd yr -> snd yr <= 90 -> 0 <= u <= 1 -> 0 <= v <= 1 ->
  let p := random_point xr yr u v in
  fst xr <= fst p <= snd xr /\ fst yr <= snd p <= snd yr /\
  fst p - fst xr = v * (snd xr - fst xr) /\
  sin (snd p * PI / 180) - sin (fst yr * PI / 180) = u * (sin (snd yr * PI / 180) - sin (fst yr * PI / 180)).
Proof.
  intros X Y0 Y Y1 U V. cbv zeta. unfold random_point. cbn [fst snd]. pose proof (sin_monotone _ _ Y0 Y Y1) as Sm. pose proof (uniform_between _ _ u Sm U) as B.
  destruct (asin_between (fst yr) (snd yr) (uniform (sin (radians (fst yr))) (sin (radians (snd yr))) u) Y0 Y Y1 B) as [A1 A2].
  split; [now apply uniform_between|]. split; [exact A1|]. split; [unfold uniform; ring|]. change (sin (degrees (asin (uniform (sin (radians (fst yr))) (sin (radians (snd yr))) u)) * PI / 180)) with (sin (radians (degrees (asin (uniform (sin (radians (fst yr))) (sin (radians (snd yr))) u))))). rewrite A2. unfold uniform, radians. ring.
Qed.
Print Assumptions C72_in_limits.
Example C72_hypotheses_met : fst (10, 20) <= snd (10, 20) /\ -90 <= fst (-5, 30) /\ fst (-5, 30) <= snd (-5, 30) /\ snd (-5, 30) <= 90 /\ 0 <= 1 / 3 <= 1.
Proof. cbn [fst snd]. lra. Qed.
