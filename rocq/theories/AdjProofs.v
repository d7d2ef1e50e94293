(** Lemmas on angles, standard deviations and outlines. *)
From Coq Require Import String Ascii List ZArith Reals Bool Permutation Sorted Lia Lra.
From Verif Require Import Base NumModel NumLemmas InterpProofs StrModel RaModel AdjModel AdjSpec.
Import ListNotations.
Local Open Scope R_scope.

(** ** Angles *)
Lemma sq_root_quotient x y : 0 < x -> sqrt (1 + (y / x)²) = sqrt (x ^ 2 + y ^ 2) / x.
Proof.
  intros H. replace (1 + (y / x)²) with ((x ^ 2 + y ^ 2) / x ^ 2) by (unfold Rsqr; field; lra).
  rewrite sqrt_div_alt by nra. f_equal. rewrite <- Rsqr_pow2. rewrite sqrt_Rsqr; lra.
Qed.
Lemma atan2_polar x y r : 0 < r -> r ^ 2 = x ^ 2 + y ^ 2 -> r * cos (atan2 y x) = x /\ r * sin (atan2 y x) = y.
Proof.
  intros Hr E. assert (Sr : sqrt (x ^ 2 + y ^ 2) = r) by (rewrite <- E, <- Rsqr_pow2; apply sqrt_Rsqr; lra).
  unfold atan2. destruct (Rltb_spec 0 x) as [P|P].
  - rewrite cos_atan, sin_atan, sq_root_quotient, Sr by exact P. split; field; lra.
  - destruct (Rltb_spec x 0) as [N|N].
    + assert (A : cos (atan (y / x)) = - x / r /\ sin (atan (y / x)) = - y / r).
      { replace (y / x) with ((- y) / (- x)) by (field; lra). rewrite cos_atan, sin_atan, sq_root_quotient by lra. replace ((- x) ^ 2 + (- y) ^ 2) with (x ^ 2 + y ^ 2) by ring. rewrite Sr. split; field; lra. }
      destruct A as [A B]. destruct (Rleb 0 y).
      * rewrite neg_cos, neg_sin, A, B. split; field; lra.
      * rewrite cos_minus, sin_minus, cos_PI, sin_PI, A, B. split; field; lra.
    + assert (x = 0) as -> by lra. assert (Y : r ^ 2 = y ^ 2) by lra. destruct (Rltb_spec 0 y).
      * rewrite cos_PI2, sin_PI2. assert (r = y) by nra. lra.
      * destruct (Rltb_spec y 0).
        -- rewrite cos_neg, sin_neg, cos_PI2, sin_PI2. assert (r = - y) by nra. lra.
        -- assert (y = 0) by lra. subst. nra.
Qed.
Lemma atan2_range x y : - PI < atan2 y x <= PI.
Proof.
  pose proof PI_RGT_0 as HP. unfold atan2. destruct (Rltb_spec 0 x) as [P|P]; [pose proof (atan_bound (y / x)); lra|].
  destruct (Rltb_spec x 0) as [N|N].
  - pose proof (atan_bound (y / x)) as B. destruct (Rleb_spec 0 y) as [Y|Y].
    + assert (y / x <= 0). { unfold Rdiv. pose proof (Rinv_lt_0_compat x N). nra. }
      assert (atan (y / x) <= 0). { rewrite <- atan_0. destruct (Rle_lt_or_eq_dec _ _ H) as [G| ->]; [left; now apply atan_increasing|lra]. } lra.
    + assert (0 < y / x). { unfold Rdiv. pose proof (Rinv_lt_0_compat x N). nra. }
      assert (0 < atan (y / x)) by (rewrite <- atan_0; now apply atan_increasing). lra.
  - destruct (Rltb 0 y); [lra|]. destruct (Rltb y 0); lra.
Qed.
Lemma cos_one_zero d : - (2 * PI) < d < 2 * PI -> cos d = 1 -> d = 0.
Proof.
  intros B C. pose proof PI_RGT_0 as HP. assert (S2 : sin (d / 2) * sin (d / 2) = 0). { pose proof (cos_2a_sin (d / 2)) as Q. replace (2 * (d / 2)) with d in Q by lra. lra. }
  assert (S : sin (d / 2) = 0) by nra. destruct (Rtotal_order d 0) as [H|[H|H]]; [|exact H|].
  - assert (0 < sin (- (d / 2))) by (apply sin_gt_0; lra). rewrite sin_neg in H0. lra.
  - assert (0 < sin (d / 2)) by (apply sin_gt_0; lra). lra.
Qed.
Lemma atan2_angle c t : 0 < c -> - PI < t <= PI -> atan2 (c * sin t) (c * cos t) = t.
Proof.
  intros Hc B. pose proof (sin2_cos2 t) as S2. unfold Rsqr in S2.
  destruct (atan2_polar (c * cos t) (c * sin t) c Hc) as [X Y]. { transitivity (c ^ 2 * (sin t * sin t + cos t * cos t)); [rewrite S2; ring|ring]. }
  pose proof (atan2_range (c * cos t) (c * sin t)) as B'. set (u := atan2 (c * sin t) (c * cos t)) in *. assert (X' : cos u = cos t) by nra. assert (Y' : sin u = sin t) by nra.
  enough (u - t = 0) by lra. apply cos_one_zero; [lra|]. rewrite cos_minus, X', Y'. lra.
Qed.
Lemma radians_degrees a : radians (degrees a) = a.
Proof. pose proof PI_RGT_0. unfold radians, degrees. field. lra. Qed.
Lemma degrees_radians a : degrees (radians a) = a.
Proof. pose proof PI_RGT_0. unfold radians, degrees. field. lra. Qed.
Lemma to_xyz_on_sphere p : to_xyz p = on_sphere p.
Proof. unfold to_xyz, on_sphere, radians. replace (fst p * PI / 180) with (fst p * (PI / 180)) by (unfold Rdiv; ring). replace (snd p * PI / 180) with (snd p * (PI / 180)) by (unfold Rdiv; ring). reflexivity. Qed.
Lemma to_xyz_to_lonlat v : unit_vector v -> to_xyz (to_lonlat v) = v.
Proof.
  destruct v as [[x y] z]. cbn [unit_vector]. intros U. unfold to_lonlat, to_xyz. cbn [fst snd]. rewrite !radians_degrees.
  assert (Z : -1 <= z <= 1) by nra. rewrite sin_asin, cos_asin by exact Z. destruct (Req_dec (x ^ 2 + y ^ 2) 0) as [E|E].
  - assert (x = 0) by nra. assert (y = 0) by nra. subst. assert (1 - z² = 0) as -> by (unfold Rsqr; nra). rewrite sqrt_0, !Rmult_0_l. reflexivity.
  - assert (P : 0 < x ^ 2 + y ^ 2) by nra. assert (Q : 1 - z² = x ^ 2 + y ^ 2) by (unfold Rsqr; nra). rewrite Q.
    destruct (atan2_polar x y (sqrt (x ^ 2 + y ^ 2))) as [-> ->]; [now apply sqrt_lt_R0| |reflexivity]. rewrite pow2_sqrt; lra.
Qed.
Lemma to_lonlat_to_xyz p : -180 < fst p <= 180 -> -90 < snd p < 90 -> to_lonlat (to_xyz p) = p.
Proof.
  intros A B. destruct p as [lon lat]. cbn [fst snd] in *. unfold to_xyz, to_lonlat. cbn [fst snd]. pose proof PI_RGT_0 as HP.
  assert (X : - PI < radians lon <= PI) by (unfold radians; nra). assert (Y : - (PI / 2) < radians lat < PI / 2) by (unfold radians; nra).
  rewrite atan2_angle; [|apply cos_gt_0; lra|exact X]. rewrite asin_sin by lra. now rewrite !degrees_radians.
Qed.
Lemma to_lonlat_range v : unit_vector v -> -180 < fst (to_lonlat v) <= 180 /\ -90 <= snd (to_lonlat v) <= 90.
Proof.
  destruct v as [[x y] z]. intros _. unfold to_lonlat. cbn [fst snd]. pose proof PI_RGT_0 as HP. pose proof (atan2_range x y) as A. pose proof (asin_bound z) as B.
  assert (I : 0 < / PI) by (apply Rinv_0_lt_compat; lra). assert (J : PI * / PI = 1) by (field; lra).
  set (a := atan2 y x) in *. set (b := asin z) in *. clearbody a b. unfold degrees, Rdiv. split; split; nra.
Qed.

(** ** Standard deviations *)
Lemma Rsum_add {A} (f g : A -> R) l : Rsum (map (fun x => f x + g x) l) = Rsum (map f l) + Rsum (map g l).
Proof. induction l as [|x l IH]; cbn; [lra|]. unfold Rsum in *. rewrite IH. lra. Qed.
Lemma Rsum_mul {A} (f : A -> R) c l : Rsum (map (fun x => c * f x) l) = c * Rsum (map f l).
Proof. induction l as [|x l IH]; cbn; [lra|]. unfold Rsum in *. rewrite IH. lra. Qed.
Lemma Rsum_const {A} c (l : list A) : Rsum (map (fun _ => c) l) = c * INR (length l).
Proof. induction l as [|x l IH]; [cbn; lra|]. cbn [map length]. rewrite S_INR. unfold Rsum in *. cbn [fold_right]. rewrite IH. lra. Qed.
Lemma len_pos {A} (l : list A) : l <> [] -> 0 < INR (length l).
Proof. intros H. apply lt_0_INR. destruct l; [congruence|cbn; lia]. Qed.
Lemma average_mean l a : l <> [] -> (average l a <-> a = mean l).
Proof. intros H. pose proof (len_pos l H). unfold average, mean. split; [intros E; rewrite <- E; field; lra|intros ->; field; lra]. Qed.
Lemma squares_nonneg (a : R) l : 0 <= Rsum (map (fun x => (x - a) ^ 2) l).
Proof. apply Rsum_nonneg. apply Forall_forall. intros y I. apply in_map_iff in I. destruct I as (x & <- & _). apply pow2_ge_0. Qed.
Lemma variance l : l <> [] -> std l ^ 2 * INR (length l) = Rsum (map (fun x => (x - mean l) ^ 2) l).
Proof.
  intros H. pose proof (len_pos l H) as P. unfold std. rewrite pow2_sqrt; [field; lra|]. apply Rmult_le_pos; [apply squares_nonneg|]. left. now apply Rinv_0_lt_compat.
Qed.
Lemma std_nonneg l : 0 <= std l.
Proof. apply sqrt_pos. Qed.
Lemma std_deviation l : l <> [] -> deviation l (std l).
Proof. intros H. split; [apply std_nonneg|]. intros a A. apply average_mean in A; [|exact H]. subst a. unfold average. rewrite map_length. now apply variance. Qed.
Lemma deviation_std l s : l <> [] -> deviation l s -> s = std l.
Proof.
  intros H [P A]. specialize (A (mean l) (proj2 (average_mean l _ H) eq_refl)). unfold average in A. rewrite map_length, <- variance in A by exact H. pose proof (len_pos l H). pose proof (std_nonneg l). apply Rmult_eq_reg_r in A; [|lra]. apply Rsqr_inj; [exact P|assumption|]. rewrite !Rsqr_pow2. exact A.
Qed.
Lemma squares_expand (a : R) l : Rsum (map (fun x => (x - a) ^ 2) l) = Rsum (map (fun x => x ^ 2) l) - 2 * a * Rsum l + a ^ 2 * INR (length l).
Proof. induction l as [|x l IH]; [cbn; lra|]. cbn [map length]. rewrite S_INR. unfold Rsum in *. cbn [fold_right]. rewrite IH. ring. Qed.
Lemma variance_mean_square l : l <> [] -> std l ^ 2 = mean (map (fun x => x ^ 2) l) - mean l ^ 2.
Proof.
  intros H. pose proof (len_pos l H) as P. pose proof (variance l H) as V. rewrite squares_expand in V. unfold mean in *. rewrite map_length. apply (Rmult_eq_reg_r (INR (length l))); [|lra]. rewrite V. field. lra.
Qed.
Lemma std_zero l : l <> [] -> (std l = 0 <-> forall x y, In x l -> In y l -> x = y).
Proof.
  intros H. pose proof (variance l H) as V. pose proof (len_pos l H) as P. split.
  - intros E. rewrite E in V. assert (Z : Rsum (map (fun x => (x - mean l) ^ 2) l) = 0) by lra. clear V E.
    assert (Q : forall m, Rsum (map (fun x => (x - mean l) ^ 2) m) = 0 -> forall x, In x m -> x = mean l).
    { induction m as [|y m IH]; intros E x I; [destruct I|]. cbn [map] in E. unfold Rsum in E. cbn [fold_right] in E. fold (Rsum (map (fun x => (x - mean l) ^ 2) m)) in E.
      pose proof (squares_nonneg (mean l) m). pose proof (pow2_ge_0 (y - mean l)). destruct I as [->|I]; [|apply IH; [lra|exact I]]. assert ((x - mean l) ^ 2 = 0) by lra. nra. }
    intros x y Ix Iy. rewrite (Q l Z x Ix), (Q l Z y Iy). reflexivity.
  - intros E. assert (Q : forall x, In x l -> x = mean l).
    { intros x I. assert (M : Rsum l = x * INR (length l)). { rewrite <- (Rsum_const x l). f_equal. rewrite <- (map_id l) at 1. apply map_ext_in. intros y Iy. now apply E. } unfold mean. rewrite M. field. lra. }
    assert (Z : Rsum (map (fun x => (x - mean l) ^ 2) l) = 0). { apply Rsum_zero. apply Forall_forall. intros y I. apply in_map_iff in I. destruct I as (x & <- & I). rewrite (Q x I) at 1. ring. }
    rewrite Z in V. apply Rmult_integral in V. destruct V as [V|V]; [|lra]. replace (std l ^ 2) with (std l * std l) in V by ring. apply Rmult_integral in V. tauto.
Qed.
Lemma mean_perm l m : Permutation l m -> mean l = mean m.
Proof. intros P. unfold mean. now rewrite (Rsum_perm _ _ P), (Permutation_length P). Qed.
Lemma std_perm l m : Permutation l m -> std l = std m.
Proof. intros P. unfold std. rewrite (mean_perm _ _ P), (Permutation_length P). do 2 f_equal. apply Rsum_perm. now apply Permutation_map. Qed.
Lemma mean_affine k c l : l <> [] -> mean (map (fun x => k * x + c) l) = k * mean l + c.
Proof.
  intros H. pose proof (len_pos l H). unfold mean. rewrite map_length. rewrite (Rsum_add (fun x => k * x) (fun _ => c)), Rsum_const. rewrite (Rsum_mul (fun x => x)), map_id. field. lra.
Qed.
Lemma std_affine k c l : l <> [] -> 0 <= k -> std (map (fun x => k * x + c) l) = k * std l.
Proof.
  intros H K. symmetry. apply deviation_std; [now destruct l|]. pose proof (std_nonneg l) as S0. split; [nra|]. intros a A. apply average_mean in A; [|now destruct l]. rewrite mean_affine in A by exact H. subst a.
  unfold average. rewrite !map_length, map_map. transitivity (k ^ 2 * (std l ^ 2 * INR (length l))); [ring|]. rewrite variance by exact H. rewrite <- Rsum_mul. f_equal. apply map_ext. intros x. ring.
Qed.
(** a value of the list *)
Lemma Rsum_sq_bound l : Rsum l ^ 2 <= INR (length l) * Rsum (map (fun x => x ^ 2) l).
Proof.
  destruct l as [|y l]; [cbn; lra|]. set (m := y :: l). assert (H : m <> []) by discriminate. pose proof (len_pos m H) as P. pose proof (squares_nonneg (mean m) m) as Q. rewrite squares_expand in Q. unfold mean in Q.
  assert (E : Rsum (map (fun x => x ^ 2) m) - 2 * (Rsum m / INR (length m)) * Rsum m + (Rsum m / INR (length m)) ^ 2 * INR (length m) = Rsum (map (fun x => x ^ 2) m) - Rsum m ^ 2 / INR (length m)) by (field; lra).
  rewrite E in Q. apply (Rmult_le_reg_r (/ INR (length m))); [now apply Rinv_0_lt_compat|]. replace (INR (length m) * Rsum (map (fun x => x ^ 2) m) * / INR (length m)) with (Rsum (map (fun x => x ^ 2) m)) by (field; lra). unfold Rdiv in Q. lra.
Qed.
(** Samuelson's inequality *)
Lemma within_of_mean l x : In x l -> (x - mean l) ^ 2 <= (INR (length l) - 1) * std l ^ 2.
Proof.
  intros I. assert (H : l <> []) by (intros ->; destruct I). pose proof (len_pos l H) as P. apply in_split in I. destruct I as (l1 & l2 & E). set (a := mean l).
  assert (Pe : Permutation l (x :: l1 ++ l2)) by (rewrite E; symmetry; apply Permutation_middle). set (r := l1 ++ l2) in *.
  pose proof (variance l H) as V. fold a in V. rewrite (Rsum_perm _ _ (Permutation_map (fun x => (x - a) ^ 2) Pe)) in V. cbn [map] in V. unfold Rsum in V. cbn [fold_right] in V. fold (Rsum (map (fun x => (x - a) ^ 2) r)) in V.
  assert (S0 : Rsum (map (fun y => y - a) r) = - (x - a)).
  { assert (T : Rsum l = a * INR (length l)) by (unfold a, mean; field; lra). rewrite (Rsum_perm _ _ Pe), (Permutation_length Pe) in T. cbn [length] in T. rewrite S_INR in T. unfold Rsum in T. cbn [fold_right] in T. fold (Rsum r) in T.
    rewrite (Rsum_add (fun y => y) (fun _ => - a)), Rsum_const, map_id. lra. }
  pose proof (Rsum_sq_bound (map (fun y => y - a) r)) as Q. rewrite S0, map_map, map_length in Q. assert (N : INR (length l) = INR (length r) + 1) by (rewrite (Permutation_length Pe); cbn [length]; apply S_INR).
  set (q := Rsum (map (fun x => (x - a) ^ 2) r)) in *. set (s2 := std l ^ 2) in *. rewrite N in *. replace ((- (x - a)) ^ 2) with ((x - a) ^ 2) in Q by ring. set (d2 := (x - a) ^ 2) in *.
  assert (B : (INR (length r) + 1) * d2 <= (INR (length r) + 1) * (INR (length r) * s2)). { replace ((INR (length r) + 1) * (INR (length r) * s2)) with (INR (length r) * (s2 * (INR (length r) + 1))) by ring. rewrite V. lra. }
  apply Rmult_le_reg_l in B; [|lra]. lra.
Qed.
(** Chebyshev's inequality *)
Lemma far_few l k (far : R -> bool) : (forall x, far x = true -> k ^ 2 * std l ^ 2 <= (x - mean l) ^ 2) -> l <> [] ->
  INR (length (filter far l)) * (k ^ 2 * std l ^ 2) <= INR (length l) * std l ^ 2.
Proof.
  intros F H. rewrite (Rmult_comm (INR (length l))), variance by exact H. set (b := k ^ 2 * std l ^ 2) in *. set (a := mean l) in *. assert (Q : forall m, INR (length (filter far m)) * b <= Rsum (map (fun x => (x - a) ^ 2) m)); [|apply Q].
  induction m as [|x m IH]; [cbn; lra|]. cbn [filter map]. unfold Rsum in *. cbn [fold_right]. pose proof (pow2_ge_0 (x - a)). destruct (far x) eqn:Fx; [|lra]. cbn [length]. rewrite S_INR. specialize (F x Fx). lra.
Qed.
