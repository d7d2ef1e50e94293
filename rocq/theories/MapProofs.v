(** Lemmas about the model of spatial counts. *)
From Coq Require Import String Ascii List ZArith Reals Bool Lra Lia Ratan Sorting.
From Verif Require Import Base NumModel NumLemmas StrModel CliModel FmtModel FmtProofs PlotModel PlotProofs2 PlotProps InterpProofs SccModel MapModel MapSpec.
Import ListNotations.
Local Open Scope R_scope.

Lemma Reqb_true x y : x = y -> Reqb x y = true.
Proof. intros H. destruct (Reqb_spec x y); [reflexivity|contradiction]. Qed.
Lemma Reqb_false x y : x <> y -> Reqb x y = false.
Proof. intros H. destruct (Reqb_spec x y); [contradiction|reflexivity]. Qed.
(** ** diameters *)
Lemma cap_diameter_ok r a : 0 < r -> 0 < a -> a <= 4 * PI * r ^ 2 ->
  exists d, cap_diameter r a = Ok d /\ cap_area r d = a /\ 0 < d <= 2 * PI * r.
Proof.
  intros Hr Ha Hm. unfold cap_diameter. pose proof PI_RGT_0 as HP. assert (R2 : 0 < r ^ 2) by nra.
  set (k := 2 * PI * r ^ 2). assert (K : 0 < k) by (unfold k; apply Rmult_lt_0_compat; [lra|exact R2]).
  assert (Q : 0 < a / k <= 2). { split; [now apply Rdiv_lt_0_compat|]. apply (Rmult_le_reg_r k); [exact K|]. replace (a / k * k) with a by (field; lra). unfold k. lra. }
  rewrite (Rleb_true (-1) (1 - a / k)), (Rleb_true (1 - a / k) 1) by lra. cbn [andb].
  eexists. split; [reflexivity|]. split.
  - unfold cap_area. replace (2 * r * acos (1 - a / k) / (2 * r)) with (acos (1 - a / k)) by (field; lra). rewrite cos_acos by lra. fold k. field. lra.
  - pose proof (acos_bound (1 - a / k)) as B.
    assert (P : 0 < acos (1 - a / k)). { pose proof (acos_decr (1 - a / k) 1 ltac:(lra) ltac:(lra) ltac:(lra)) as D. rewrite acos_1 in D. exact D. }
    split; nra.
Qed.

(** ** fractions *)
Lemma af2lf_zero : af2lf 0 = Ok 0.
Proof.
  pose proof (af2lf_at 0 ltac:(lia)) as E. cbn [INR] in E. replace (0 / 99) with 0 in E by field. now rewrite area_fraction_0 in E.
Qed.
Lemma af2lf_pos a y : 0 < a -> af2lf a = Ok y -> 0 < y.
Proof.
  intros H E. pose proof af2lf_zero as Z. rewrite af2lf_table in E, Z.
  apply (interp_lt af_table 0 a 0 y af_sorted_x af_sorted_y H); [| |exact Z|exact E].
  - rewrite af_nth by lia. cbn [fst]. replace (INR 0 / 99) with 0 by (cbn [INR]; field). rewrite area_fraction_0. lra.
  - rewrite af_length. change (100 - 1)%nat with 99%nat. rewrite af_nth by lia. cbn [fst]. rewrite <- area_fraction_0 at 1.
    replace (INR 99 / 99) with 1 by (rewrite INR_99; field). apply area_fraction_lt; lra.
Qed.

(** ** Ranges *)
Lemma range_spans xs : xs <> [] -> exists a b, range xs = Ok (a, b) /\ spans xs a b.
Proof.
  destruct xs as [|x l]; [contradiction|]. intros _. exists (list_min x l), (list_max x l). split; [reflexivity|].
  split; [apply list_min_in|]. split; [apply list_max_in|]. intros y I. split; [now apply list_min_le|now apply list_max_ge].
Qed.
Lemma spans_app xs ys a b c d : spans xs a b -> spans (ys ++ [a; b]) c d -> spans (xs ++ ys) c d.
Proof.
  intros (A & B & U) (C & D & V). 
  assert (AI : In a (ys ++ [a; b])) by (apply in_or_app; right; left; reflexivity).
  assert (BI : In b (ys ++ [a; b])) by (apply in_or_app; right; right; left; reflexivity).
  assert (M : forall z, In z (ys ++ [a; b]) -> In z (xs ++ ys)).
  { intros z I. apply in_app_or in I as [I|[<-|[<-|[]]]]; apply in_or_app; auto. }
  split; [now apply M|]. split; [now apply M|]. intros z I. apply in_app_or in I as [I|I].
  - specialize (U z I). specialize (V a AI) as Va. specialize (V b BI) as Vb. lra.
  - apply V. apply in_or_app. now left.
Qed.
Lemma grow_all_some l : Forall (fun xs => xs <> []) l -> forall xs a b, spans xs a b ->
  exists c d, grow_all (Some (a, b)) l = Ok (Some (c, d)) /\ spans (xs ++ concat l) c d.
Proof.
  induction 1 as [|ys l N F IH]; intros xs a b S0.
  - exists a, b. cbn. rewrite app_nil_r. auto.
  - cbn [grow_all]. unfold grow. destruct (range_spans (ys ++ [a; b])) as (c & d & E & S1); [destruct ys; discriminate|].
    rewrite E. cbn [bind]. pose proof (spans_app _ _ _ _ _ _ S0 S1) as S2. destruct (IH _ _ _ S2) as (e & f & E' & S3).
    exists e, f. split; [exact E'|]. cbn [concat]. now rewrite app_assoc.
Qed.
Lemma extent_spans es rs : es <> [] -> Forall (fun xs => xs <> []) es -> Forall (fun xs => xs <> []) rs ->
  exists a b, extent es rs = Ok (a, b) /\ spans (concat es ++ concat rs) a b.
Proof.
  intros N Fe Fr. destruct es as [|e es]; [contradiction|]. inversion Fe; subst. unfold extent. cbn [grow_all]. unfold grow at 1.
  destruct (range_spans e) as (a & b & E & S0); [assumption|]. rewrite E. cbn [bind].
  destruct (grow_all_some es H2 e a b S0) as (c & d & E1 & S1). rewrite E1. cbn [bind].
  destruct (grow_all_some rs Fr _ _ _ S1) as (u & v & E2 & S2). rewrite E2. cbn [bind]. exists u, v. split; [reflexivity|]. exact S2.
Qed.
Lemma widened_ok m a b : a <= b -> widened m (a, b) = Ok (a - m * (b - a), b + m * (b - a)).
Proof.
  intros H. unfold widened, range. cbn [fst snd bind list_min list_max fold_right]. rewrite Rmin_right, Rmax_left by lra. f_equal. f_equal; ring.
Qed.

(** ** Rims *)
Lemma origin_eqb_spec a b : origin_eqb a b = true <-> a = b.
Proof.
  unfold origin_eqb. rewrite andb_true_iff, !Z.eqb_eq. destruct a, b. cbn. split; [intros (-> & ->); reflexivity|intros E; injection E; auto].
Qed.
Definition rim (proj : Z * Z -> projection) (ns : nat) (c : R * pt) : ring :=
  let o := origin_of (fst (snd c)) (snd (snd c)) in
  let q := snd (proj o) (snd c) in
  map (fun e => fst (proj o) (fst q + fst e * (fst c * 1000 / 2), snd q + snd e * (fst c * 1000 / 2))) (circle ns).
Lemma rims_cache proj ns cs : forall t, Forall (fun e => snd e = proj (fst e)) t -> rims_from proj ns cs t = map (rim proj ns) cs.
Proof.
  induction cs as [|(d & (x & y)) cs IH]; intros t F; [reflexivity|]. cbn [rims_from map]. cbv zeta. set (o := origin_of x y).
  assert (G : forall t', Forall (fun e => snd e = proj (fst e)) t' -> forall e, find (fun e => origin_eqb (fst e) o) t' = Some e -> e = (o, proj o)).
  { intros t' F' e E. apply find_some in E as (I & E). rewrite Forall_forall in F'. specialize (F' e I). apply origin_eqb_spec in E. destruct e as (a & b). cbn in *. now subst. }
  assert (D : exists t', Forall (fun e => snd e = proj (fst e)) t' /\ (match find (fun e => origin_eqb (fst e) o) t with Some _ => t | None => (o, proj o) :: t end) = t'
     /\ find (fun e => origin_eqb (fst e) o) t' = Some (o, proj o)).
  { destruct (find (fun e => origin_eqb (fst e) o) t) as [e|] eqn:E.
    - exists t. split; [exact F|]. split; [reflexivity|]. rewrite E. f_equal. now apply (G t F).
    - exists ((o, proj o) :: t). split; [constructor; [reflexivity|exact F]|]. split; [reflexivity|]. cbn [find fst].
      now rewrite (proj2 (origin_eqb_spec o o) eq_refl). }
  destruct D as (t' & F' & -> & ->). unfold rim at 1. cbn [fst snd]. fold o. destruct (proj o) as (back & to). cbn [fst snd].
  destruct (to (x, y)) as (dx & dy). cbn [fst snd]. f_equal. now apply IH.
Qed.
Lemma origin_near x y : let o := origin_of x y in Rabs (x - IZR (fst o)) <= 5 / 2 /\ Rabs (y - IZR (snd o)) <= 5 / 2.
Proof.
  assert (Q : forall z, Rabs (z - IZR (round_even (z / 5) * 5)) <= 5 / 2).
  { intros z. rewrite mult_IZR. destruct (round_even_spec (z / 5)) as (A & _). apply Rabs_le_inv in A. apply Rabs_le. lra. }
  cbn. split; apply Q.
Qed.
Lemma origin_on_globe x y : on_globe (x, y) -> on_globe (IZR (fst (origin_of x y)), IZR (snd (origin_of x y))).
Proof.
  unfold on_globe. cbn [fst snd origin_of]. intros ((A & B) & C & D).
  assert (H1 := round_even_ge (x / 5) (-36) ltac:(lra)). assert (H2 := round_even_le (x / 5) 36 ltac:(lra)).
  assert (H3 := round_even_ge (y / 5) (-18) ltac:(lra)). assert (H4 := round_even_le (y / 5) 18 ltac:(lra)).
  apply IZR_le in H1, H2, H3, H4. rewrite !mult_IZR. lra.
Qed.
Lemma circle_length ns : length (circle ns) = S ns.
Proof. unfold circle. now rewrite map_length, seq_length. Qed.
Lemma circle_nth ns i : (i <= ns)%nat -> nth i (circle ns) (0, 0) = (cos (2 * PI * INR i / INR ns), sin (2 * PI * INR i / INR ns)).
Proof.
  intros H. unfold circle. set (f := fun i => (cos (2 * PI * INR i / INR ns), sin (2 * PI * INR i / INR ns))).
  rewrite (nth_indep _ _ (f O)) by (rewrite map_length, seq_length; lia). rewrite map_nth. rewrite seq_nth by lia. reflexivity.
Qed.
