(** Worker processes, progress, statistics, stored trials, panels, random points. *)
From Coq Require Import String Ascii List ZArith Reals Bool Permutation Sorted Lia Lra Ratan.
From Verif Require Import Base NumModel NumLemmas StrModel StrProofs CliModel FmtModel RaModel RaSpec RaProofs RaProofs2.
Import ListNotations.
Local Open Scope R_scope.

(** * The pool *)
Definition taken (a : action) : option nat := match a with Take w => Some w | Finish _ => None end.
Section Pool.
Context {Measure Rng : Type} (trial : nat -> Rng -> Measure * Rng) (start : nat -> Rng).
Fixpoint rng_after (i : nat) (rng : nat -> Rng) (takers : list nat) : nat -> Rng :=
  match takers with [] => rng | w :: r => rng_after (S i) (fun v => if Nat.eqb v w then snd (trial i (rng w)) else rng v) r end.
Lemma rng_after_snoc l w : forall i rng, rng_after i rng (l ++ [w]) =
  fun v => if Nat.eqb v w then snd (trial (i + length l) (rng_after i rng l w)) else rng_after i rng l v.
Proof.
  induction l as [|u l IH]; intros i rng; [cbn; now rewrite Nat.add_0_r|]. cbn [app rng_after]. rewrite IH. cbn [length]. now rewrite Nat.add_succ_comm.
Qed.
Lemma one_after_length l : forall i rng, length (one_after_the_other trial i rng l) = length l.
Proof. induction l as [|u l IH]; intros i rng; [reflexivity|]. cbn. now rewrite IH. Qed.
Lemma one_after_snoc l w : forall i rng, one_after_the_other trial i rng (l ++ [w]) =
  one_after_the_other trial i rng l ++ [fst (trial (i + length l) (rng_after i rng l w))].
Proof.
  induction l as [|u l IH]; intros i rng; [cbn; now rewrite Nat.add_0_r|]. cbn [app one_after_the_other rng_after]. rewrite IH. cbn [length]. now rewrite Nat.add_succ_comm.
Qed.
Notation vals tk := (one_after_the_other trial 0 start tk).
(** everything taken up is done or under way, once *)
Definition pool_inv (workers trials : nat) (p : pool Measure Rng) (tk : list nat) : Prop :=
  p_next _ _ p = length tk /\ (length tk <= trials)%nat /\ p_rng _ _ p = rng_after 0 start tk /\
  (forall k m, In (k, m) (p_done _ _ p) -> nth_error (vals tk) k = Some m) /\
  (forall w k m, p_busy _ _ p w = Some (k, m) -> (w < workers)%nat /\ nth_error (vals tk) k = Some m) /\
  (forall k, (k < length tk)%nat -> In k (map fst (p_done _ _ p)) \/ exists w m, p_busy _ _ p w = Some (k, m)).
Lemma pool0_inv workers trials : pool_inv workers trials (pool0 _ _ start) [].
Proof.
  unfold pool_inv. cbn. split; [reflexivity|]. split; [lia|]. split; [reflexivity|]. split; [contradiction|]. split; [discriminate|]. intros k L. lia.
Qed.
Lemma nth_error_snoc {A} (l : list A) x k y : nth_error l k = Some y -> nth_error (l ++ [x]) k = Some y.
Proof. intros E. rewrite nth_error_app1; [exact E|]. apply nth_error_Some. now rewrite E. Qed.
Lemma step_inv workers trials p tk a p' : pool_inv workers trials p tk -> step _ _ trial workers trials p a = Some p' ->
  pool_inv workers trials p' (tk ++ match taken a with Some w => [w] | None => [] end).
Proof.
  intros (Nx & Le & Rn & Do & Bu & All) E. destruct a as [w|w]; cbn [step taken] in *.
  - destruct (p_busy _ _ p w) eqn:B; [discriminate|]. destruct (Nat.ltb_spec w workers) as [Lw|]; [|discriminate]. destruct (Nat.ltb_spec (p_next _ _ p) trials) as [L|]; [|discriminate].
    cbn [andb] in E. destruct (trial (p_next _ _ p) (p_rng _ _ p w)) as [m r] eqn:T. injection E as <-. rewrite Nx, Rn in T.
    unfold pool_inv. cbn [p_next p_busy p_rng p_done]. rewrite app_length, rng_after_snoc, one_after_snoc. cbn [length Nat.add]. rewrite T. cbn [fst snd].
    assert (Last : nth_error (vals tk ++ [m]) (length tk) = Some m). { rewrite nth_error_app2; rewrite one_after_length; [|lia]. now rewrite Nat.sub_diag. }
    repeat split; try lia.
    + rewrite Rn. reflexivity.
    + intros k m' I. apply nth_error_snoc. auto.
    + unfold set_at in H. destruct (Nat.eqb_spec w0 w) as [->|]; [injection H as <- <-; exact Lw|]. destruct (Bu _ _ _ H). assumption.
    + unfold set_at in H. destruct (Nat.eqb_spec w0 w) as [->|]; [injection H as <- <-; rewrite Nx; exact Last|]. destruct (Bu _ _ _ H). now apply nth_error_snoc.
    + intros k Lk. destruct (Nat.eq_dec k (length tk)) as [->|D].
      * right. exists w, m. unfold set_at. now rewrite Nat.eqb_refl, Nx.
      * destruct (All k) as [I|(v & m' & Ev)]; [lia|auto|]. right. exists v, m'. unfold set_at. destruct (Nat.eqb_spec v w) as [->|]; [congruence|exact Ev].
  - rewrite app_nil_r. destruct (p_busy _ _ p w) as [[k0 m0]|] eqn:B; [|discriminate]. injection E as <-. unfold pool_inv. cbn [p_next p_busy p_rng p_done]. repeat split; auto.
    + intros k m I. apply in_app_or in I. destruct I as [I|[I|[]]]; [auto|]. injection I as <- <-. exact (proj2 (Bu _ _ _ B)).
    + unfold set_at in H. destruct (Nat.eqb w0 w); [discriminate|]. exact (proj1 (Bu _ _ _ H)).
    + unfold set_at in H. destruct (Nat.eqb w0 w); [discriminate|]. exact (proj2 (Bu _ _ _ H)).
    + intros k Lk. rewrite map_app, in_app_iff. cbn. destruct (All k Lk) as [I|(v & m' & Ev)]; [auto|]. destruct (Nat.eq_dec v w) as [->|D].
      * rewrite B in Ev. injection Ev as <- <-. auto.
      * right. exists v, m'. unfold set_at. destruct (Nat.eqb_spec v w); [contradiction|exact Ev].
Qed.
Lemma exec_inv workers trials l : forall p tk p', pool_inv workers trials p tk -> exec _ _ trial workers trials p l = Some p' ->
  pool_inv workers trials p' (tk ++ takers_of taken l).
Proof.
  induction l as [|a l IH]; intros p tk p' I E; cbn [exec takers_of] in *; [injection E as <-; now rewrite app_nil_r|].
  destruct (step _ _ trial workers trials p a) as [q|] eqn:S1; [|discriminate]. pose proof (step_inv _ _ _ _ _ _ I S1) as I'. specialize (IH _ _ _ I' E).
  destruct (taken a) as [w|]; [|now rewrite app_nil_r in IH]. now rewrite <- app_assoc in IH.
Qed.
Lemma exec_app workers trials l m : forall p, exec _ _ trial workers trials p (l ++ m) = match exec _ _ trial workers trials p l with Some q => exec _ _ trial workers trials q m | None => None end.
Proof. induction l as [|a l IH]; intros p; [reflexivity|]. cbn. destruct (step _ _ trial workers trials p a); [apply IH|reflexivity]. Qed.
Lemma result_some d i (m : Measure) : result _ d i = Some m -> In (i, m) d.
Proof. induction d as [|[k x] d IH]; cbn; [discriminate|]. destruct (Nat.eqb_spec k i) as [->|]; [intros E; injection E as ->; auto|auto]. Qed.
Lemma result_in (d : list (nat * Measure)) i : In i (map fst d) -> exists m, result _ d i = Some m.
Proof. induction d as [|[k x] d IH]; cbn; [contradiction|]. destruct (Nat.eqb_spec k i) as [->|N]; [eauto|]. intros [->|I]; [contradiction|auto]. Qed.
Lemma collect_nth d l : forall (ms : list Measure), collect _ d l = Some ms -> length ms = length l /\ forall j i, nth_error l j = Some i -> exists m, nth_error ms j = Some m /\ In (i, m) d.
Proof.
  induction l as [|i l IH]; intros ms E; cbn in E; [injection E as <-; split; [reflexivity|]; intros [|j]; discriminate|].
  destruct (result _ d i) as [m|] eqn:R1; [|discriminate]. destruct (collect _ d l) as [ms'|]; [|discriminate]. injection E as <-. destruct (IH ms' eq_refl) as [L H].
  split; [cbn; now rewrite L|]. intros [|j] k; cbn; [|apply H]. intros E. injection E as <-. exists m. split; [reflexivity|]. now apply result_some.
Qed.
Lemma collect_all (d : list (nat * Measure)) l : (forall i, In i l -> In i (map fst d)) -> exists ms, collect _ d l = Some ms.
Proof.
  induction l as [|i l IH]; intros H; [now exists []|]. cbn. destruct (result_in d i (H i (or_introl eq_refl))) as [m ->]. destruct IH as [ms ->]; [intros; apply H; now right|]. eauto.
Qed.
Lemma nth_error_eq {A} (l m : list A) : length l = length m -> (forall k, (k < length l)%nat -> nth_error l k = nth_error m k) -> l = m.
Proof.
  revert m. induction l as [|x l IH]; intros [|y m] L H; try discriminate; [reflexivity|]. pose proof (H O) as H0. cbn in H0. assert (Some x = Some y) as E by (apply H0; lia). injection E as <-. f_equal.
  apply IH; [now injection L|]. intros k Lk. apply (H (S k)). cbn. lia.
Qed.
Lemma montecarlo_value workers trials schedule ms : montecarlo _ _ trial start workers trials schedule = Some ms ->
  length ms = trials /\ ms = vals (takers_of taken schedule).
Proof.
  unfold montecarlo. destruct (exec _ _ trial workers trials (pool0 _ _ start) schedule) as [p|] eqn:E; [|discriminate]. intros C.
  pose proof (exec_inv _ _ _ _ _ _ (pool0_inv workers trials) E) as (Nx & Le & Rn & Do & Bu & All). cbn [app] in *. set (tk := takers_of taken schedule) in *.
  destruct (collect_nth _ _ _ C) as [L H]. rewrite seq_length in L. split; [exact L|].
  assert (Hk : forall k, (k < trials)%nat -> exists m, nth_error ms k = Some m /\ nth_error (vals tk) k = Some m).
  { intros k Lk. destruct (H k k) as (m & E1 & I).
    - rewrite (nth_error_nth' _ O) by (rewrite seq_length; lia). now rewrite seq_nth by lia.
    - exists m. split; [exact E1|]. exact (Do _ _ I). }
  assert (Lt : length tk = trials).
  { destruct trials as [|n]; [lia|]. destruct (Hk n) as (m & _ & E1); [lia|]. assert (n < length (vals tk))%nat by (apply nth_error_Some; now rewrite E1). rewrite one_after_length in *. lia. }
  apply nth_error_eq; [rewrite one_after_length; lia|]. intros k Lk. destruct (Hk k) as (m & -> & ->); [lia|reflexivity].
Qed.
(** it can always be completed *)
Lemma finish_busy workers trials tk : forall n p, pool_inv workers trials p tk -> (forall w, (n <= w)%nat -> p_busy _ _ p w = None) ->
  exists l q, exec _ _ trial workers trials p l = Some q /\ takers_of taken l = [] /\ (forall w, p_busy _ _ q w = None).
Proof.
  induction n as [|n IH]; intros p I B; [exists [], p; cbn; split; [reflexivity|]; split; [reflexivity|]; intros w; apply B; lia|].
  destruct (p_busy _ _ p n) as [t|] eqn:Bn.
  - assert (S1 : step _ _ trial workers trials p (Finish n) = Some (mkPool _ _ (p_next _ _ p) (set_at (p_busy _ _ p) n None) (p_rng _ _ p) (p_done _ _ p ++ [t]))) by (cbn; now rewrite Bn).
    pose proof (step_inv _ _ _ _ _ _ I S1) as I1. cbn [taken] in I1. rewrite app_nil_r in I1.
    destruct (IH _ I1) as (l & q & E & T & Q).
    + intros w Lw. cbn. unfold set_at. destruct (Nat.eqb_spec w n); [reflexivity|]. apply B. lia.
    + exists (Finish n :: l), q. cbn [exec takers_of taken]. rewrite S1. auto.
  - apply IH; [exact I|]. intros w Lw. destruct (Nat.eq_dec w n) as [->|]; [exact Bn|]. apply B. lia.
Qed.
Lemma take_all workers trials : (0 < workers)%nat -> forall n p tk, pool_inv workers trials p tk -> (forall w, p_busy _ _ p w = None) -> (trials = length tk + n)%nat ->
  exists l q tk', exec _ _ trial workers trials p l = Some q /\ pool_inv workers trials q tk' /\ length tk' = trials /\ (forall w, p_busy _ _ q w = None).
Proof.
  intros W. induction n as [|n IH]; intros p tk I B E.
  { exists [], p, tk. split; [reflexivity|]. split; [exact I|]. split; [lia|exact B]. }
  pose proof I as (Nx & Le & _).
  destruct (trial (p_next _ _ p) (p_rng _ _ p 0%nat)) as [m r] eqn:T.
  assert (S1 : step _ _ trial workers trials p (Take 0) = Some (mkPool _ _ (S (p_next _ _ p)) (set_at (p_busy _ _ p) 0 (Some (p_next _ _ p, m))) (set_at (p_rng _ _ p) 0 r) (p_done _ _ p))).
  { cbn [step]. rewrite B, T. destruct (Nat.ltb_spec 0 workers); [|lia]. destruct (Nat.ltb_spec (p_next _ _ p) trials); [|lia]. reflexivity. }
  pose proof (step_inv _ _ _ _ _ _ I S1) as I1. cbn [taken] in I1. destruct (finish_busy workers trials _ 1 _ I1) as (l & q & El & Tl & Bq).
  - intros w Lw. cbn. unfold set_at. destruct (Nat.eqb_spec w 0); [lia|]. apply B.
  - pose proof (exec_inv _ _ _ _ _ _ I1 El) as Iq. rewrite Tl, app_nil_r in Iq. destruct (IH q _ Iq Bq) as (l' & q' & tk' & E' & R1).
    + rewrite app_length. cbn. lia.
    + exists (Take 0 :: l ++ l'), q', tk'. cbn [exec]. rewrite S1, exec_app, El. auto.
Qed.
Lemma montecarlo_completes workers trials l p : (0 < workers)%nat -> exec _ _ trial workers trials (pool0 _ _ start) l = Some p ->
  exists rest ms, montecarlo _ _ trial start workers trials (l ++ rest) = Some ms.
Proof.
  intros W E. pose proof (exec_inv _ _ _ _ _ _ (pool0_inv workers trials) E) as I. cbn [app] in I.
  destruct (finish_busy workers trials _ workers p I) as (l1 & q1 & E1 & T1 & B1).
  { intros w Lw. destruct (p_busy _ _ p w) as [[k m]|] eqn:B; [|reflexivity]. destruct I as (_ & _ & _ & _ & Bu & _). destruct (Bu _ _ _ B). lia. }
  pose proof (exec_inv _ _ _ _ _ _ I E1) as I1. rewrite T1, app_nil_r in I1.
  destruct (take_all workers trials W (trials - length (takers_of taken l)) q1 _ I1 B1) as (l2 & q2 & tk & E2 & I2 & Lt & B2); [destruct I1 as (_ & Le & _); lia|].
  destruct I2 as (_ & _ & _ & _ & _ & All). destruct (collect_all (p_done _ _ q2) (seq 0 trials)) as [ms C].
  - intros i Ii. apply in_seq in Ii. destruct (All i) as [X|(w & m & X)]; [lia|exact X|]. rewrite B2 in X. discriminate.
  - exists (l1 ++ l2), ms. unfold montecarlo. rewrite exec_app, E, exec_app, E1, E2. exact C.
Qed.
(** a schedule for any order of takers: each finishes before the next starts *)
Lemma exec_sequential workers trials ws : forall p, (forall w, p_busy _ _ p w = None) -> Forall (fun w => (w < workers)%nat) ws -> (p_next _ _ p + length ws <= trials)%nat ->
  exists q, exec _ _ trial workers trials p (flat_map (fun w => [Take w; Finish w]) ws) = Some q /\
    map fst (p_done _ _ q) = map fst (p_done _ _ p) ++ seq (p_next _ _ p) (length ws).
Proof.
  induction ws as [|w ws IH]; intros p B F L; [exists p; cbn; now rewrite app_nil_r|]. inversion F as [|? ? Fw Fws]; subst. cbn [length] in L.
  cbn [flat_map app exec step]. rewrite B. destruct (Nat.ltb_spec w workers); [|lia]. destruct (Nat.ltb_spec (p_next _ _ p) trials); [|lia]. cbn [andb].
  destruct (trial (p_next _ _ p) (p_rng _ _ p w)) as [m r]. cbn [exec step p_busy]. unfold set_at at 1. rewrite Nat.eqb_refl. cbn [p_next p_busy p_rng p_done].
  match goal with |- context [exec _ _ trial workers trials ?s _] => destruct (IH s) as (q & E & D) end.
  - intros v. cbn. unfold set_at. destruct (Nat.eqb v w); [reflexivity|apply B].
  - exact Fws.
  - cbn. lia.
  - exists q. split; [exact E|]. rewrite D. cbn [p_next p_done length seq]. rewrite map_app. cbn. now rewrite <- app_assoc.
Qed.
Lemma takers_sequential ws : takers_of taken (flat_map (fun w => [Take w; Finish w]) ws) = ws.
Proof. induction ws as [|w ws IH]; [reflexivity|]. cbn. now rewrite IH. Qed.
Lemma montecarlo_sequential workers ws : Forall (fun w => (w < workers)%nat) ws ->
  montecarlo _ _ trial start workers (length ws) (flat_map (fun w => [Take w; Finish w]) ws) = Some (vals ws).
Proof.
  intros F. destruct (exec_sequential workers (length ws) ws (pool0 _ _ start)) as (q & E & D); [reflexivity|exact F|cbn; lia|].
  destruct (collect_all (p_done _ _ q) (seq 0 (length ws))) as [ms C]; [intros i I; rewrite D; exact I|].
  assert (M : montecarlo _ _ trial start workers (length ws) (flat_map (fun w => [Take w; Finish w]) ws) = Some ms) by (unfold montecarlo; rewrite E; exact C).
  rewrite M. destruct (montecarlo_value _ _ _ _ M) as [_ ->]. now rewrite takers_sequential.
Qed.
End Pool.

(** copies of one generator, trials that do not look at their index *)
Section Forked.
Context {Measure Rng : Type} (f : Rng -> Measure * Rng) (g : Rng).
Fixpoint drawn_state (x : Rng) (n : nat) : Rng := match n with O => x | S n => drawn_state (snd (f x)) n end.
Lemma drawn_state_S x n : drawn_state x (S n) = snd (f (drawn_state x n)).
Proof. revert x. induction n as [|n IH]; intros x; [reflexivity|]. cbn [drawn_state] in *. now rewrite <- IH. Qed.
Lemma draw_state x n : draw f x n = fst (f (drawn_state x n)).
Proof. revert x. induction n as [|n IH]; intros x; [reflexivity|]. cbn. apply IH. Qed.
Lemma one_after_forked tk : forall i rng c, (forall w, rng w = drawn_state g (c w)) ->
  forall j, (j < length tk)%nat -> nth_error (one_after_the_other (fun _ => f) i rng tk) j = Some (draw f g (c (nth j tk O) + earlier_of_same tk j)%nat).
Proof.
  induction tk as [|w tk IH]; intros i rng c Hr j Lj; [cbn in Lj; lia|]. cbn [one_after_the_other]. destruct j as [|j].
  - cbn. unfold earlier_of_same. cbn. rewrite Nat.add_0_r, draw_state, Hr. reflexivity.
  - cbn [nth_error]. rewrite (IH (S i) _ (fun v => if Nat.eqb v w then S (c w) else c v)).
    + f_equal. f_equal. cbn [nth]. unfold earlier_of_same. cbn [nth firstn count_occ]. destruct (Nat.eq_dec w (nth j tk O)) as [<-|D].
      * rewrite Nat.eqb_refl. lia.
      * destruct (Nat.eqb_spec (nth j tk O) w); [congruence|reflexivity].
    + intros v. destruct (Nat.eqb_spec v w) as [->|]; [now rewrite drawn_state_S, Hr|apply Hr].
    + cbn in Lj. lia.
Qed.
End Forked.

(** * Progress *)
Definition is_write (a : access) : bool := match a with Write _ => true | Read _ => false end.
Definition writes (l : list access) : nat := length (filter is_write l).
Lemma accesses_bounds l : forall v pend s top, accesses (v, pend) l = Some s -> (0 <= v <= top)%Z -> (forall w x, pend w = Some x -> (0 <= x <= top)%Z) ->
  (fst s <= top + Z.of_nat (writes l))%Z /\ (0 <= fst s)%Z /\ ((1 <= v)%Z \/ (0 < writes l)%nat -> (1 <= fst s)%Z).
Proof.
  induction l as [|a l IH]; intros v pend s top E Hv Hp; cbn [accesses] in E.
  - injection E as <-. cbn. lia.
  - destruct a as [w|w]; cbn [access_step fst snd] in E; destruct (pend w) as [x|] eqn:Pw; try discriminate.
    + destruct (IH _ _ _ top E Hv) as (A & B & C).
      * intros u y. unfold set_at. destruct (Nat.eqb u w); [intros X; injection X as <-; exact Hv|apply Hp].
      * unfold writes in *. cbn [filter is_write]. auto.
    + pose proof (Hp _ _ Pw). destruct (IH _ _ _ (top + 1)%Z E) as (A & B & C).
      * lia.
      * intros u y. unfold set_at. destruct (Nat.eqb u w); [discriminate|]. intros X. specialize (Hp _ _ X). lia.
      * unfold writes in *. cbn [filter is_write length]. split; [lia|]. split; [lia|]. intros _. apply C. left. lia.
Qed.
Lemma accesses_app l m : forall s, accesses s (l ++ m) = match accesses s l with Some s => accesses s m | None => None end.
Proof. induction l as [|a l IH]; intros s; [reflexivity|]. cbn. destruct (access_step s a); [apply IH|reflexivity]. Qed.
Lemma accesses_ext l : forall v f g, (forall w, f w = g w) -> match accesses (v, f) l, accesses (v, g) l with
  | Some s, Some t => fst s = fst t /\ forall w, snd s w = snd t w | None, None => True | _, _ => False end.
Proof.
  induction l as [|a l IH]; intros v f g H; [cbn; auto|]. destruct a as [w|w]; cbn [accesses access_step fst snd]; rewrite H; destruct (g w); auto.
  - apply IH. intros u. unfold set_at. destruct (Nat.eqb u w); auto.
  - apply IH. intros u. unfold set_at. destruct (Nat.eqb u w); auto.
Qed.
Lemma reads_all n : forall v pend, (forall w, (w < n)%nat -> pend w = None) -> exists pend', accesses (v, pend) (map Read (seq 0 n)) = Some (v, pend') /\
  (forall w, (w < n)%nat -> pend' w = Some v) /\ (forall w, (n <= w)%nat -> pend' w = pend w).
Proof.
  induction n as [|n IH]; intros v pend H; [exists pend; cbn; repeat split; auto; lia|]. rewrite seq_S, map_app, accesses_app. cbn [Nat.add].
  destruct (IH v pend) as (p1 & E & A & B); [intros; apply H; lia|]. rewrite E. cbn [map accesses access_step fst snd]. rewrite (B n) by lia. rewrite H by lia.
  eexists. split; [reflexivity|]. unfold set_at. split; intros w Lw; destruct (Nat.eqb_spec w n) as [->|D]; try lia; auto.
  - apply A. lia.
  - apply B. lia.
Qed.
Lemma writes_all n x : forall v pend, (forall w, (w < n)%nat -> pend w = Some x) -> exists pend', accesses (v, pend) (map Write (seq 0 n)) = Some (match n with O => v | _ => x + 1 end, pend')%Z /\
  (forall w, (w < n)%nat -> pend' w = None) /\ (forall w, (n <= w)%nat -> pend' w = pend w).
Proof.
  induction n as [|n IH]; intros v pend H; [exists pend; cbn; repeat split; auto; lia|]. rewrite seq_S, map_app, accesses_app. cbn [Nat.add].
  destruct (IH v pend) as (p1 & E & A & B); [intros; apply H; lia|]. rewrite E. cbn [map accesses access_step fst snd]. rewrite (B n) by lia. rewrite H by lia.
  eexists. split; [reflexivity|]. unfold set_at. split; intros w Lw; destruct (Nat.eqb_spec w n) as [->|D]; try lia; auto.
  - apply A. lia.
  - apply B. lia.
Qed.
Lemma one_by_one ws : forall v pend, (forall w, pend w = None) -> exists s, accesses (v, pend) (flat_map (fun w => [Read w; Write w]) ws) = Some s /\ fst s = (v + Z.of_nat (length ws))%Z.
Proof.
  induction ws as [|w ws IH]; intros v pend H; [eexists; cbn; split; [reflexivity|]; cbn; lia|]. cbn [flat_map app accesses access_step fst snd]. rewrite H.
  unfold set_at at 1. cbn [accesses access_step fst snd]. rewrite Nat.eqb_refl. destruct (IH (v + 1)%Z (set_at (set_at pend w (Some v)) w None)) as (s & E & F).
  - intros u. unfold set_at. destruct (Nat.eqb u w); auto.
  - exists s. split; [exact E|]. rewrite F. cbn [length]. lia.
Qed.

(** * Percentile *)
Lemma searchsorted_count l v : StronglySorted Rle l -> searchsorted l v = count (fun x => Rltb x v) l.
Proof.
  induction 1 as [|x l So IH F]; [reflexivity|]. rewrite count_cons. cbn [searchsorted]. destruct (Rltb_spec x v) as [L|L]; [now rewrite IH|].
  rewrite count_none; [reflexivity|]. eapply Forall_impl; [|exact F]. cbn. intros y Hy. destruct (Rltb_spec y v); [lra|reflexivity].
Qed.
Lemma sort_Rle l : StronglySorted Rle (sort Rleb l).
Proof.
  assert (So : StronglySorted (fun a b => Rleb a b = true) (sort Rleb l)).
  { apply sort_sorted.
    - intros x y. destruct (Rleb_spec x y); [discriminate|]. intros _. apply Rleb_true. lra.
    - intros x y z. destruct (Rleb_spec x y); [|discriminate]. destruct (Rleb_spec y z); [|discriminate]. intros _ _. apply Rleb_true. lra. }
  induction So as [|x m So IH F]; constructor; [exact IH|]. eapply Forall_impl; [|exact F]. cbn. intros y. destruct (Rleb_spec x y); [auto|discriminate].
Qed.
Lemma percentile_count m v : m <> [] -> INR (searchsorted (sort Rleb m) v) / INR (length m) * 100 = percent_below m v.
Proof.
  intros NE. rewrite searchsorted_count by apply sort_Rle. rewrite <- (count_perm _ _ _ (sort_perm Rleb m)). unfold percent_below. field.
  apply not_0_INR. now destruct m.
Qed.
Lemma percent_bounds m v : m <> [] -> 0 <= percent_below m v <= 100.
Proof.
  intros NE. unfold percent_below. assert (LP : 0 < INR (length m)). { apply lt_0_INR. destruct m; [contradiction|cbn; lia]. }
  pose proof (le_INR _ _ (count_le_length (fun x => Rltb x v) m)) as L. pose proof (pos_INR (count (fun x => Rltb x v) m)) as P.
  split.
  - apply Rmult_le_pos; [lra|]. left. now apply Rinv_0_lt_compat.
  - apply (Rmult_le_reg_r (INR (length m))); [exact LP|]. replace (100 * INR (count (fun x => Rltb x v) m) / INR (length m) * INR (length m)) with (100 * INR (count (fun x => Rltb x v) m)) by (field; lra). lra.
Qed.
Lemma percent_mono m v w : m <> [] -> v <= w -> percent_below m v <= percent_below m w.
Proof.
  intros NE H. unfold percent_below. assert (LP : 0 < INR (length m)). { apply lt_0_INR. destruct m; [contradiction|cbn; lia]. }
  apply Rmult_le_compat_r; [left; now apply Rinv_0_lt_compat|]. apply Rmult_le_compat_l; [lra|]. apply le_INR, count_mono.
  intros x. destruct (Rltb_spec x v); [|discriminate]. intros _. destruct (Rltb_spec x w); [reflexivity|lra].
Qed.

(** * Stored trials *)
Lemma stored_set s k r k' : stored (dict_set s k r) k' = if seqb k k' then Some r else stored s k'.
Proof.
  induction s as [|[a b] s IH]; cbn [dict_set stored]; [reflexivity|]. destruct (seqb_spec a k) as [->|N].
  - cbn [stored]. destruct (seqb k k'); reflexivity.
  - cbn [stored]. rewrite IH. destruct (seqb_spec a k') as [->|]; [|reflexivity]. destruct (seqb_spec k k'); [congruence|reflexivity].
Qed.
Lemma run_never_fewer compute s n m k r : stored s k = Some r -> exists r', stored (run_montecarlo compute s n m) k = Some r' /\ (n_trials r <= n_trials r')%Z /\ (r' = r \/ r' = mkRecord n (compute m n) /\ k = m /\ (n_trials r < n)%Z).
Proof.
  intros E. unfold run_montecarlo. destruct (stored s m) as [r0|] eqn:M.
  - destruct (Z.leb_spec n (n_trials r0)) as [L|L]; [exists r; split; [exact E|]; split; [lia|auto]|]. rewrite stored_set. destruct (seqb_spec m k) as [->|N].
    + rewrite E in M. injection M as <-. eexists. split; [reflexivity|]. cbn. split; [lia|auto].
    + exists r. split; [exact E|]. split; [lia|auto].
  - rewrite stored_set. destruct (seqb_spec m k) as [->|N]; [congruence|]. exists r. split; [exact E|]. split; [lia|auto].
Qed.
Lemma run_enough compute s n m : exists r, stored (run_montecarlo compute s n m) m = Some r /\ (n <= n_trials r)%Z.
Proof.
  unfold run_montecarlo. destruct (stored s m) as [r0|] eqn:M; [destruct (Z.leb_spec n (n_trials r0)) as [L|L]; [eauto|]|]; rewrite stored_set, seqb_refl; eexists; (split; [reflexivity|]); cbn; lia.
Qed.
Lemma run_others compute s n m k : k <> m -> stored (run_montecarlo compute s n m) k = stored s k.
Proof.
  intros N. unfold run_montecarlo. destruct (stored s m) as [r0|]; [destruct (Z.leb n (n_trials r0)); [reflexivity|]|]; rewrite stored_set; (destruct (seqb_spec m k); [congruence|reflexivity]).
Qed.
Lemma run_kept compute s n m r : stored s m = Some r -> (n <= n_trials r)%Z -> run_montecarlo compute s n m = s.
Proof. intros E L. unfold run_montecarlo. rewrite E. destruct (Z.leb_spec n (n_trials r)); [reflexivity|lia]. Qed.

(** * Panels *)
Lemma panel_dim_spec (n : nat) (b : bool) : (0 < n + (if b then 1 else 0))%nat -> (0 < panel_dim n b)%Z /\ (Z.of_nat n + (if b then 1 else 0) <= panel_dim n b * panel_dim n b)%Z.
Proof.
  intros P. unfold panel_dim. set (x := INR n + (if b then 1 else 0)). assert (Ex : x = IZR (Z.of_nat n + (if b then 1 else 0))) by (unfold x; rewrite plus_IZR, <- INR_IZR_INZ; destruct b; reflexivity).
  assert (X1 : 1 <= x). { rewrite Ex. apply IZR_le. destruct b; lia. }
  destruct (Rceil_spec (sqrt x)) as [A B]. set (d := Rceil (sqrt x)) in *. assert (S1 : 0 < sqrt x) by (apply sqrt_lt_R0; lra).
  assert (D : 0 < IZR d) by lra. split; [now apply lt_IZR|]. apply le_IZR. rewrite <- Ex, mult_IZR. rewrite <- (sqrt_sqrt x) by lra. apply Rmult_le_compat; lra.
Qed.
Lemma panel_inj dim i j : (0 < dim)%Z -> panel dim i = panel dim j -> i = j.
Proof.
  intros D E. unfold panel in E. injection E as E1 E2. rewrite (Z.div_mod i dim), (Z.div_mod j dim) by lia. assert (i / dim = j / dim)%Z as -> by lia. now rewrite E1.
Qed.
Lemma panel_inside dim i : (0 < dim)%Z -> (0 <= i < dim * dim)%Z -> (0 <= fst (panel dim i) < dim)%Z /\ (0 <= snd (panel dim i) < dim)%Z.
Proof.
  intros D I. unfold panel. cbn [fst snd]. split; [apply Z.mod_pos_bound; lia|]. assert (0 <= i / dim)%Z by (apply Z.div_pos; lia). assert (i / dim < dim)%Z by (apply Z.div_lt_upper_bound; lia). lia.
Qed.
Lemma panels_spec n b : NoDup (panels n b) /\ Forall (fun p => (0 <= fst p < panel_dim n b)%Z /\ (0 <= snd p < panel_dim n b)%Z) (panels n b).
Proof.
  destruct (Nat.eq_dec (n + (if b then 1 else 0)) 0) as [Z0|NZ].
  { destruct n, b; try (cbn in Z0; lia). cbn. split; constructor. }
  destruct (panel_dim_spec n b) as [D L]; [lia|]. unfold panels. set (dim := panel_dim n b) in *. set (l := seq 0 n).
  assert (E : map (fun i => panel dim (Z.of_nat i)) l ++ (if b then [panel dim (dim ^ 2 - 1)] else []) = map (panel dim) (map Z.of_nat l ++ (if b then [(dim ^ 2 - 1)%Z] else []))).
  { rewrite map_app, map_map. destruct b; reflexivity. }
  rewrite E. clear E. assert (S2 : (dim ^ 2 = dim * dim)%Z) by ring. split.
  - apply FinFun.Injective_map_NoDup; [intros i j; now apply panel_inj|]. apply NoDup_app'.
    + apply FinFun.Injective_map_NoDup; [intros i j; lia|apply seq_NoDup].
    + destruct b; repeat constructor. auto.
    + intros x Ix Iy. apply in_map_iff in Ix. destruct Ix as (i & <- & Ii). unfold l in Ii. apply in_seq in Ii. destruct b; [|exact Iy]. destruct Iy as [Iy|[]]. rewrite S2 in Iy. lia.
  - apply Forall_map, Forall_app. split.
    + apply Forall_map, Forall_forall. intros i Ii. unfold l in Ii. apply in_seq in Ii. apply panel_inside; [exact D|]. destruct b; lia.
    + destruct b; repeat constructor; apply panel_inside; try exact D; rewrite S2; nia.
Qed.

(** * Random points *)
Lemma uniform_between a b u : a <= b -> 0 <= u <= 1 -> a <= uniform a b u <= b.
Proof. intros H U. unfold uniform. assert (0 <= (b - a) * u) by (apply Rmult_le_pos; lra). assert ((b - a) * u <= (b - a) * 1) by (apply Rmult_le_compat_l; lra). lra. Qed.
Lemma sin_monotone a b : -90 <= a -> a <= b -> b <= 90 -> sin (radians a) <= sin (radians b).
Proof. intros A H B. unfold radians. pose proof PI_RGT_0. apply sin_incr_1; nra. Qed.
Lemma asin_between a b y : -90 <= a -> a <= b -> b <= 90 -> sin (radians a) <= y <= sin (radians b) -> a <= degrees (asin y) <= b /\ sin (radians (degrees (asin y))) = y.
Proof.
  intros A H B Y. pose proof PI_RGT_0 as P. assert (RA : -(PI / 2) <= radians a <= PI / 2) by (unfold radians; split; nra). assert (RB : -(PI / 2) <= radians b <= PI / 2) by (unfold radians; split; nra).
  pose proof (SIN_bound (radians a)). pose proof (SIN_bound (radians b)).
  assert (E : radians (degrees (asin y)) = asin y) by (unfold radians, degrees; field; lra).
  pose proof (asin_bound y) as AB. assert (SA : sin (asin y) = y) by (apply sin_asin; lra). rewrite E. split; [|exact SA].
  assert (M : radians a <= asin y <= radians b). { split; apply sin_incr_0; lra. }
  rewrite <- E in M. unfold radians in M. set (z := degrees (asin y)) in *. clearbody z. split; nra.
Qed.

(** * HEALPix *)
Lemma log2_half x : 0 < x -> ln (sqrt x) / ln 2 = ln x / ln 2 / 2.
Proof.
  intros P. assert (L2 : 0 < ln 2) by (rewrite <- ln_1; apply ln_increasing; lra). assert (Sx : 0 < sqrt x) by now apply sqrt_lt_R0.
  rewrite <- (sqrt_sqrt x) at 2 by lra. rewrite ln_mult by assumption. field. lra.
Qed.
