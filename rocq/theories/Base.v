(** Shared vocabulary of the model: Python exceptions as values, boolean
    comparisons on reals, and the few list operations of Python/numpy that
    every area of the model uses.  No property is stated here. *)
From Coq Require Import List ZArith Reals Lra Lia Bool.
Import ListNotations.
Local Open Scope R_scope.

(** raised for instance in Productionfn.py 30 (ValueError) and Cratercount.py 47 (sys.exit). Python exceptions that the modelled code can raise. [SysExit] is the
    exit with a message used throughout the code for user errors.  [NotANumber] is not a Python
    exception: it stands for a numpy result that is nan, about which nothing is claimed. *)
Inductive exn :=
| TypeError | ValueError | IndexError | KeyError | NameError | AttributeError
| ZeroDivision | OtherException | SysExit | NotANumber | FileNotFound.

(** the outcome of a call: a value, or the exception raised, as told apart by try in Cratercount.py 33-47 *)
Inductive res (A : Type) := Ok (a : A) | Err (e : exn).
Arguments Ok {A} a.
Arguments Err {A} e.

(** sequencing: an exception ends the function, as in Cratercount.py 96-121 *)
Definition bind {A B} (m : res A) (f : A -> res B) : res B :=
  match m with Ok a => f a | Err e => Err e end.
Notation "'do!' x <- m ; f" := (bind m (fun x => f))
  (at level 200, x pattern, m at level 100, f at level 200).

(** a list comprehension whose expression may raise an exception, as in Cratercount.py 127 *)
Fixpoint mapM {A B} (f : A -> res B) (l : list A) : res (list B) :=
  match l with
  | [] => Ok []
  | x :: r => do! y <- f x; do! ys <- mapM f r; Ok (y :: ys)
  end.

(** comparison < of numbers, as in Cratercount.py 432; exact reals stand for floats Comparisons of numbers, as booleans. *)
Definition Rltb (x y : R) : bool := if Rlt_dec x y then true else false.
(** comparison <= of numbers, as in Cratercount.py 344; exact reals stand for floats *)
Definition Rleb (x y : R) : bool := if Rle_dec x y then true else false.
(** comparison == of numbers, as in Cratercount.py 441; exact reals stand for floats *)
Definition Reqb (x y : R) : bool := if Req_EM_T x y then true else false.

Lemma Rltb_spec x y : reflect (x < y) (Rltb x y).
Proof. unfold Rltb; destruct (Rlt_dec x y); constructor; assumption. Qed.
Lemma Rleb_spec x y : reflect (x <= y) (Rleb x y).
Proof. unfold Rleb; destruct (Rle_dec x y); constructor; assumption. Qed.
Lemma Reqb_spec x y : reflect (x = y) (Reqb x y).
Proof. unfold Reqb; destruct (Req_EM_T x y); constructor; assumption. Qed.

Lemma Rltb_true x y : x < y -> Rltb x y = true.
Proof. destruct (Rltb_spec x y); [easy|lra]. Qed.
Lemma Rltb_false x y : y <= x -> Rltb x y = false.
Proof. destruct (Rltb_spec x y); [lra|easy]. Qed.
Lemma Rleb_true x y : x <= y -> Rleb x y = true.
Proof. destruct (Rleb_spec x y); [easy|lra]. Qed.
Lemma Rleb_false x y : y < x -> Rleb x y = false.
Proof. destruct (Rleb_spec x y); [lra|easy]. Qed.

(** Decide every comparison of closed (or hypothesis-determined) reals. *)
Ltac rcmp :=
  repeat match goal with
  | |- context [Rltb ?a ?b] =>
      first [rewrite (Rltb_true a b) by lra | rewrite (Rltb_false a b) by lra]
  | |- context [Rleb ?a ?b] =>
      first [rewrite (Rleb_true a b) by lra | rewrite (Rleb_false a b) by lra]
  end.

(** as in Cratercount.py 269: Python slice [l[a:b]] for non-negative bounds. *)
Definition slice {A} (l : list A) (a b : nat) : list A := firstn (b - a) (skipn a l).

(** as in Cratercount.py 343-345: Python / numpy indexing [l[i]] with an integer: negative indices count from
    the end, anything outside raises IndexError. *)
Definition pyindex {A} (l : list A) (i : Z) : res A :=
  let n := Z.of_nat (length l) in
  let j := (if Z.ltb i 0 then (i + n) else i)%Z in
  if Z.ltb j 0 then Err IndexError
  else match nth_error l (Z.to_nat j) with Some x => Ok x | None => Err IndexError end.

(** as in Cratercount.py 448: [sum] *)
Fixpoint Rsum (l : list R) : R := match l with [] => 0 | x :: r => x + Rsum r end.

(** as in Cratercount.py 254: floor and ceiling of a real number, as integers (np.floor, np.ceil). *)
Definition Rfloor (x : R) : Z := (up x - 1)%Z.
(** np.ceil, as in Cratercount.py 254 *)
Definition Rceil (x : R) : Z := (- Rfloor (- x))%Z.

Lemma Rfloor_spec x : IZR (Rfloor x) <= x < IZR (Rfloor x) + 1.
Proof. unfold Rfloor. rewrite minus_IZR. destruct (archimed x). lra. Qed.
Lemma Rceil_spec x : IZR (Rceil x) - 1 < x <= IZR (Rceil x).
Proof. unfold Rceil. rewrite opp_IZR. pose proof (Rfloor_spec (-x)). lra. Qed.
Lemma Rfloor_unique x z : IZR z <= x < IZR z + 1 -> Rfloor x = z.
Proof.
  intros H. pose proof (Rfloor_spec x) as H1.
  assert (IZR (Rfloor x) < IZR (z + 1)) by (rewrite plus_IZR; lra).
  assert (IZR z < IZR (Rfloor x + 1)) by (rewrite plus_IZR; lra).
  apply lt_IZR in H0. apply lt_IZR in H2. lia.
Qed.
Lemma Rceil_unique x z : IZR z - 1 < x <= IZR z -> Rceil x = z.
Proof.
  intros H. unfold Rceil. rewrite (Rfloor_unique (-x) (-z)); [lia|].
  rewrite opp_IZR. lra.
Qed.
Lemma Rfloor_IZR z : Rfloor (IZR z) = z.
Proof. apply Rfloor_unique. lra. Qed.
Lemma Rceil_IZR z : Rceil (IZR z) = z.
Proof. apply Rceil_unique. lra. Qed.
Lemma Rfloor_le x y : x <= y -> (Rfloor x <= Rfloor y)%Z.
Proof.
  intros. pose proof (Rfloor_spec x). pose proof (Rfloor_spec y).
  assert (IZR (Rfloor x) < IZR (Rfloor y + 1)) by (rewrite plus_IZR; lra).
  apply lt_IZR in H2. lia.
Qed.
Lemma Rceil_le x y : x <= y -> (Rceil x <= Rceil y)%Z.
Proof. intros. unfold Rceil. assert (Rfloor (-y) <= Rfloor (-x))%Z by (apply Rfloor_le; lra). lia. Qed.

(** np.log10, as in Cratercount.py 243: log10 and 10**x *)
Definition log10 (x : R) : R := ln x / ln 10.
(** 10**x, as in Cratercount.py 266 *)
Definition pow10 (x : R) : R := exp (x * ln 10).

Lemma ln10_pos : 0 < ln 10.
Proof. rewrite <- ln_1. apply ln_increasing; lra. Qed.
Lemma pow10_pos x : 0 < pow10 x.
Proof. apply exp_pos. Qed.
Lemma log10_pow10 x : log10 (pow10 x) = x.
Proof. unfold log10, pow10. rewrite ln_exp. field. pose proof ln10_pos; lra. Qed.
Lemma pow10_log10 x : 0 < x -> pow10 (log10 x) = x.
Proof.
  intros. unfold log10, pow10. replace (ln x / ln 10 * ln 10) with (ln x).
  - apply exp_ln; assumption.
  - field. pose proof ln10_pos; lra.
Qed.
Lemma pow10_plus x y : pow10 (x + y) = pow10 x * pow10 y.
Proof. unfold pow10. rewrite <- exp_plus. f_equal. ring. Qed.
Lemma pow10_0 : pow10 0 = 1.
Proof. unfold pow10. rewrite Rmult_0_l. apply exp_0. Qed.
Lemma pow10_1 : pow10 1 = 10.
Proof. unfold pow10. rewrite Rmult_1_l. apply exp_ln. lra. Qed.
Lemma pow10_lt x y : x < y -> pow10 x < pow10 y.
Proof. intros. apply exp_increasing. apply Rmult_lt_compat_r; [apply ln10_pos|assumption]. Qed.
Lemma pow10_le x y : x <= y -> pow10 x <= pow10 y.
Proof. intros [H|H]; [left; apply pow10_lt; assumption|right; subst; reflexivity]. Qed.
Lemma pow10_lt_inv x y : pow10 x < pow10 y -> x < y.
Proof. intros. destruct (Rlt_le_dec x y); [assumption|]. apply pow10_le in r. lra. Qed.
Lemma pow10_le_inv x y : pow10 x <= pow10 y -> x <= y.
Proof. intros. destruct (Rle_lt_dec x y); [assumption|]. apply pow10_lt in r. lra. Qed.
Lemma pow10_inj x y : pow10 x = pow10 y -> x = y.
Proof. intros. apply Rle_antisym; apply pow10_le_inv; lra. Qed.
Lemma log10_lt x y : 0 < x -> x < y -> log10 x < log10 y.
Proof. intros. apply pow10_lt_inv. rewrite !pow10_log10; lra. Qed.
Lemma log10_le x y : 0 < x -> x <= y -> log10 x <= log10 y.
Proof. intros. apply pow10_le_inv. rewrite !pow10_log10; lra. Qed.
Lemma log10_mult x y : 0 < x -> 0 < y -> log10 (x * y) = log10 x + log10 y.
Proof. intros. unfold log10. rewrite ln_mult by assumption. field. pose proof ln10_pos; lra. Qed.
Lemma log10_1 : log10 1 = 0.
Proof. rewrite <- pow10_0. apply log10_pow10. Qed.
Lemma log10_10 : log10 10 = 1.
Proof. rewrite <- pow10_1. apply log10_pow10. Qed.
Lemma log10_div x y : 0 < x -> 0 < y -> log10 (x / y) = log10 x - log10 y.
Proof.
  intros. unfold Rdiv. rewrite log10_mult; [|assumption|apply Rinv_0_lt_compat; assumption].
  unfold log10. rewrite ln_Rinv by assumption. field. pose proof ln10_pos; lra.
Qed.
