(** Vocabulary for the statements about the results file of the randomness analysis. *)
From Coq Require Import String Ascii List ZArith Reals Bool.
From Verif Require Import Base StrModel StrSpec FmtModel FmtSpec RaModel.
Import ListNotations.
Local Open Scope R_scope.

(** bins are named with three significant figures, by the exponent of two of their lower edge (Randomnessanalysis.py 151) *)
Definition bin_name (b : str) : Prop := exists x, b = fmt_g 3 x.
(** the trials of one measure: as many values as trials for every bin, and at least one bin *)
Definition record_ok (r : record) : Prop :=
  (0 <= n_trials r)%Z /\ trials r <> [] /\ NoDup (map fst (trials r)) /\
  Forall (fun p => bin_name (fst p) /\ Z.of_nat (length (snd p)) = n_trials r) (trials r).
Definition store_ok (s : store) : Prop :=
  NoDup (map fst s) /\ Forall (fun p => (fst p = L "m2cnd" \/ fst p = L "sdaa") /\ record_ok (snd p)) s.
(** a version like 3.6.10, and a file name without line breaks and double quotes *)
Definition version_ok (v : str) : Prop := v <> [] /\ Forall (fun c => is_digit c = true \/ c = "."%char) v.
Definition source_ok (v : str) : Prop := one_line v /\ ~ In dq v.

(** the same trials and bins, the values as [near] says *)
Definition same_record (near : R -> R -> Prop) (r r' : record) : Prop :=
  n_trials r' = n_trials r /\
  Forall2 (fun p q => fst q = fst p /\ Forall2 near (snd p) (snd q)) (trials r) (trials r').
Definition same_results (near : R -> R -> Prop) (s s' : store) : Prop :=
  forall m, match stored s m, stored s' m with
            | Some r, Some r' => same_record near r r'
            | None, None => True
            | _, _ => False
            end.
(** a number with at most seven significant figures *)
Definition seven_figures (x : R) : Prop := exists m k, x = IZR m * powerRZ 10 k /\ (Z.abs m < 10 ^ 7)%Z.
