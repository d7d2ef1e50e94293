(** Proofs about the axis of the small plot of an age distribution. *)
From Coq Require Import String Ascii List ZArith Reals Bool Lia Lra Psatz.
From Verif Require Import Base NumModel NumLemmas StrModel FmtModel FmtSpec FmtProofs FmtProps IoModel IoSpec IoProofs IoProofs3 IoProofs4 CliModel CliProofs2 PlotModel PlotSpec PlotProofs PlotProps MiniModel.
Import ListNotations.
Local Open Scope R_scope.

(** the ticks of an axis that starts at 0 *)
Lemma ticks_from_0 t : 0 < t -> exists fuel step n,
  (forall k, (fuel <= k)%nat -> ticks k [0; t] (Some 3%Z) None = Some (Ok (multiples 0 step n, None))) /\
  nice_number step /\ 0 < step /\ (n = 2%nat \/ n = 3%nat) /\ (INR n - 2) * step < t <= (INR n - 1) * step.
Proof.
  intros T. destruct (C43_ticks [0; t] (Some 3%Z)) as (fuel & first & step & n & E & NS & SP & NB & _ & IN & (v & V1 & V2) & (w & W1 & W2)).
  - exists 0, t. cbn; auto.
  - left. cbn. lia.
  - cbn [wanted] in NB. change (Z.max 3 2) with 3%Z in NB.
    assert (F0 : first = 0%Z).
    { destruct (IN 0 (or_introl eq_refl)) as [A _]. assert (VP : 0 <= v) by (destruct V1 as [<-|[<-|[]]]; lra).
      assert (A1 : IZR first <= 0). { destruct (Rle_dec (IZR first) 0) as [Q|Q]; [exact Q|exfalso]. assert (0 < IZR first * step) by (apply Rmult_lt_0_compat; lra). lra. }
      assert (A2 : 0 < IZR (first + 1)). { destruct (Rlt_dec 0 (IZR (first + 1))) as [Q|Q]; [exact Q|exfalso]. assert (IZR (first + 1) * step <= 0 * step) by (apply Rmult_le_compat_r; lra). lra. }
      apply (le_IZR first 0) in A1. apply (lt_IZR 0) in A2. lia. }
    subst first. exists fuel, step, n. repeat (split; [assumption|]). split; [lia|].
    assert (I : IZR (Z.of_nat n) = INR n) by (symmetry; apply INR_IZR_INZ). destruct (IN t ltac:(cbn; auto)) as [_ B].
    replace (0 + Z.of_nat n - 1)%Z with (Z.of_nat n - 1)%Z in B by lia. rewrite minus_IZR, I in B.
    replace (0 + Z.of_nat n - 2)%Z with (Z.of_nat n - 2)%Z in W2 by lia. rewrite minus_IZR, I in W2. split; [|exact B].
    assert (WT : w <= t) by (destruct W1 as [<-|[<-|[]]]; lra). lra.
Qed.
Lemma last_tick step n : (n = 2 \/ n = 3)%nat -> exists r, rev (multiples 0 step n) = (INR n - 1) * step :: r.
Proof.
  intros [-> | ->]; unfold multiples; cbn [seq map rev app]; eexists.
  - replace ((INR 2 - 1) * step) with (IZR (0 + Z.of_nat 1) * step) by (cbn; lra). reflexivity.
  - replace ((INR 3 - 1) * step) with (IZR (0 + Z.of_nat 2) * step) by (cbn; lra). reflexivity.
Qed.
Lemma max_tick step n : 0 < step -> (n = 2 \/ n = 3)%nat -> array_max (multiples 0 step n) = Ok ((INR n - 1) * step) /\
  match multiples 0 step n with [] => False | x0 :: r => Rmin x0 (list_min x0 r) = 0 /\ list_max x0 r = (INR n - 1) * step end.
Proof.
  intros S H. assert (E : (exists a, multiples 0 step n = [0; a] /\ a = step /\ (INR n - 1) * step = step) \/ (exists a b, multiples 0 step n = [0; a; b] /\ a = step /\ b = 2 * step /\ (INR n - 1) * step = 2 * step)).
  { destruct H as [-> | ->]; [left; exists (IZR (0 + Z.of_nat 1) * step)|right; exists (IZR (0 + Z.of_nat 1) * step), (IZR (0 + Z.of_nat 2) * step)];
      (split; [unfold multiples; cbn [seq map]; f_equal; cbn; lra|cbn; lra]). }
  destruct E as [(a & -> & A & ->)|(a & b & -> & A & B & ->)]; unfold array_max, list_max, list_min; cbn [fold_right].
  - rewrite (Rmax_left a 0), (Rmin_right a 0), (Rmin_left 0 0) by lra. repeat split; [f_equal|]; lra.
  - rewrite (Rmax_left b 0), (Rmin_right b 0) by lra. rewrite (Rmax_right a b), (Rmin_right a 0), (Rmin_left 0 0) by lra. repeat split; [f_equal|]; lra.
Qed.
(** a small number of figures is written exactly *)
Lemma written m k : (Z.abs m < 10 ^ 6)%Z -> decimal (fmt_g 6 (IZR m * powerRZ 10 k)) (IZR m * powerRZ 10 k).
Proof.
  intros M. destruct (fmt_g_decimal 6 (IZR m * powerRZ 10 k)) as (y & S & D). change (Nat.max 6 1) with 6%nat in S.
  rewrite (significant_exact 6 _ y m k ltac:(lia) S eq_refl M) in D. exact D.
Qed.
Lemma unit_power age f u : best_unit age f u -> exists k, / f = powerRZ 10 k.
Proof.
  intros ([E|[E|[E|[E|[]]]]] & _); injection E as <- _; [exists 0%Z; apply Rinv_1|exists 3%Z|exists 6%Z|exists 9%Z]; rewrite Rinv_inv; reflexivity.
Qed.
Lemma tick_written step f age u i : nice_number step -> best_unit age f u -> (0 <= i <= 2)%Z -> decimal (fmt_g 6 (IZR i * step / f)) (IZR i * step / f).
Proof.
  intros (m & e & M & ->) B I. destruct (unit_power _ _ _ B) as [k K].
  assert (E : exists z, (Z.abs z < 10 ^ 6)%Z /\ IZR i * (m * powerRZ 10 e) / f = IZR z * powerRZ 10 (e + k)).
  { unfold Rdiv. rewrite K, powerRZ_add by lra. destruct M as [-> | [-> | ->]]; [exists i|exists (i * 2)%Z|exists (i * 5)%Z]; (split; [lia|rewrite ?mult_IZR; ring]). }
  destruct E as (z & Z1 & ->). now apply written.
Qed.
Lemma no_space x : ~ In (ch " ") (fmt_g 6 x).
Proof. destruct (fmt_g_word 6 x) as [[_ W] _]. intros H. rewrite Forall_forall in W. specialize (W _ H). discriminate W. Qed.
Lemma unit_no_space age f u : best_unit age f u -> ~ In (ch " ") u.
Proof. intros ([E|[E|[E|[E|[]]]]] & _); injection E as _ <-; cbn; intuition discriminate. Qed.
Lemma mini_labels_ok step n : nice_number step -> 0 < step -> (n = 2 \/ n = 3)%nat ->
  exists f u nums, best_unit ((INR n - 1) * step) f u /\ Forall2 (fun s t => decimal s (t / f)) nums (multiples 0 step n) /\
    mini_labels (multiples 0 step n) = Ok (removelast nums ++ [L "      " ++ last nums [] ++ L " " ++ u]).
Proof.
  intros NS SP N. set (top := (INR n - 1) * step).
  assert (TP : 0 < top) by (unfold top; destruct N as [-> | ->]; cbn; lra).
  destruct (choose_unit_spec top) as (f & u & E & B). pose proof (unit_pos _ _ _ B) as FP.
  set (nums := map (fun t => fmt_g 6 (t / f)) (multiples 0 step n)). exists f, u, nums. split; [exact B|].
  assert (W : Forall2 (fun s t => decimal s (t / f)) nums (multiples 0 step n)).
  { unfold nums, multiples. rewrite map_map. assert (Q : forall l, Forall (fun j => (j < n)%nat) l -> Forall2 (fun s t => decimal s (t / f)) (map (fun j => fmt_g 6 (IZR (0 + Z.of_nat j) * step / f)) l) (map (fun j => IZR (0 + Z.of_nat j) * step) l)).
    { induction 1 as [|j l J _ IH]; cbn [map]; constructor; [|exact IH]. apply (tick_written step f top u); [exact NS|exact B|lia]. }
    apply Q, Forall_forall. intros j J. apply in_seq in J. lia. }
  split; [exact W|]. unfold mini_labels. destruct (last_tick step n N) as [r R]. fold top in R. rewrite R.
  unfold simple_age, str_age. cbn [FmtModel.unit FmtModel.simple FmtModel.sf FmtModel.no_error FmtModel.mu FmtModel.mathml]. rewrite E. cbn [bind fst snd].
  rewrite Rltb_false by lra. cbn [andb bind]. 
  change (fmt_g 6 (top / f) ++ L " " ++ u) with (fmt_g 6 (top / f) ++ ch " " :: u). rewrite split_chr_app by apply no_space. rewrite split_chr_none by (eapply unit_no_space; exact B). cbn [rev app].
  change (pyindex [fmt_g 6 (top / f); u] 0) with (@Ok str (fmt_g 6 (top / f))). cbn [bind].
  assert (DT : decimal (fmt_g 6 (top / f)) (top / f)).
  { replace top with (IZR (Z.of_nat n - 1) * step) by (unfold top; rewrite minus_IZR, <- INR_IZR_INZ; reflexivity). apply (tick_written step f top u); [exact NS|exact B|lia]. }
  rewrite (py_float_decimal _ _ DT). cbn [bind]. destruct (Reqb_spec top 0) as [Q|_]; [lra|].
  assert (EN : map (fun e => fmt_g 6 (top / f / top * e)) (multiples 0 step n) = nums).
  { unfold nums. apply map_ext. intros e. f_equal. field. split; lra. }
  rewrite EN. assert (NE : nums <> []). { unfold nums. destruct N as [-> | ->]; discriminate. }
  rewrite (app_removelast_last [] NE) at 1. rewrite rev_app_distr. cbn [rev app]. change (pyindex [fmt_g 6 (top / f); u] 1) with (@Ok str u). cbn [bind].
  rewrite rev_involutive. reflexivity.
Qed.
