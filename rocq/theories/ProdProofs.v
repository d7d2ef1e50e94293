From Coq Require Import String List ZArith Reals Lra Lia Bool Sorted.
From Verif Require Import Base NumModel NumLemmas InterpProofs BinModel CountModel CountProofs CountProofs2 PdfProofs PdfSpec
  ProdModel ProdSpec.
Import ListNotations.
Local Open Scope R_scope.

(** ** Polynomials *)
Fixpoint peval (c : list R) (x : R) : R := match c with [] => 0 | a :: r => a + x * peval r x end.
Lemma poly_peval c x : poly c x = peval c x.
Proof.
  unfold poly, polyval. rewrite <- fold_left_rev_right, rev_involutive.
  induction c as [|a c IH]; [reflexivity|]. cbn [fold_right peval]. rewrite IH. ring.
Qed.
Lemma peval_series c x i : series i c x = x ^ i * peval c x.
Proof.
  revert i. induction c as [|a c IH]; intros i; cbn [series peval]; [ring|].
  rewrite IH. cbn [pow]. ring.
Qed.
Lemma dash_step c x i : peval (dash (S i) c) x = peval (dash i c) x + peval c x.
Proof.
  revert i. induction c as [|a c IH]; intros i; cbn [dash peval]; [ring|].
  rewrite IH, S_INR. ring.
Qed.
Lemma dash_0 c x : peval (dash 0 c) x = peval c x + x * match c with [] => 0 | _ :: r => peval (dash 0 r) x end.
Proof.
  destruct c as [|a c]; cbn [dash peval]; [ring|]. rewrite dash_step. cbn [INR]. ring.
Qed.
Lemma peval_deriv c x : derivable_pt_lim (peval c) x (match c with [] => 0 | _ :: r => peval (dash 0 r) x end).
Proof.
  induction c as [|a c IH]; [apply derivable_pt_lim_const|].
  rewrite dash_0.
  pose proof (derivable_pt_lim_mult _ _ _ _ _ (derivable_pt_lim_id x) IH) as M.
  pose proof (derivable_pt_lim_plus _ _ _ _ _ (derivable_pt_lim_const a x) M) as P.
  unfold plus_fct, mult_fct, fct_cte, id in P.
  replace (0 + (1 * peval c x + x * match c with [] => 0 | _ :: r => peval (dash 0 r) x end))
    with (peval c x + x * match c with [] => 0 | _ :: r => peval (dash 0 r) x end) in P by ring.
  exact P.
Qed.

Lemma log10_deriv d : 0 < d -> derivable_pt_lim log10 d (1 / (d * ln 10)).
Proof.
  intros H. pose proof (derivable_pt_lim_scal _ (/ ln 10) _ _ (derivable_pt_lim_ln d H)) as D.
  unfold mult_real_fct in D. pose proof ln10_pos.
  replace (1 / (d * ln 10)) with (/ ln 10 * / d) by (field; lra).
  intros eps He. destruct (D eps He) as (del & Hd). exists del. intros h Hh Hl. specialize (Hd h Hh Hl).
  unfold log10. replace ((ln (d + h) / ln 10 - ln d / ln 10)) with (/ ln 10 * ln (d + h) - / ln 10 * ln d) by (field; lra).
  exact Hd.
Qed.
Lemma pow10_deriv x : derivable_pt_lim pow10 x (ln 10 * pow10 x).
Proof.
  assert (D1 : derivable_pt_lim (fun x => x * ln 10) x (ln 10)).
  { pose proof (derivable_pt_lim_mult _ _ _ _ _ (derivable_pt_lim_id x) (derivable_pt_lim_const (ln 10) x)) as M.
    unfold mult_fct, fct_cte, id in M. replace (1 * ln 10 + x * 0) with (ln 10) in M by ring. exact M. }
  pose proof (derivable_pt_lim_comp _ _ _ _ _ D1 (derivable_pt_lim_exp (x * ln 10))) as C.
  unfold comp in C. rewrite Rmult_comm. exact C.
Qed.
Lemma poly_C_deriv a a0 d : 0 < d -> derivable_pt_lim (fun d => poly_C a d a0) d (- poly_F a d a0).
Proof.
  intros H. unfold poly_C, poly_C10.
  pose proof (derivable_pt_lim_comp _ _ _ _ _ (log10_deriv d H) (peval_deriv (a0 :: tl a) (log10 d))) as D1.
  pose proof (derivable_pt_lim_comp _ _ _ _ _ D1 (pow10_deriv _)) as D2. unfold comp in D2.
  assert (E : - poly_F a d a0 = ln 10 * pow10 (peval (a0 :: tl a) (log10 d)) * (peval (dash 0 (tl a)) (log10 d) * (1 / (d * ln 10)))).
  { unfold poly_F. cbn [tl]. rewrite !poly_peval. ring. }
  rewrite E. intros eps He. destruct (D2 eps He) as (del & Hd). exists del. intros h Hh Hl.
  rewrite !poly_peval. now apply Hd.
Qed.

Lemma poly_C_scale a d a0 x : poly_C a d (a0 + x) = pow10 x * poly_C a d a0.
Proof.
  unfold poly_C, poly_C10. rewrite !poly_peval. cbn [peval]. rewrite <- pow10_plus. f_equal. ring.
Qed.
Lemma poly_F_scale a d a0 x : poly_F a d (a0 + x) = pow10 x * poly_F a d a0.
Proof.
  unfold poly_F. cbn [tl]. rewrite !poly_peval. cbn [peval].
  replace (a0 + x + log10 d * peval (tl a) (log10 d)) with (x + (a0 + log10 d * peval (tl a) (log10 d))) by ring.
  rewrite pow10_plus. unfold Rdiv. ring.
Qed.
Lemma poly_C_1km a a0 : poly_C a 1 a0 = pow10 a0.
Proof. unfold poly_C, poly_C10. rewrite log10_1, poly_peval. cbn [peval]. f_equal. ring. Qed.
Lemma poly_R_cube a d a0 : 0 < d -> poly_R a d a0 = d ^ 3 * poly_F a d a0.
Proof.
  intros H. unfold poly_R. replace (Rpower d (-3)) with (/ d ^ 3).
  - field. lra.
  - replace (-3) with (- (3)) by lra. rewrite Rpower_Ropp. f_equal. replace 3 with (INR 3) by (cbn; lra). symmetry. now apply Rpower_pow.
Qed.

(** ** Interpolation of shifted values *)
Lemma interp_affine tbl v s m y : tbl <> [] -> fst (nth 0 tbl (0, 0)) <= v ->
  (m = 0 \/ v <= fst (nth (length tbl - 1) tbl (0, 0))) ->
  StronglySorted Rle (map fst tbl) ->
  interp v tbl = Ok y ->
  interp v (map (fun p => (fst p, snd p + (s + m * fst p))) tbl) = Ok (y + (s + m * v)).
Proof.
  intros N H0 Hm S E.
  assert (L : length (map (fun p => (fst p, snd p + (s + m * fst p))) tbl) = length tbl) by apply map_length.
  assert (NT : forall i, (i < length tbl)%nat -> nth i (map (fun p => (fst p, snd p + (s + m * fst p))) tbl) (0, 0) =
     (fst (nth i tbl (0, 0)), snd (nth i tbl (0, 0)) + (s + m * fst (nth i tbl (0, 0))))).
  { intros i Hi. now rewrite (nth_map_lt _ _ _ (0, 0)) by exact Hi. }
  assert (S' : StronglySorted Rle (map fst (map (fun p => (fst p, snd p + (s + m * fst p))) tbl))).
  { rewrite map_map. cbn [fst]. exact S. }
  assert (0 < length tbl)%nat by (destruct tbl; [congruence|cbn; lia]).
  destruct (interp_segment tbl v S N H0) as (j & J1 & J2 & J3 & J4).
  destruct (Nat.eq_dec (Datatypes.S j) (length tbl)) as [Ej|Ej].
  - specialize (J4 Ej). rewrite E in J4. injection J4 as ->.
    rewrite interp_beyond; [|exact S'|now destruct tbl|].
    + rewrite L, NT by lia. cbn [snd]. f_equal. replace (length tbl - 1)%nat with j in * by lia.
      destruct Hm as [-> | Hv]; [ring|]. assert (v = fst (nth j tbl (0, 0))) by lra. subst v. ring.
    + rewrite L, NT by lia. cbn [fst]. replace (length tbl - 1)%nat with j by lia. exact J2.
  - destruct (J3 ltac:(lia)) as [A B]. rewrite E in B. injection B as ->.
    rewrite (interp_at _ v j S'); rewrite ?L; [|lia|rewrite !NT by lia; cbn [fst]; lra].
    rewrite !NT by lia. cbn [fst snd]. f_equal. field. lra.
Qed.
Lemma interp_shift tbl v s y : StronglySorted Rle (map fst tbl) ->
  interp v tbl = Ok y -> interp v (map (fun p => (fst p, snd p + s)) tbl) = Ok (y + s).
Proof.
  intros S E. destruct tbl as [|p0 tbl]; [discriminate|].
  destruct (Rlt_le_dec v (fst (nth 0 (p0 :: tbl) (0, 0)))) as [L|L].
  - rewrite interp_below in E by (congruence || exact L). injection E as <-.
    rewrite interp_below; [reflexivity|discriminate|exact L].
  - pose proof (interp_affine (p0 :: tbl) v s 0 y ltac:(discriminate) L (or_introl eq_refl) S E) as I.
    rewrite Rmult_0_l, Rplus_0_r in I. rewrite <- I. f_equal. apply map_ext. intros q.
    rewrite Rmult_0_l, Rplus_0_r. reflexivity.
Qed.
Lemma combine_map_r {A} (xs : list A) (f : R -> R) ys : combine xs (map f ys) = map (fun p => (fst p, f (snd p))) (combine xs ys).
Proof. revert ys. induction xs as [|x xs IH]; intros [|y ys]; cbn; auto. now rewrite IH. Qed.

(** ** Tables *)
Lemma total_from_0 h : total_from 0 h = Rsum h.
Proof. induction h as [|x h IH]; [reflexivity|]. cbn [total_from Rsum]. now rewrite IH. Qed.
Lemma total_from_skipn i h : total_from i h = Rsum (skipn i h).
Proof.
  revert i. induction h as [|x h IH]; intros [|i]; cbn [total_from skipn]; auto.
  cbn [Rsum]. now rewrite total_from_0.
Qed.
Lemma total_step i h : (i < length h)%nat -> total_from i h = nth i h 0 + total_from (S i) h.
Proof.
  revert i. induction h as [|x h IH]; intros i H; [cbn in H; lia|].
  destruct i as [|i]; [destruct h; reflexivity|]. cbn [total_from nth]. cbn [length] in H. rewrite IH by lia.
  destruct h; reflexivity.
Qed.
Lemma total_end h : total_from (length h) h = 0.
Proof. rewrite total_from_skipn, skipn_all. reflexivity. Qed.
Lemma total_pos i h : Forall (fun x => 0 < x) h -> (i < length h)%nat -> 0 < total_from i h.
Proof.
  revert i. induction h as [|x h IH]; intros i F H; [cbn in H; lia|]. inversion F; subst.
  destruct i as [|i]; cbn [total_from].
  - rewrite total_from_0. assert (0 <= Rsum h); [|lra]. apply Rsum_nonneg. eapply Forall_impl; [|eassumption]. cbn. intros; lra.
  - apply IH; auto. cbn in H. lia.
Qed.
Lemma cumsum_from_app a l m : cumsum_from a (l ++ m) = cumsum_from a l ++ cumsum_from (a + Rsum l) m.
Proof.
  revert a. induction l as [|x l IH]; intros a; cbn [cumsum_from app Rsum]; [now rewrite Rplus_0_r|].
  rewrite IH. do 3 f_equal. lra.
Qed.
Lemma rev_cumsum h : rev (cumsum (rev h)) = map (fun i => total_from i h) (seq 0 (length h)).
Proof.
  induction h as [|x h IH]; [reflexivity|]. cbn [rev length seq map].
  unfold cumsum in *. rewrite cumsum_from_app. cbn [cumsum_from].
  rewrite rev_app_distr. cbn [rev app]. rewrite IH. f_equal.
  - rewrite Rsum_rev, Rplus_0_l. cbn [total_from]. rewrite total_from_0. lra.
  - rewrite <- seq_shift, map_map. reflexivity.
Qed.

Definition index_ok (h : list R) (idx : nat) : Prop := Forall (fun x => 0 < x) h /\ (idx < length h)%nat.

Lemma pyindex_nat {A} (l : list A) (i : nat) d : (i < length l)%nat -> pyindex l (Z.of_nat i) = Ok (nth i l d).
Proof.
  intros H. unfold pyindex. destruct (Z.ltb_spec (Z.of_nat i) 0); [lia|].
  destruct (Z.ltb_spec (Z.of_nat i) 0); [lia|]. rewrite Nat2Z.id.
  now rewrite (nth_error_nth' l d H).
Qed.

Lemma zip_len f a b : length a = length b -> length (zip f a b) = length a.
Proof. intros H. unfold zip. rewrite map_length, combine_length. lia. Qed.
Lemma zip_nth f a b i : length a = length b -> (i < length a)%nat -> nth i (zip f a b) 0 = f (nth i a 0) (nth i b 0).
Proof.
  intros H L. unfold zip. rewrite (nth_map_lt _ _ _ (0, 0)) by (rewrite combine_length; lia).
  now rewrite combine_nth by exact H.
Qed.
Lemma tl_nth (l : list R) i d : nth i (tl l) d = nth (S i) l d.
Proof. destruct l; [now destruct i|reflexivity]. Qed.
Lemma tl_len (l : list R) : length (tl l) = (length l - 1)%nat.
Proof. destruct l; cbn; lia. Qed.

Section Table.
Context (h : list R) (idx : nat) (Hok : index_ok h idx).
Let n := length h.
Definition the_table : tabular :=
  mkTab (map (fun i => log10 (total_from i h) - log10 (total_from idx h)) (seq 0 (length h)))
        (map (fun i => log10 (root2_edge (Z.of_nat idx) i)) (seq 0 (length h)))
        (map (fun i => log10 (root2_centre (Z.of_nat idx) i)) (seq 0 (length h))).
Lemma make_tabular_ok : make_tabular h (Z.of_nat idx) = Ok the_table.
Proof.
  destruct Hok as [F Hi]. unfold make_tabular. rewrite rev_cumsum, map_map.
  rewrite (pyindex_nat _ idx 0) by (now rewrite map_length, seq_length). cbn [bind].
  rewrite nth_map_seq by exact Hi. unfold the_table. f_equal. f_equal.
  - now rewrite map_map.
  - unfold tab_dmin. now rewrite map_map.
  - unfold tab_dmin. rewrite !map_map. apply map_ext. intros i. unfold root2_centre. now rewrite Rpower_plus.
Qed.

Lemma log10_Rpower2 y : log10 (Rpower 2 y) = y * log10 2.
Proof. unfold log10, Rpower. rewrite ln_exp. unfold Rdiv. ring. Qed.
Lemma log10_2_pos : 0 < log10 2.
Proof. rewrite <- log10_1. apply log10_lt; lra. Qed.
Lemma hC_len : length (tb_hC10 the_table) = n. Proof. cbn. now rewrite map_length, seq_length. Qed.
Lemma dmin_len : length (tb_dmin10 the_table) = n. Proof. cbn. now rewrite map_length, seq_length. Qed.
Lemma dmean_len : length (tb_dmean10 the_table) = n. Proof. cbn. now rewrite map_length, seq_length. Qed.
Lemma hC_nth i : (i < n)%nat -> nth i (tb_hC10 the_table) 0 = log10 (total_from i h) - log10 (total_from idx h).
Proof. intros H. cbn. now rewrite nth_map_seq. Qed.
Lemma dmin_nth i : (i < n)%nat -> nth i (tb_dmin10 the_table) 0 = log10 (root2_edge (Z.of_nat idx) i).
Proof. intros H. cbn. now rewrite nth_map_seq. Qed.
Lemma dmean_nth i : (i < n)%nat -> nth i (tb_dmean10 the_table) 0 = log10 (root2_centre (Z.of_nat idx) i).
Proof. intros H. cbn. now rewrite nth_map_seq. Qed.
Lemma dmin_sorted : StronglySorted Rlt (tb_dmin10 the_table).
Proof.
  apply (SS_of_nth Rlt 0). rewrite dmin_len. intros i j Hij. rewrite !dmin_nth by lia.
  unfold root2_edge. rewrite !log10_Rpower2. apply Rmult_lt_compat_r; [exact log10_2_pos|].
  apply Rmult_lt_compat_r; [lra|]. apply IZR_lt. lia.
Qed.
Lemma dmean_sorted : StronglySorted Rlt (tb_dmean10 the_table).
Proof.
  apply (SS_of_nth Rlt 0). rewrite dmean_len. intros i j Hij. rewrite !dmean_nth by lia.
  unfold root2_centre. rewrite !log10_Rpower2. apply Rmult_lt_compat_r; [exact log10_2_pos|].
  apply Rplus_lt_compat_r, Rmult_lt_compat_r; [lra|]. apply IZR_lt. lia.
Qed.

Context (a0 : R).
(** cumulative density at entry i *)
Lemma c_len : length (tab_c the_table a0) = n.
Proof. unfold tab_c. rewrite map_length. exact hC_len. Qed.
Lemma c_nth i : (i < n)%nat -> nth i (tab_c the_table a0) 0 = pow10 a0 * total_from i h / total_from idx h.
Proof.
  intros H. destruct Hok as [F Hi]. unfold tab_c. rewrite (nth_map_lt _ _ _ 0) by (rewrite hC_len; exact H).
  rewrite hC_nth by exact H. rewrite <- log10_div by (apply total_pos; assumption).
  rewrite pow10_plus, pow10_log10 by (apply Rdiv_lt_0_compat; apply total_pos; assumption). unfold Rdiv. ring.
Qed.
Lemma h_len : length (tab_h the_table a0) = n.
Proof.
  unfold tab_h. pose proof c_len as L. assert (0 < n)%nat by (destruct Hok; unfold n; lia).
  rewrite zip_len; [exact L|]. rewrite app_length, tl_len. cbn [length]. lia.
Qed.
Lemma h_nth i : (i < n)%nat -> nth i (tab_h the_table a0) 0 = pow10 a0 * nth i h 0 / total_from idx h.
Proof.
  intros H. destruct Hok as [F Hi]. pose proof c_len as L. unfold tab_h.
  rewrite zip_nth; [|rewrite app_length, tl_len; cbn [length]; lia|lia].
  rewrite c_nth by exact H. rewrite total_step by exact H.
  assert (E : nth i (tl (tab_c the_table a0) ++ [0]) 0 = pow10 a0 * total_from (S i) h / total_from idx h).
  { destruct (Nat.eq_dec (S i) n) as [E|E].
    - rewrite app_nth2 by (rewrite tl_len; lia). rewrite tl_len, L.
      replace (i - (n - 1))%nat with 0%nat by lia. cbn [nth]. rewrite E. unfold n. rewrite total_end. unfold Rdiv. ring.
    - rewrite app_nth1 by (rewrite tl_len; lia). rewrite tl_nth. now rewrite c_nth by lia. }
  rewrite E. unfold Rdiv. ring.
Qed.
Lemma h_pos i : (i < n)%nat -> 0 < nth i (tab_h the_table a0) 0.
Proof.
  intros H. rewrite h_nth by exact H. destruct Hok as [F Hi].
  apply Rmult_lt_0_compat; [apply Rmult_lt_0_compat; [apply pow10_pos|]|apply Rinv_0_lt_compat; now apply total_pos].
  rewrite Forall_forall in F. apply F, nth_In. exact H.
Qed.

(** interpolating at an entry returns the entry *)
Lemma log_interp_node xs ys i : length xs = n -> length ys = n -> StronglySorted Rlt xs -> (i < n)%nat ->
  0 < nth i ys 0 -> log_interp (nth i xs 0) xs ys = Ok (nth i ys 0).
Proof.
  intros Lx Ly S Hi P. unfold log_interp.
  assert (Lt : length (combine xs (map log10 ys)) = n) by (rewrite combine_length, map_length; lia).
  assert (Nt : forall j, (j < n)%nat -> nth j (combine xs (map log10 ys)) (0, 0) = (nth j xs 0, log10 (nth j ys 0))).
  { intros j Hj. rewrite combine_nth by (rewrite map_length; lia). f_equal. now rewrite (nth_map_lt _ _ _ 0) by lia. }
  assert (St : StronglySorted Rle (map fst (combine xs (map log10 ys)))).
  { rewrite map_fst_combine' by (rewrite map_length; lia). now apply SS_lt_le. }
  assert (E : interp (nth i xs 0) (combine xs (map log10 ys)) = Ok (log10 (nth i ys 0))).
  { destruct (Nat.eq_dec (Datatypes.S i) n) as [E|E].
    - rewrite interp_beyond.
      + rewrite Lt, Nt by lia. cbn [snd]. do 3 f_equal. lia.
      + exact St.
      + intros Z. rewrite Z in Lt. cbn in Lt. lia.
      + rewrite Lt, Nt by lia. cbn [fst]. replace (n - 1)%nat with i by lia. lra.
    - rewrite (interp_at _ _ i St).
      + rewrite !Nt by lia. cbn [fst snd]. f_equal. unfold Rdiv. rewrite Rminus_diag_eq with (r1 := nth i xs 0) (r2 := nth i xs 0) by reflexivity. lra.
      + rewrite Lt. lia.
      + rewrite !Nt by lia. cbn [fst]. split; [lra|]. apply (SS_nth Rlt 0 xs S). lia. }
  rewrite E. cbn [bind]. now rewrite pow10_log10.
Qed.

Lemma tab_C_node i : (i < n)%nat ->
  tab_C the_table (log10 (root2_edge (Z.of_nat idx) i)) a0 = Ok (pow10 a0 * total_from i h / total_from idx h).
Proof.
  intros H. unfold tab_C. rewrite <- dmin_nth by exact H. rewrite log_interp_node.
  - now rewrite c_nth.
  - exact dmin_len.
  - exact c_len.
  - exact dmin_sorted.
  - exact H.
  - rewrite c_nth by exact H. destruct Hok as [F Hi].
    apply Rmult_lt_0_compat; [apply Rmult_lt_0_compat; [apply pow10_pos|now apply total_pos]|apply Rinv_0_lt_compat; now apply total_pos].
Qed.
Lemma tab_H_node i : (i < n)%nat ->
  tab_H the_table (log10 (root2_centre (Z.of_nat idx) i)) a0 = Ok (pow10 a0 * nth i h 0 / total_from idx h).
Proof.
  intros H. unfold tab_H. rewrite <- dmean_nth by exact H. rewrite log_interp_node.
  - now rewrite h_nth.
  - exact dmean_len.
  - exact h_len.
  - exact dmean_sorted.
  - exact H.
  - now apply h_pos.
Qed.
End Table.
