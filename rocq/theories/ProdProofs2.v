From Coq Require Import String List ZArith Reals Lra Lia Bool Sorted.
From Verif Require Import Base NumModel NumLemmas InterpProofs BinModel CountModel CountProofs CountProofs2 PdfProofs PdfSpec
  ProdModel ProdSpec ProdProofs.
Import ListNotations.
Local Open Scope R_scope.

Lemma bias_positive beta k : 1 < beta -> 0 < bin_bias_correction beta k.
Proof.
  intros Hb. unfold bin_bias_correction. destruct (Rltb_spec (Rabs k) (1 / 100000)) as [L|L]; [lra|].
  pose proof (bias_sinh beta k Hb ltac:(lra)) as E. unfold bin_bias_correction in E.
  destruct (Rltb_spec (Rabs k) (1 / 100000)) as [L'|_]; [lra|]. rewrite E.
  assert (Ln : 0 < ln beta / 2) by (pose proof (ln_increasing 1 beta ltac:(lra) Hb) as I; rewrite ln_1 in I; lra).
  pose proof (sinh_pos _ Ln) as S1.
  destruct (Rle_lt_dec 0 k) as [K|K].
  - rewrite Rabs_right in L by lra. pose proof (sinh_pos (k * (ln beta / 2)) ltac:(nra)).
    apply Rdiv_lt_0_compat; [assumption|nra].
  - rewrite Rabs_left in L by lra.
    replace (k * (ln beta / 2)) with (- ((- k) * (ln beta / 2))) by ring. rewrite sinh_odd.
    pose proof (sinh_pos ((- k) * (ln beta / 2)) ltac:(nra)) as S2.
    replace (- sinh (- k * (ln beta / 2)) / (k * sinh (ln beta / 2)))
      with (sinh (- k * (ln beta / 2)) / ((- k) * sinh (ln beta / 2))) by (field; split; lra).
    apply Rdiv_lt_0_compat; [assumption|nra].
Qed.
Lemma sqrt2_gt1 : 1 < sqrt 2.
Proof. rewrite <- sqrt_1 at 1. apply sqrt_lt_1; lra. Qed.

(** ** Scaling of tables *)
Lemma log_interp_scale d10 xs ys x z : StronglySorted Rle xs -> length xs = length ys ->
  Forall (fun y => 0 < y) ys -> log_interp d10 xs ys = Ok z ->
  log_interp d10 xs (map (fun y => pow10 x * y) ys) = Ok (pow10 x * z).
Proof.
  intros S L P E. unfold log_interp in *.
  assert (M : map log10 (map (fun y => pow10 x * y) ys) = map (fun y => y + x) (map log10 ys)).
  { rewrite !map_map. apply map_ext_in. intros y Hy. rewrite Forall_forall in P.
    rewrite log10_mult; [|apply pow10_pos|now apply P]. rewrite log10_pow10. ring. }
  rewrite M, combine_map_r.
  destruct (interp d10 (combine xs (map log10 ys))) as [y|e] eqn:I; cbn [bind] in E; [|discriminate].
  injection E as <-. rewrite (interp_shift _ _ x y).
  - cbn [bind]. f_equal. rewrite pow10_plus. ring.
  - rewrite map_fst_combine' by (now rewrite map_length). exact S.
  - exact I.
Qed.
Lemma tab_c_scale t a0 x : tab_c t (a0 + x) = map (fun y => pow10 x * y) (tab_c t a0).
Proof.
  unfold tab_c. rewrite map_map. apply map_ext. intros y. rewrite <- pow10_plus. f_equal. ring.
Qed.
Lemma zip_map_l f g (a b : list R) : zip f (map g a) b = zip (fun u v => f (g u) v) a b.
Proof. unfold zip. revert b. induction a as [|u a IH]; intros [|v b]; cbn; auto. now rewrite IH. Qed.
Lemma zip_ext f g (a b : list R) : (forall u v, f u v = g u v) -> zip f a b = zip g a b.
Proof. intros H. unfold zip. apply map_ext. auto. Qed.
Lemma map_zip g f (a b : list R) : map g (zip f a b) = zip (fun u v => g (f u v)) a b.
Proof. unfold zip. rewrite map_map. reflexivity. Qed.
Lemma zip_map_r f g (a b : list R) : zip f a (map g b) = zip (fun u v => f u (g v)) a b.
Proof. unfold zip. revert b. induction a as [|u a IH]; intros [|v b]; cbn; auto. now rewrite IH. Qed.
Lemma tl_map {A B} (f : A -> B) l : tl (map f l) = map f (tl l).
Proof. now destruct l. Qed.
Lemma tab_h_scale t a0 x : tab_h t (a0 + x) = map (fun y => pow10 x * y) (tab_h t a0).
Proof.
  unfold tab_h. rewrite tab_c_scale, tl_map.
  replace (map (fun y => pow10 x * y) (tl (tab_c t a0)) ++ [0]) with (map (fun y => pow10 x * y) (tl (tab_c t a0) ++ [0])).
  2:{ rewrite map_app. cbn [map]. now rewrite Rmult_0_r. }
  rewrite zip_map_l, zip_map_r, map_zip. apply zip_ext. intros; ring.
Qed.
Lemma tab_f_scale t a0 x f : tab_f t a0 = Ok f -> tab_f t (a0 + x) = Ok (map (fun y => pow10 x * y) f).
Proof.
  unfold tab_f. destruct (tab_slopes (tb_hC10 t)) as [k|e]; cbn [bind]; [|discriminate].
  intros E. injection E as <-. f_equal. rewrite tab_h_scale, zip_map_l, map_zip.
  assert (Z : zip (fun u v => pow10 x * u / pow10 v / (Rpower 2 (1 / 4) - Rpower 2 (- (1 / 4)))) (tab_h t a0) (tb_dmean10 t)
     = map (fun y => pow10 x * y) (zip (fun u v => u / pow10 v / (Rpower 2 (1 / 4) - Rpower 2 (- (1 / 4)))) (tab_h t a0) (tb_dmean10 t))).
  { rewrite map_zip. apply zip_ext. intros. unfold Rdiv. ring. }
  rewrite Z, zip_map_l. apply zip_ext. intros. unfold Rdiv. ring.
Qed.

Section Table2.
Context (h : list R) (idx : nat) (Hok : index_ok h idx) (H2 : (2 <= length h)%nat).
Let n := length h.
Let t := the_table h idx.
Let bw := Rpower 2 (1 / 4) - Rpower 2 (- (1 / 4)).
Lemma bw_pos : 0 < bw.
Proof. unfold bw. assert (Rpower 2 (- (1 / 4)) < Rpower 2 (1 / 4)) by (apply Rpower_lt; lra). lra. Qed.
Lemma firstn1_len (l : list R) : (0 < length l)%nat -> length (firstn 1 l) = 1%nat.
Proof. destruct l; cbn; [lia|reflexivity]. Qed.
Lemma slopes_ok : exists k, tab_slopes (tb_hC10 t) = Ok k /\ length k = n.
Proof.
  unfold tab_slopes. pose proof (hC_len h idx) as L. fold t n in L. set (k := zip _ _ _).
  assert (Lk : length k = n).
  { unfold k. rewrite zip_len; [exact L|]. rewrite app_length, tl_len, firstn1_len; unfold n in *; lia. }
  assert (P : pyindex k (-2) = Ok (nth (n - 2) k 0)).
  { unfold pyindex. rewrite Lk. change (-2 <? 0)%Z with true. cbv iota.
    destruct (Z.ltb_spec (-2 + Z.of_nat n) 0); [unfold n in *; lia|].
    replace (Z.to_nat (-2 + Z.of_nat n)) with (n - 2)%nat by (unfold n in *; lia).
    now rewrite (nth_error_nth' k 0) by (unfold n in *; lia). }
  rewrite P. cbn [bind]. eexists. split; [reflexivity|]. rewrite app_length, removelast_length'. cbn [length]. unfold n in *; lia.
Qed.
Lemma f_ok a0 : exists f k, tab_slopes (tb_hC10 t) = Ok k /\ tab_f t a0 = Ok f /\ length f = n /\ forall i, (i < n)%nat ->
  0 < nth i f 0 /\
  nth i f 0 = nth i (tab_h t a0) 0 / root2_centre (Z.of_nat idx) i / bw / bin_bias_correction (sqrt 2) (nth i k 0).
Proof.
  destruct slopes_ok as (k & Ek & Lk). unfold tab_f. rewrite Ek. cbn [bind].
  pose proof (h_len h idx Hok a0) as Lh. fold t n in Lh. pose proof (dmean_len h idx) as Lm. fold t n in Lm.
  eexists. exists k. split; [reflexivity|]. split; [reflexivity|].
  assert (L1 : length (zip (fun h d10 => h / pow10 d10 / bw) (tab_h t a0) (tb_dmean10 t)) = n) by (rewrite zip_len; lia).
  fold bw. split; [rewrite zip_len; lia|]. intros i Hi.
  rewrite zip_nth by lia. rewrite zip_nth by lia. unfold t at 2 4. rewrite (dmean_nth h idx i) by exact Hi.
  assert (RC : 0 < root2_centre (Z.of_nat idx) i) by apply exp_pos.
  rewrite pow10_log10 by exact RC. split; [|reflexivity].
  apply Rdiv_lt_0_compat; [|apply bias_positive, sqrt2_gt1].
  apply Rdiv_lt_0_compat; [|exact bw_pos]. apply Rdiv_lt_0_compat; [|exact RC]. now apply h_pos.
Qed.
Lemma h_all_pos a0 : Forall (fun y => 0 < y) (tab_h t a0).
Proof.
  apply Forall_forall. intros y Hy. destruct (In_nth _ _ 0 Hy) as (i & Hi & <-).
  apply h_pos; [exact Hok|]. now rewrite (h_len h idx Hok) in Hi.
Qed.
Lemma f_all_pos a0 f : tab_f t a0 = Ok f -> Forall (fun y => 0 < y) f.
Proof.
  intros E. destruct (f_ok a0) as (f' & k & _ & E' & L & N). rewrite E in E'. injection E' as <-.
  apply Forall_forall. intros y Hy. destruct (In_nth _ _ 0 Hy) as (i & Hi & <-). apply N. lia.
Qed.
Lemma c_all_pos a0 : Forall (fun y => 0 < y) (tab_c t a0).
Proof. unfold tab_c. apply Forall_map, Forall_forall. intros. apply pow10_pos. Qed.

Lemma log_interp_total d10 xs ys : xs <> [] -> length xs = length ys -> exists z, log_interp d10 xs ys = Ok z /\ 0 < z.
Proof.
  intros N L. unfold log_interp. destruct (interp_total d10 (combine xs (map log10 ys))) as [y E].
  - destruct xs, ys; cbn in *; congruence.
  - rewrite E. cbn [bind]. exists (pow10 y). split; [reflexivity|apply pow10_pos].
Qed.
Lemma ne_of_len (l : list R) : length l = n -> l <> [].
Proof. intros L E. subst l. cbn in L. unfold n in *; lia. Qed.

Lemma tab_C_total d10 a0 : exists z, tab_C t d10 a0 = Ok z /\ 0 < z.
Proof.
  apply log_interp_total; [apply ne_of_len, dmin_len|]. unfold t. now rewrite dmin_len, c_len.
Qed.
Lemma tab_H_total d10 a0 : exists z, tab_H t d10 a0 = Ok z /\ 0 < z.
Proof.
  apply log_interp_total; [apply ne_of_len, dmean_len|]. unfold t. now rewrite dmean_len, h_len.
Qed.
Lemma tab_F_total d10 a0 : exists z, tab_F t d10 a0 = Ok z /\ 0 < z.
Proof.
  unfold tab_F. destruct (f_ok a0) as (f & k & _ & E & L & _). rewrite E. cbn [bind].
  apply log_interp_total; [apply ne_of_len, dmean_len|]. unfold t. rewrite dmean_len. symmetry. exact L.
Qed.
Lemma tab_R_total d10 a0 : exists z, tab_R t d10 a0 = Ok z /\ 0 < z.
Proof.
  unfold tab_R. destruct (f_ok a0) as (f & k & _ & E & L & _). rewrite E. cbn [bind].
  pose proof (dmean_len h idx) as Lm. fold t n in Lm.
  apply log_interp_total; [apply ne_of_len; exact Lm|]. rewrite zip_len; lia.
Qed.

Lemma tab_C_scale d10 a0 x z : tab_C t d10 a0 = Ok z -> tab_C t d10 (a0 + x) = Ok (pow10 x * z).
Proof.
  intros E. unfold tab_C. rewrite tab_c_scale. apply log_interp_scale; auto.
  - apply SS_lt_le, dmin_sorted.
  - unfold t. now rewrite dmin_len, c_len.
  - apply c_all_pos.
Qed.
Lemma tab_H_scale d10 a0 x z : tab_H t d10 a0 = Ok z -> tab_H t d10 (a0 + x) = Ok (pow10 x * z).
Proof.
  intros E. unfold tab_H. rewrite tab_h_scale. apply log_interp_scale; auto.
  - apply SS_lt_le, dmean_sorted.
  - unfold t. now rewrite dmean_len, h_len.
  - apply h_all_pos.
Qed.
Lemma tab_F_scale d10 a0 x z : tab_F t d10 a0 = Ok z -> tab_F t d10 (a0 + x) = Ok (pow10 x * z).
Proof.
  unfold tab_F. destruct (f_ok a0) as (f & k & _ & E & L & _). rewrite (tab_f_scale _ _ x _ E), E. cbn [bind].
  intros I. apply log_interp_scale; auto.
  - apply SS_lt_le, dmean_sorted.
  - unfold t. rewrite dmean_len. symmetry. exact L.
  - now apply (f_all_pos a0).
Qed.
Lemma tab_R_scale d10 a0 x z : tab_R t d10 a0 = Ok z -> tab_R t d10 (a0 + x) = Ok (pow10 x * z).
Proof.
  unfold tab_R. destruct (f_ok a0) as (f & k & _ & E & L & _). rewrite (tab_f_scale _ _ x _ E), E. cbn [bind].
  pose proof (dmean_len h idx) as Lm. fold t n in Lm.
  intros I. rewrite zip_map_l.
  replace (zip (fun u v => pow10 x * u / Rpower (pow10 v) (-3)) f (tb_dmean10 t))
    with (map (fun y => pow10 x * y) (zip (fun u v => u / Rpower (pow10 v) (-3)) f (tb_dmean10 t))).
  2:{ rewrite map_zip. apply zip_ext. intros. unfold Rdiv. ring. }
  apply log_interp_scale; auto.
  - apply SS_lt_le, dmean_sorted.
  - rewrite zip_len; lia.
  - apply Forall_forall. intros y Hy. destruct (In_nth _ _ 0 Hy) as (i & Hi & <-).
    rewrite zip_len in Hi by lia. rewrite zip_nth by lia. apply Rdiv_lt_0_compat; [|apply exp_pos].
    pose proof (f_all_pos a0 f E) as P. rewrite Forall_forall in P. apply P, nth_In. lia.
Qed.

(** R(D) = D^3 F(D) between the first and last centre *)
Lemma tab_R_inside d a0 z :
  root2_centre (Z.of_nat idx) 0 <= d <= root2_centre (Z.of_nat idx) (n - 1) ->
  tab_F t (log10 d) a0 = Ok z -> tab_R t (log10 d) a0 = Ok (d ^ 3 * z).
Proof.
  intros Hd. assert (Dp : 0 < d) by (pose proof (exp_pos ((IZR (Z.of_nat 0 - Z.of_nat idx) / 2 + 1 / 4) * ln 2)) as P; unfold root2_centre, Rpower in Hd; lra).
  unfold tab_F, tab_R. destruct (f_ok a0) as (f & k & _ & E & L & N). rewrite E. cbn [bind].
  pose proof (dmean_len h idx) as Lm. fold t n in Lm. unfold log_interp.
  destruct (interp (log10 d) (combine (tb_dmean10 t) (map log10 f))) as [y|e] eqn:I; cbn [bind]; [|discriminate].
  intros Ez. injection Ez as <-.
  assert (M : combine (tb_dmean10 t) (map log10 (zip (fun f d10 => f / Rpower (pow10 d10) (-3)) f (tb_dmean10 t)))
     = map (fun p => (fst p, snd p + (0 + 3 * fst p))) (combine (tb_dmean10 t) (map log10 f))).
  { apply (nth_ext _ _ (0, 0) (0, 0)).
    - rewrite map_length, !combine_length, !map_length, zip_len by lia. lia.
    - intros i Hi. rewrite combine_length, map_length, zip_len in Hi by lia.
      rewrite (nth_map_lt _ _ _ (0, 0)) by (rewrite combine_length, map_length; lia).
      rewrite !combine_nth by (rewrite ?map_length, ?zip_len; lia). cbn [fst snd]. f_equal.
      rewrite !(nth_map_lt log10 _ _ 0) by (rewrite ?zip_len; lia). rewrite zip_nth by lia.
      assert (P : 0 < nth i f 0) by (apply N; lia).
      rewrite log10_div; [|exact P|apply exp_pos].
      assert (LP : log10 (Rpower (pow10 (nth i (tb_dmean10 t) 0)) (-3)) = -3 * nth i (tb_dmean10 t) 0).
      { unfold Rpower, log10 at 1. rewrite ln_exp. unfold pow10. rewrite ln_exp. pose proof ln10_pos. field. lra. }
      rewrite LP. ring. }
  rewrite M.
  assert (St : StronglySorted Rle (map fst (combine (tb_dmean10 t) (map log10 f)))).
  { rewrite map_fst_combine' by (rewrite map_length; lia). apply SS_lt_le, dmean_sorted. }
  assert (Lc : length (combine (tb_dmean10 t) (map log10 f)) = n) by (rewrite combine_length, map_length; lia).
  assert (Nf : forall i, (i < n)%nat -> fst (nth i (combine (tb_dmean10 t) (map log10 f)) (0, 0)) = log10 (root2_centre (Z.of_nat idx) i)).
  { intros i Hi. rewrite combine_nth by (rewrite map_length; lia). cbn [fst]. now apply dmean_nth. }
  rewrite (interp_affine _ _ 0 3 y).
  - cbn [bind]. f_equal. rewrite Rplus_0_l, pow10_plus. rewrite Rmult_comm. f_equal.
    replace (3 * log10 d) with (log10 d + log10 d + log10 d) by ring. rewrite !pow10_plus, !pow10_log10 by exact Dp. ring.
  - intros Z. rewrite Z in Lc. cbn in Lc. unfold n in *; lia.
  - rewrite Nf by (unfold n; lia). apply log10_le; [apply exp_pos|apply Hd].
  - right. rewrite Lc, Nf by (unfold n; lia). apply log10_le; [exact Dp|apply Hd].
  - exact St.
  - exact I.
Qed.
End Table2.

(** ** Least squares with a one-parameter shift model *)
Fixpoint wsum (ss : list R) : R := match ss with [] => 0 | s :: r => / s ^ 2 + wsum r end.
Fixpoint wres (g : R -> R) (xs ys ss : list R) : R :=
  match xs, ys, ss with
  | x :: xs, y :: ys, s :: ss => (y - g x) / s ^ 2 + wres g xs ys ss
  | _, _, _ => 0
  end.
Lemma chi2_quad f g xs ys ss a b : length xs = length ys -> length ys = length ss ->
  Forall (fun s => 0 < s) ss -> (forall x, In x xs -> forall a, f x a = a + g x) ->
  chi2 f xs ys ss b = chi2 f xs ys ss a + 2 * (b - a) * (a * wsum ss - wres g xs ys ss) + (b - a) ^ 2 * wsum ss.
Proof.
  revert ys ss. induction xs as [|x xs IH]; intros ys ss L1 L2 P H.
  - destruct ys; [|discriminate]. destruct ss; [|discriminate]. cbn. ring.
  - destruct ys as [|y ys]; [discriminate|]. destruct ss as [|s ss]; [discriminate|].
    inversion P; subst. cbn [chi2 wsum wres]. rewrite (IH ys ss); [|cbn in *; lia|cbn in *; lia|assumption|intros; apply H; now right].
    rewrite !(H x (or_introl eq_refl)). field. lra.
Qed.
Lemma wsum_pos ss : ss <> [] -> Forall (fun s => 0 < s) ss -> 0 < wsum ss.
Proof.
  intros N F. induction F as [|s ss Hs F IH]; [congruence|]. cbn [wsum].
  assert (0 < / s ^ 2) by (apply Rinv_0_lt_compat, pow_lt; exact Hs).
  destruct ss; [cbn [wsum]; lra|]. assert (0 < wsum (r :: ss)) by (apply IH; discriminate). lra.
Qed.
Lemma ls_unique f g xs ys ss m : xs <> [] -> length xs = length ys -> length ys = length ss ->
  Forall (fun s => 0 < s) ss -> (forall x, In x xs -> forall a, f x a = a + g x) ->
  minimises (chi2 f xs ys ss) m -> m * wsum ss = wres g xs ys ss.
Proof.
  intros N L1 L2 P H M.
  assert (W : 0 < wsum ss). { apply wsum_pos; [|exact P]. destruct ss; [|discriminate]. destruct ys, xs; cbn in *; congruence. }
  set (e := m * wsum ss - wres g xs ys ss).
  specialize (M (m - e / wsum ss)).
  rewrite (chi2_quad f g xs ys ss m (m - e / wsum ss)) in M by assumption. fold e in M.
  replace (2 * (m - e / wsum ss - m) * e + (m - e / wsum ss - m) ^ 2 * wsum ss) with (- (e ^ 2 / wsum ss)) in M by (field; lra).
  assert (K : e ^ 2 / wsum ss <= 0).
  { replace (chi2 f xs ys ss m + 2 * (m - e / wsum ss - m) * e + (m - e / wsum ss - m) ^ 2 * wsum ss)
      with (chi2 f xs ys ss m - e ^ 2 / wsum ss) in M by (field; lra). lra. }
  assert (e = 0).
  { destruct (Req_dec e 0) as [Z|Z]; [exact Z|]. exfalso.
    assert (0 < e ^ 2) by (rewrite <- Rsqr_pow2; now apply Rsqr_pos_lt).
    assert (0 < e ^ 2 / wsum ss) by (apply Rdiv_lt_0_compat; assumption). lra. }
  unfold e in H0. lra.
Qed.
Lemma ls_minimum f g xs ys ss : xs <> [] -> length xs = length ys -> length ys = length ss ->
  Forall (fun s => 0 < s) ss -> (forall x, In x xs -> forall a, f x a = a + g x) ->
  minimises (chi2 f xs ys ss) (wres g xs ys ss / wsum ss).
Proof.
  intros N L1 L2 P H b.
  assert (W : 0 < wsum ss). { apply wsum_pos; [|exact P]. destruct ss; [|discriminate]. destruct ys, xs; cbn in *; congruence. }
  rewrite (chi2_quad f g xs ys ss (wres g xs ys ss / wsum ss) b) by assumption.
  replace (wres g xs ys ss / wsum ss * wsum ss - wres g xs ys ss) with 0 by (field; lra).
  rewrite Rmult_0_r, Rplus_0_r. assert (0 <= (b - wres g xs ys ss / wsum ss) ^ 2) by apply pow2_ge_0. nra.
Qed.
Lemma wres_exact g xs ys ss a : length xs = length ys -> length ys = length ss ->
  Forall2 (fun x y => y = a + g x) xs ys -> wres g xs ys ss = a * wsum ss.
Proof.
  intros L1 L2 F. revert ss L2. induction F as [|x y xs ys E F IH]; intros ss L2.
  - destruct ss; [cbn; ring|discriminate].
  - destruct ss as [|s ss]; [discriminate|]. cbn [wres wsum]. rewrite IH by (cbn in *; lia). rewrite E. unfold Rdiv. ring.
Qed.

(** ** mapM *)
Lemma mapM_nth {A B} (f : A -> res B) l r da db i : mapM f l = Ok r -> (i < length l)%nat -> f (nth i l da) = Ok (nth i r db).
Proof.
  revert r i. induction l as [|x l IH]; intros r i E H; [cbn in H; lia|]. cbn [mapM] in E.
  destruct (f x) as [y|e] eqn:F; cbn [bind] in E; [|discriminate].
  destruct (mapM f l) as [ys|e] eqn:M; cbn [bind] in E; [|discriminate]. injection E as <-.
  destruct i as [|i]; cbn [nth]; [exact F|]. apply IH; [reflexivity|cbn in H; lia].
Qed.
