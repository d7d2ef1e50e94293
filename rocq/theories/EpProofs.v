From Coq Require Import String Ascii List ZArith Reals Lra Lia Bool Permutation Sorting.Sorted.
From Verif Require Import Base NumModel NumLemmas BinModel ChronModel ChronSpec ChronProofs ProdModel ProdSpec ProdProofs ProdProofs2 ProdProofs3 AgeSpec.
From Verif Require Import StrModel CliModel FmtModel FmtProofs StrProofs TsModel IoModel SccModel EpModel EpSpec.
Import ListNotations.
Local Open Scope R_scope.

(** ** A single point is met exactly *)
Lemma cumulative_pos pf d a : built pf -> exists y, pf_value pf "cumulative" d a = Ok (Some y) /\ 0 < y.
Proof.
  intros B. destruct B as [c lo hi|h idx t F Hi H2 E].
  - eexists. split; [reflexivity|]. apply pow10_pos.
  - rewrite (make_tabular_ok h idx (conj F Hi)) in E. injection E as <-. unfold pf_value. cbn [String.eqb Ascii.eqb Bool.eqb].
    destruct (tab_C_total h idx H2 (log10 d) a) as (z & -> & P). cbn. eauto.
Qed.
Lemma through_unique pf d n a b : built pf -> 0 < n -> passes_through pf d n a -> passes_through pf d n b -> a = b.
Proof.
  unfold passes_through. intros B Hn Ha Hb. pose proof (value_scale pf _ d a (b - a) n B Ha) as S.
  replace (a + (b - a)) with b in S by ring. rewrite Hb in S. injection S as S.
  assert (P : pow10 (b - a) = pow10 0) by (rewrite pow10_0; apply (Rmult_eq_reg_r n); lra).
  apply pow10_inj in P. lra.
Qed.
Lemma through_level pf d n a y b : built pf -> 0 < n -> pf_value pf "cumulative" d a = Ok (Some y) -> 0 < y ->
  b = a + (log10 n - log10 y) -> passes_through pf d n b.
Proof.
  intros B Hn V Hy ->. unfold passes_through. rewrite (value_scale pf _ d a _ y B V). do 2 f_equal.
  unfold Rminus. rewrite pow10_plus, pow10_log10 by assumption. replace (- log10 y) with (0 - log10 y) by ring.
  assert (Q : pow10 (0 - log10 y) * y = 1).
  { rewrite <- (pow10_log10 y Hy) at 2. rewrite <- pow10_plus. replace (0 - log10 y + log10 y) with 0 by ring. apply pow10_0. }
  nra.
Qed.
Lemma point_fit cfit pf d n : solves_least_squares cfit -> built pf -> 0 < d -> 0 < n ->
  exists a u v, fit cfit pf "cumulative" [d] [n] [0] = Ok [a; u; v] /\ passes_through pf d n a.
Proof.
  intros LS B Hd Hn.
  destruct (cumulative_pos pf d 0 B) as (y & V & Hy).
  pose proof (fit_fn_shift pf "cumulative" d y 0 B ltac:(cbn; tauto) Hd Hy V) as SH.
  rewrite fit_unfold by (try reflexivity; cbn; tauto). cbv zeta.
  set (best := cfit _ _ _ _). exists (best - 0). eexists. eexists. split; [reflexivity|].
  assert (M : minimises (chi2 (fit_function pf "cumulative") [log10 d; log10 d] [log10 n; log10 n] [1 / sqrt n; 1 / sqrt n]) best).
  { apply (LS (fit_function pf "cumulative") [log10 d; log10 d] [log10 n; log10 n] [1 / sqrt n; 1 / sqrt n]).
    - discriminate.
    - reflexivity.
    - reflexivity.
    - assert (0 < 1 / sqrt n) by (apply Rdiv_lt_0_compat; [lra|now apply sqrt_lt_R0]). repeat constructor; assumption.
    - intros x a [<-|[<-|[]]]; rewrite !SH; ring. }
  specialize (M (log10 n - log10 y)). cbn [chi2] in M. rewrite !SH in M.
  assert (W : 0 < 1 / sqrt n) by (apply Rdiv_lt_0_compat; [lra|now apply sqrt_lt_R0]).
  replace (log10 n - log10 y + (log10 y - 0) - log10 n) with 0 in M by ring.
  set (r := best + (log10 y - 0) - log10 n) in M.
  assert (Z : r / (1 / sqrt n) = 0).
  { assert (Q0 : 0 / (1 / sqrt n) = 0) by (unfold Rdiv; ring). rewrite Q0 in M. clear - M. set (q := r / (1 / sqrt n)) in *. nra. }
  assert (R0 : r = 0). { apply (Rmult_eq_reg_r (/ (1 / sqrt n))); [|apply Rinv_neq_0_compat; lra]. unfold Rdiv in Z at 1. rewrite Z. ring. }
  apply (through_level pf d n 0 y); auto. unfold r in R0. lra.
Qed.

(** ** Lists of limits *)
Lemma insert_nth_0 x y l : nth 0 (insert Rleb x (y :: l)) 0 = Rmin x y.
Proof. cbn [insert]. destruct (Rleb_spec x y); cbn [nth]; [rewrite Rmin_left|rewrite Rmin_right]; lra. Qed.
Lemma insert_nth_S x l : StronglySorted Rle l -> forall i, (i < length l)%nat ->
  nth (S i) (insert Rleb x l) 0 = Rmax (nth i l 0) (if Nat.ltb (S i) (length l) then Rmin x (nth (S i) l 0) else x).
Proof.
  induction 1 as [|y l SS IH F]; intros i Hi; [cbn in Hi; lia|].
  cbn [insert]. destruct (Rleb_spec x y) as [H|H].
  - cbn [nth]. assert (x <= nth i (y :: l) 0).
    { destruct i as [|i]; cbn [nth]; [exact H|]. rewrite Forall_forall in F. cbn [length] in Hi.
      assert (Q : In (nth i l 0) l) by (apply nth_In; lia). specialize (F _ Q). lra. }
    cbn [nth] in *. rewrite Rmax_left; [reflexivity|].
    destruct (Nat.ltb _ _); [eapply Rle_trans; [apply Rmin_l|]|]; assumption.
  - destruct i as [|i].
    + cbn [nth length]. destruct l as [|z l].
      * cbn. rewrite Rmax_right; lra.
      * rewrite insert_nth_0. change (Nat.ltb 1 (S (length (z :: l)))) with true. cbn [nth].
        inversion F; subst. rewrite Rmax_right; [reflexivity|]. apply Rmin_glb; lra.
    + cbn [length] in Hi. cbn [nth]. rewrite IH by lia. reflexivity.
Qed.
Lemma insert_length x l : length (insert Rleb x l) = S (length l).
Proof. induction l as [|y l IH]; [reflexivity|]. cbn [insert]. destruct (Rleb x y); cbn; auto. Qed.
Lemma insert_perm_r x l : Permutation (x :: l) (insert Rleb x l).
Proof.
  induction l as [|y l IH]; [reflexivity|]. cbn [insert]. destruct (Rleb x y); [reflexivity|].
  rewrite perm_swap. now constructor.
Qed.
Lemma insert_rle x l : StronglySorted Rle l -> StronglySorted Rle (insert Rleb x l).
Proof.
  induction 1 as [|y l SS IH F]; [repeat constructor|]. cbn [insert]. destruct (Rleb_spec x y) as [H|H].
  - constructor; [constructor; assumption|]. apply Forall_cons; [exact H|]. eapply Forall_impl; [|exact F]. cbv beta. intros; lra.
  - constructor; [exact IH|]. apply Forall_forall. intros z Hz. apply (Permutation_in z (Permutation_sym (insert_perm_r x l))) in Hz.
    destruct Hz as [<-|Hz]; [lra|]. rewrite Forall_forall in F. now apply F.
Qed.
Lemma sort_two l a b : StronglySorted Rle l -> sort Rleb (l ++ [a; b]) = insert Rleb a (insert Rleb b l).
Proof.
  intros S. assert (Q : StronglySorted (fun x y => Rleb x y = true) (insert Rleb a (insert Rleb b l))).
  { pose proof (insert_rle a _ (insert_rle b _ S)) as K. clear - K. induction K; constructor; auto.
    eapply Forall_impl; [|exact H]. intros; now apply Rleb_true. }
  apply (sorted_unique Rleb).
  - intros x y. destruct (Rleb_spec x y), (Rleb_spec y x); try discriminate; lra.
  - rewrite <- sort_perm. rewrite <- insert_perm_r, <- insert_perm_r. rewrite Permutation_app_comm. reflexivity.
  - apply sort_sorted.
    + intros x y. destruct (Rleb_spec x y); [discriminate|]. intros _. apply Rleb_true. lra.
    + intros x y z. destruct (Rleb_spec x y), (Rleb_spec y z); try discriminate. intros _ _. apply Rleb_true. lra.
  - exact Q.
Qed.

(** the limits of the names in the part of the axis that is shown *)
Lemma sorted_nth l : StronglySorted Rlt l -> forall i, (S i < length l)%nat -> nth i l 0 < nth (S i) l 0.
Proof.
  induction 1 as [|x l SS IH F]; intros i Hi; [cbn in Hi; lia|]. cbn [length] in Hi. destruct i as [|i].
  - destruct l as [|y l]; [cbn in Hi; lia|]. cbn [nth]. now inversion F.
  - cbn [nth]. apply IH. lia.
Qed.
Lemma sorted_le l : StronglySorted Rlt l -> StronglySorted Rle l.
Proof. induction 1 as [|x l SS IH F]; constructor; auto. eapply Forall_impl; [|exact F]. cbv beta. intros; lra. Qed.
Lemma sort_shown ts t_min t_max i :
  let time := 0 :: ts in
  StronglySorted Rlt time -> 0 <= t_min < t_max -> (i < length time)%nat ->
  let s := visible_from time t_min i in let e := visible_to time t_max i in
  let t0 := tl (sort Rleb (time ++ [t_min; t_max])) in
  length t0 = S (length time) /\
  (s < e -> nth i t0 0 = s /\ nth (S i) t0 0 = e) /\
  (~ s < e -> (nth i t0 0 <= t_min /\ nth (S i) t0 0 <= t_min) \/ (t_max <= nth i t0 0 /\ t_max <= nth (S i) t0 0)).
Proof.
  intros time SS Ht Hi s e t0.
  pose proof (sorted_le _ SS) as SL.
  set (l := insert Rleb t_max time) in *.
  assert (Ll : length l = S (length time)) by apply insert_length.
  assert (Sl : StronglySorted Rle l) by now apply insert_rle.
  assert (T0 : t0 = tl (insert Rleb t_min l)) by (unfold t0; now rewrite sort_two).
  assert (N : forall k, nth k t0 0 = nth (S k) (insert Rleb t_min l) 0).
  { intros k. rewrite T0. destruct (insert Rleb t_min l) as [|x r]; [|reflexivity]. destruct k; reflexivity. }
  assert (L0 : length t0 = S (length time)).
  { rewrite T0. pose proof (insert_length t_min l) as Q. destruct (insert Rleb t_min l); cbn [length tl] in *; lia. }
  split; [exact L0|].
  (* the entries of l *)
  assert (A : nth i l 0 <= nth i time 0 /\ Rmin t_max (nth i time 0) <= nth i l 0 /\
              (nth i time 0 <= t_max -> nth i l 0 = nth i time 0)).
  { destruct i as [|i].
    - unfold l, time. rewrite insert_nth_0. cbn [nth]. split; [apply Rmin_r|]. split; [apply Rle_refl|]. intros H. now apply Rmin_right.
    - unfold l. rewrite insert_nth_S by (assumption || lia). replace (Nat.ltb (S i) (length time)) with true by (symmetry; apply Nat.ltb_lt; lia).
      pose proof (sorted_nth _ SS i ltac:(lia)). split; [apply Rmax_lub; [lra|apply Rmin_r]|]. split; [apply Rmax_r|].
      intros H'. rewrite (Rmin_right t_max) by assumption. apply Rmax_right. lra. }
  assert (B : nth (S i) l 0 = Rmax (nth i time 0) e).
  { unfold l. rewrite insert_nth_S by (assumption || lia). reflexivity. }
  assert (C : nth i t0 0 = Rmax (nth i l 0) (Rmin t_min (nth (S i) l 0))).
  { rewrite N, insert_nth_S by (assumption || lia). replace (Nat.ltb (S i) (length l)) with true by (symmetry; apply Nat.ltb_lt; lia). reflexivity. }
  assert (D : nth (S i) l 0 <= nth (S i) t0 0 /\ (t_min <= nth (S i) l 0 -> nth (S i) t0 0 = nth (S i) l 0) /\
              (nth (S i) l 0 <= t_min -> nth (S i) t0 0 <= t_min)).
  { rewrite N, insert_nth_S by (assumption || lia). set (z := if Nat.ltb _ _ then _ else _).
    assert (z <= t_min) by (unfold z; destruct (Nat.ltb _ _); [apply Rmin_l|apply Rle_refl]).
    split; [apply Rmax_l|]. split; [intros; apply Rmax_left; lra|]. intros. apply Rmax_lub; lra. }
  destruct A as (A1 & A2 & A3). destruct D as (D1 & D2 & D3).
  assert (E1 : e <= t_max). { unfold e, visible_to. destruct (Nat.ltb _ _); [apply Rmin_l|apply Rle_refl]. }
  split.
  - intros H. unfold s, visible_from in *. pose proof (Rmax_l t_min (nth i time 0)). pose proof (Rmax_r t_min (nth i time 0)).
    rewrite A3 in C by lra. rewrite Rmax_right in B by lra. rewrite B in *. rewrite D2 by lra. split; [|reflexivity].
    rewrite C, Rmin_left by lra. apply Rmax_comm.
  - intros H. destruct (Rle_lt_dec t_max (nth i time 0)) as [J|J].
    + right. rewrite Rmin_left in A2 by lra. pose proof (Rmax_l (nth i l 0) (Rmin t_min (nth (S i) l 0))). rewrite C.
      pose proof (Rmax_l (nth i time 0) e). lra.
    + left. assert (K : (S i < length time)%nat /\ nth (S i) time 0 <= t_min).
      { unfold s, e, visible_from, visible_to in H. destruct (Nat.ltb_spec (S i) (length time)) as [Q|Q].
        - split; [assumption|]. apply Rnot_lt_le in H. pose proof (sorted_nth _ SS i Q). revert H. unfold Rmin, Rmax.
          destruct (Rle_dec t_max (nth (S i) time 0)), (Rle_dec t_min (nth i time 0)); lra.
        - exfalso. apply H. unfold Rmax. destruct (Rle_dec _ _); lra. }
      destruct K as (Q & K). pose proof (sorted_nth _ SS i Q).
      assert (e <= t_min). { unfold e, visible_to. apply Nat.ltb_lt in Q. rewrite Q. pose proof (Rmin_r t_max (nth (S i) time 0)). lra. }
      assert (nth (S i) l 0 <= t_min) by (rewrite B; apply Rmax_lub; lra).
      split; [|auto]. rewrite C. apply Rmax_lub; [lra|apply Rmin_l].
Qed.

Lemma names_between_ok {X} (label : str -> res X) middle (x0 : X) : forall epoch t0,
  (length epoch < length t0)%nat -> Forall (fun e => exists x, label e = Ok x) epoch ->
  exists r, names_between label middle t0 epoch = Ok r /\ length r = length epoch /\
    forall i, (i < length epoch)%nat ->
      fst (nth i r (0, x0)) = middle (nth i t0 0) (nth (S i) t0 0) /\ label (nth i epoch []) = Ok (snd (nth i r (0, x0))).
Proof.
  induction epoch as [|e r IH]; intros t0 Hl F.
  - exists []. split; [reflexivity|]. split; [reflexivity|]. cbn. intros; lia.
  - inversion F as [|? ? (x & Hx) F' Q1]; subst. destruct t0 as [|a [|b t]]; cbn [length] in Hl; try lia.
    destruct (IH (b :: t) ltac:(cbn [length]; lia) F') as (rr & E & L & N).
    exists ((middle a b, x) :: rr). cbn [names_between]. rewrite Hx. cbn [bind]. rewrite E. cbn [bind].
    split; [reflexivity|]. split; [cbn; now rewrite L|]. intros [|i] Hi.
    + cbn. split; [reflexivity|exact Hx].
    + cbn [length] in Hi. apply (N i). lia.
Qed.
Lemma names_between_short {X} (label : str -> res X) middle : forall epoch t0,
  (length t0 <= length epoch)%nat -> epoch <> [] -> Forall (fun e => exists x, label e = Ok x) epoch ->
  names_between label middle t0 epoch = Err IndexError.
Proof.
  induction epoch as [|e r IH]; intros t0 Hl HN F; [congruence|].
  inversion F as [|? ? (x & Hx) F' Q1]; subst. cbn [names_between]. rewrite Hx. cbn [bind].
  destruct t0 as [|a [|b t]]; [reflexivity|reflexivity|]. cbn [length] in Hl.
  rewrite (IH (b :: t)); [reflexivity|cbn [length]; lia| |exact F']. intros ->. cbn in Hl. lia.
Qed.

(** ** Letters *)
Lemma mem_sep c : mem c (L " -") = true <-> separator c.
Proof. rewrite mem_In. unfold separator. cbn. intuition congruence. Qed.
Lemma not_sep c : ~ separator c -> mem c (L " -") = false.
Proof. intros H. destruct (mem c (L " -")) eqn:E; [|reflexivity]. apply mem_sep in E. contradiction. Qed.
Lemma split_word p w : forall acc, Forall (fun c => p c = false) w -> split_where p acc w = [rev acc ++ w].
Proof.
  induction w as [|c w IH]; intros acc F; cbn [split_where]; [now rewrite app_nil_r|].
  inversion F as [|? ? Q F']; subst. rewrite Q, IH by assumption. cbn [rev]. now rewrite <- app_assoc.
Qed.
Lemma split_word_more p w c s : forall acc, Forall (fun c => p c = false) w -> p c = true ->
  split_where p acc (w ++ c :: s) = (rev acc ++ w) :: split_where p [] s.
Proof.
  induction w as [|x w IH]; intros acc F Hc; cbn [split_where app]; [rewrite Hc; now rewrite app_nil_r|].
  inversion F as [|? ? Q F']; subst. rewrite Q, IH by assumption. cbn [rev]. now rewrite <- app_assoc.
Qed.
Lemma split_words s ws : words_of s ws -> split_where (fun c => mem c (L " -")) [] s = ws.
Proof.
  assert (W : forall w, word w -> Forall (fun c => mem c (L " -") = false) w).
  { intros w (_ & F). eapply Forall_impl; [|exact F]. cbv beta. intros c. apply not_sep. }
  induction 1 as [w Hw|w c s ws Hw Hc Hs IH].
  - rewrite split_word by now apply W. reflexivity.
  - rewrite split_word_more; [|now apply W|now apply mem_sep]. rewrite IH. reflexivity.
Qed.
Lemma words_nonempty s ws : words_of s ws -> ws <> [] /\ Forall word ws.
Proof. induction 1 as [w Hw|w c s ws Hw Hc Hs [_ IH]]; (split; [discriminate|]); constructor; auto. Qed.
Lemma letters_ok s ws : words_of s ws -> letters s = Ok (abbreviation ws).
Proof.
  intros H. unfold letters. rewrite (split_words _ _ H). destruct (words_nonempty _ _ H) as (N & F).
  assert (M : mapM first_char ws = Ok (map initial ws)).
  { clear H N. induction F as [|w ws (Hw & _) F IH]; [reflexivity|]. cbn [mapM map]. destruct w as [|c w]; [congruence|].
    cbn [first_char bind initial hd]. rewrite IH. reflexivity. }
  rewrite M. cbn [bind]. destruct ws as [|a [|b [|c r]]]; [congruence|reflexivity|reflexivity|reflexivity].
Qed.

(** ** Formatting *)
Lemma digit_char n : (n < 10)%nat -> is_digit (ascii_of_nat (48 + n)) = true /\ nat_text [ascii_of_nat (48 + n)] = Z.of_nat n /\
  ascii_of_nat (48 + n) <> ch "r" /\ ascii_of_nat (48 + n) <> ch "b".
Proof. intros H. do 10 (destruct n as [|n]; [repeat split; discriminate|]). lia. Qed.

(** ** Regions and lines *)
Lemma regions_ok : forall time colour, (length time <= S (length colour))%nat ->
  exists r, regions colour time = Ok r /\ length r = (length time - 1)%nat /\
    forall i, (S i < length time)%nat -> nth i r (0, 0, 0%Z) = (nth i time 0, nth (S i) time 0, (3 - nth i colour 0)%Z).
Proof.
  induction time as [|t0 [|t1 r] IH]; intros colour H.
  - exists []. split; [reflexivity|]. split; [reflexivity|]. cbn; intros; lia.
  - exists []. split; [reflexivity|]. split; [reflexivity|]. cbn; intros; lia.
  - destruct colour as [|c cs]; [cbn in H; lia|]. destruct (IH cs) as (q & E & Lq & N); [cbn [length] in *; lia|].
    exists ((t0, t1, (3 - c)%Z) :: q). change (regions (c :: cs) (t0 :: t1 :: r)) with (do! rest <- regions cs (t1 :: r); Ok ((t0, t1, (3 - c)%Z) :: rest)).
    rewrite E. cbn [bind]. split; [reflexivity|]. split; [cbn [length] in *; lia|]. intros [|i] Hi; [reflexivity|].
    cbn [length] in Hi. apply (N i). cbn [length]. lia.
Qed.
Lemma lines_ok : forall time boundary, (length time <= length boundary)%nat -> lines boundary time = Ok (combine time boundary).
Proof.
  induction time as [|t r IH]; intros [|b bs] H; try reflexivity; [cbn in H; lia|].
  cbn [lines combine]. rewrite IH by (cbn in H; lia). reflexivity.
Qed.

(** ** Lists of isochrons *)
Lemma mem_flag c : mem c (L "ash") = true <-> flag c.
Proof. rewrite mem_In. unfold flag. cbn. intuition congruence. Qed.
Lemma lstrip_all p w s : Forall (fun c => p c = true) w -> lstrip p (w ++ s) = lstrip p s.
Proof. induction 1 as [|c w Hc F IH]; [reflexivity|]. cbn [app lstrip]. now rewrite Hc. Qed.
Lemma rstrip_flags t w : (t = [] \/ ~ flag (last t (ch " "))) -> Forall flag w -> rstrip (fun c => mem c (L "ash")) (t ++ w) = t.
Proof.
  intros Ht F. unfold rstrip. rewrite rev_app_distr, lstrip_all.
  - destruct Ht as [->|Ht]; [reflexivity|]. destruct t as [|x t] using rev_ind; [reflexivity|]. clear IHt.
    rewrite last_last in Ht. rewrite rev_app_distr. cbn [rev app lstrip].
    destruct (mem x (L "ash")) eqn:E; [apply mem_flag in E; contradiction|]. cbn [rev]. now rewrite rev_involutive.
  - apply Forall_rev. eapply Forall_impl; [|exact F]. cbv beta. intros c. apply mem_flag.
Qed.
Lemma last_In {A} (l : list A) d : l <> [] -> In (last l d) l.
Proof. intros H. destruct l as [|x l] using rev_ind; [congruence|]. rewrite last_last. apply in_or_app. right. now left. Qed.
Lemma mem_clean c t w b : Forall (fun c => ~ flag c) t -> flag c -> (b = true <-> In c w) -> mem c (t ++ w) = b.
Proof.
  intros F Hc Hb. apply eq_true_iff_eq. rewrite mem_In, Hb, in_app_iff. split; [|tauto]. intros [H|H]; [|exact H].
  rewrite Forall_forall in F. destruct (F c H Hc).
Qed.
Lemma shown_entries es out : shown es out -> Forall (fun e => Forall flag (snd e)) es ->
  flat_map (fun e => match py_float (rstrip (fun c => mem c (L "ash")) e) with
                     | Ok v => [(Rabs v, mem (ch "h") e, mem (ch "a") e, mem (ch "s") e)]
                     | Err _ => []
                     end) (map iso_text es) = out.
Proof.
  induction 1 as [|t w v h a s es out Hv Ht Hc Hh Ha Hs Hes IH|t w x es out Hv Ht Hes IH]; intros F; [reflexivity| |];
  inversion F as [|? ? Fw F']; subst; cbn [map flat_map]; rewrite IH by assumption; cbn [iso_text fst snd] in *; unfold iso_text; cbn [fst snd].
  - rewrite rstrip_flags; [|right|exact Fw].
    + rewrite Hv. rewrite (mem_clean _ t w h), (mem_clean _ t w a), (mem_clean _ t w s); try assumption; try reflexivity; unfold flag; auto.
    + rewrite Forall_forall in Hc. apply Hc. now apply last_In.
  - rewrite rstrip_flags by assumption. now rewrite Hv.
Qed.
