(** C105 and C106: the settings of plot sets and plots. *)
From Coq Require Import String Ascii List ZArith Reals Bool Lia Lra.
From Verif Require Import Base StrModel StrProofs TsModel IoModel SccModel CliModel CliSpec CliProofs2 NumModel SetModel SettModel SettSpec.
Import ListNotations.
Local Open Scope R_scope.

(** ** Conversions *)
Lemma to_float_iff v x : to_float v = Ok x <-> as_number v x.
Proof.
  destruct v; cbn; split; intros H; try discriminate; try (injection H as <-; constructor); try (inversion H; subst; reflexivity).
  - now constructor.
  - now inversion H.
Qed.
Lemma floor_bounds x : IZR (Rfloor x) <= x < IZR (Rfloor x) + 1.
Proof. unfold Rfloor. destruct (archimed x). rewrite minus_IZR. lra. Qed.
Lemma floor_unique x z : IZR z <= x < IZR z + 1 -> Rfloor x = z.
Proof.
  intros H. pose proof (floor_bounds x). assert (IZR z < IZR (Rfloor x) + 1) by lra. assert (IZR (Rfloor x) < IZR z + 1) by lra.
  rewrite <- plus_IZR in *. apply lt_IZR in H1, H2. lia.
Qed.
Lemma to_int_iff v z : to_int v = Ok z <-> as_whole v z.
Proof.
  destruct v; split; intros H; try discriminate.
  - now inversion H.
  - cbn in H. injection H as <-. constructor.
  - inversion H; reflexivity.
  - cbn in H. injection H as <-. constructor.
  - inversion H; reflexivity.
  - cbn [to_int] in H. assert (E : (if Rltb x 0 then (- Rfloor (- x))%Z else Rfloor x) = z) by congruence. destruct (Rltb_spec x 0) as [N|N].
    + apply aw_down; [exact N|]. pose proof (floor_bounds (- x)). subst z. rewrite opp_IZR. lra.
    + apply aw_up; [lra|]. pose proof (floor_bounds x). subst z. lra.
  - cbn [to_int]. f_equal. inversion H as [|y w X Y|y w X Y| |]; subst.
    + rewrite Rltb_false by lra. now apply floor_unique.
    + rewrite Rltb_true by lra. rewrite <- (Z.opp_involutive z). f_equal. apply floor_unique. rewrite opp_IZR. lra.
  - now constructor.
  - now inversion H.
  - now inversion H.
  - now inversion H.
Qed.
Lemma items_iff v l : items v = Ok l <-> parts v l.
Proof. destruct v; cbn; split; intros H; try discriminate; try (injection H as <-; constructor); inversion H; reflexivity. Qed.
Lemma floats_iff l ns : mapM to_float l = Ok ns <-> Forall2 as_number l ns.
Proof.
  revert ns. induction l as [|v l IH]; intros ns; cbn.
  - split; intros H; [injection H as <-; constructor|inversion H; reflexivity].
  - split.
    + destruct (to_float v) as [x|] eqn:E; cbn; [|discriminate]. destruct (mapM to_float l) as [xs|]; cbn; [|discriminate]. intros H. injection H as <-. constructor; [now apply to_float_iff|now apply IH].
    + intros H. inversion H as [|? x ? xs A B]; subst. apply to_float_iff in A. apply IH in B. now rewrite A, B.
Qed.
Lemma numbers_iff v w : (do! l <- items v; do! ns <- mapM to_float l; Ok (VList (map VNum ns))) = Ok w <-> as_numbers v w.
Proof.
  split.
  - destruct (items v) as [l|] eqn:E; cbn; [|discriminate]. destruct (mapM to_float l) as [ns|] eqn:F; cbn; [|discriminate]. intros H. injection H as <-. exists l, ns. split; [now apply items_iff|]. split; [now apply floats_iff|reflexivity].
  - intros (l & ns & A & B & ->). apply items_iff in A. apply floats_iff in B. rewrite A. cbn. now rewrite B.
Qed.
Lemma existsb_iff k l : existsb (seqb k) l = true <-> In k l.
Proof. rewrite existsb_exists. split; [intros (x & I & E); destruct (seqb_spec k x); congruence|]. intros I. exists k. split; [exact I|]. now destruct (seqb_spec k k). Qed.
Lemma existsb_no k l : ~ In k l -> existsb (seqb k) l = false.
Proof. intros N. destruct (existsb (seqb k) l) eqn:E; [|reflexivity]. apply existsb_iff in E. contradiction. Qed.

Lemma convert_set_iff k v w : convert_set k v = Ok w <-> kept_by_set k v w.
Proof.
  unfold convert_set, kept_by_set. cbv zeta.
  set (A := map L ["xrange"; "yrange"]%string). set (B := map L ["pt_size"; "ref_diameter"]%string). set (C := map L ["randomness"; "mu"; "invert"; "text_halo"; "sig_figs"]%string).
  assert (ND : forall x, (In x A -> ~ In x B /\ ~ In x C) /\ (In x B -> ~ In x C)).
  { intros x. unfold A, B, C. cbn [map In]. split; [intros [<-|[<-|[]]]|intros [<-|[<-|[]]]]; repeat split; intros H; repeat (destruct H as [H|H]; [discriminate H|]); exact H. }
  destruct (in_dec (list_eq_dec ascii_dec) k A) as [IA|NA].
  { rewrite (proj2 (existsb_iff k A) IA), numbers_iff. split; [tauto|]. destruct (ND k) as (D & _). destruct (D IA) as [D1 D2]. intros [H|[H|[H|(H & _)]]]; try tauto. exfalso. apply H, in_or_app. now left. }
  rewrite (existsb_no k A NA). destruct (in_dec (list_eq_dec ascii_dec) k B) as [IB|NB].
  { rewrite (proj2 (existsb_iff k B) IB). destruct (ND k) as (_ & D). specialize (D IB). split.
    - destruct (to_float v) as [x|] eqn:E; cbn; [|discriminate]. intros H. injection H as <-. right. left. split; [exact IB|]. exists x. split; [now apply to_float_iff|reflexivity].
    - intros [H|[(_ & x & X & ->)|[H|(H & _)]]]; try tauto; [apply to_float_iff in X; now rewrite X|]. exfalso. apply H, in_or_app. right. apply in_or_app. now left. }
  rewrite (existsb_no k B NB). destruct (in_dec (list_eq_dec ascii_dec) k C) as [IC|NC].
  { rewrite (proj2 (existsb_iff k C) IC). split.
    - destruct (to_int v) as [x|] eqn:E; cbn; [|discriminate]. intros H. injection H as <-. right. right. left. split; [exact IC|]. exists x. split; [now apply to_int_iff|reflexivity].
    - intros [H|[H|[(_ & x & X & ->)|(H & _)]]]; try tauto; [apply to_int_iff in X; now rewrite X|]. exfalso. apply H, in_or_app. right. apply in_or_app. now right. }
  rewrite (existsb_no k C NC). split.
  - intros H. right. right. right. split; [rewrite !in_app_iff; tauto|congruence].
  - intros [H|[H|[H|(_ & ->)]]]; tauto || reflexivity.
Qed.

(** ** The loop *)
Lemma merge_given ds k : last_given (merge ds) k = last_given (concat ds) k.
Proof.
  unfold merge. generalize (concat ds). intros l.
  assert (G : forall (l d : list (str * value)), NoDup (map fst d) -> NoDup (map fst (fold_left (fun d kv => dict_set d (fst kv) (snd kv)) l d)) /\
            last_given (fold_left (fun d kv => dict_set d (fst kv) (snd kv)) l d) k = last_given (d ++ l) k).
  { clear l. induction l as [|[j v] l IH]; intros d N; cbn [fold_left fst snd]; [rewrite app_nil_r; tauto|]. destruct (IH (dict_set d j v) (dict_set_keys d j v N)) as (A & B). split; [exact A|]. rewrite B, !last_given_app, last_given_set by exact N. cbn [last_given].
    destruct (last_given l k); [reflexivity|]. cbn. destruct (list_eq_dec ascii_dec j k); reflexivity. }
  destruct (G l [] (NoDup_nil _)) as (_ & E). exact E.
Qed.
Lemma merge_nodup ds : NoDup (map fst (merge ds)).
Proof.
  unfold merge. generalize (concat ds). intros l. assert (G : forall (l d : list (str * value)), NoDup (map fst d) -> NoDup (map fst (fold_left (fun d kv => dict_set d (fst kv) (snd kv)) l d))).
  { clear l. induction l as [|[j v] l IH]; intros d N; cbn [fold_left fst snd]; [exact N|]. apply IH. now apply dict_set_keys. }
  apply G. constructor.
Qed.
Lemma given_in (d : list (str * value)) k v : last_given d k = Some v -> In (k, v) d.
Proof.
  induction d as [|[j w] d IH]; cbn; [discriminate|]. destruct (last_given d k) as [x|]; [intros H; injection H as ->; right; now apply IH|]. destruct (list_eq_dec ascii_dec j k) as [->|]; [|discriminate]. intros H. injection H as ->. now left.
Qed.
Lemma in_given (d : list (str * value)) k v : NoDup (map fst d) -> In (k, v) d -> last_given d k = Some v.
Proof.
  induction d as [|[j w] d IH]; cbn; intros N I; [contradiction|]. inversion N as [|? ? NI N']; subst. destruct I as [I|I].
  - injection I as -> ->. rewrite last_given_absent by exact NI. now destruct (list_eq_dec ascii_dec k k).
  - now rewrite (IH N' I).
Qed.
Lemma set_all_ok conv d : forall a, NoDup (map fst d) -> (forall k v, In (k, v) d -> exists w, conv k v = Ok w) ->
  exists a', set_all conv a d = (a', None) /\ forall k, match last_given d k with Some v => exists w, conv k v = Ok w /\ a' k = Some w | None => a' k = a k end.
Proof.
  induction d as [|[j v] d IH]; intros a N H; cbn [set_all last_given].
  - exists a. split; reflexivity.
  - inversion N as [|? ? NI N']; subst. destruct (H j v (or_introl eq_refl)) as (w & W). rewrite W. destruct (IH (set_attribute a j w) N' (fun k v I => H k v (or_intror I))) as (a' & E & P). exists a'. split; [exact E|]. intros k. specialize (P k).
    destruct (last_given d k) as [u|]; [exact P|]. rewrite P. unfold set_attribute. destruct (list_eq_dec ascii_dec j k) as [->|NE].
    + exists w. split; [exact W|]. now destruct (seqb_spec k k).
    + destruct (seqb_spec k j); [congruence|reflexivity].
Qed.
Lemma set_all_err conv d : forall a a' e, NoDup (map fst d) -> set_all conv a d = (a', Some e) ->
  (exists k v, In (k, v) d /\ conv k v = Err e /\ a' k = a k) /\ forall k, a' k = a k \/ exists v w, In (k, v) d /\ conv k v = Ok w /\ a' k = Some w.
Proof.
  induction d as [|[j v] d IH]; intros a a' e N H; cbn [set_all] in H; [discriminate|]. inversion N as [|? ? NI N']; subst. destruct (conv j v) as [w|x] eqn:W.
  - destruct (IH _ _ _ N' H) as ((k & u & I & C & A) & P). split.
    + exists k, u. split; [now right|]. split; [exact C|]. rewrite A. unfold set_attribute. destruct (seqb_spec k j) as [->|]; [|reflexivity]. exfalso. apply NI. apply (in_map fst) in I. exact I.
    + intros i. destruct (P i) as [Q|(y & z & I' & C' & A')]; [|right; exists y, z; split; [now right|now split]]. rewrite Q. unfold set_attribute. destruct (seqb_spec i j) as [->|]; [|now left]. right. exists v, w. split; [now left|now split].
  - injection H as <- <-. split; [exists j, v; split; [now left|now split]|now left].
Qed.
Lemma set_all_none conv d : forall a a', set_all conv a d = (a', None) -> forall k v, In (k, v) d -> exists w, conv k v = Ok w.
Proof.
  induction d as [|[j v] d IH]; intros a a' H k u I; [contradiction|]. cbn [set_all] in H. destruct (conv j v) as [w|] eqn:W; [|discriminate]. destruct I as [I|I]; [injection I as <- <-; now exists w|]. now apply (IH _ _ H).
Qed.

(** ** C105 *)
Lemma update_holds a ds a' : update_set a ds = (a', None) -> hold kept_by_set a (concat ds) a'.
Proof.
  intros U k. unfold update_set in U. destruct (set_all_ok convert_set (merge ds) a (merge_nodup ds) (set_all_none _ _ _ _ U)) as (a1 & E & P). rewrite U in E. injection E as <-. specialize (P k). rewrite merge_given in P.
  destruct (last_given (concat ds) k); [|exact P]. destruct P as (w & W & A). exists w. split; [now apply convert_set_iff|exact A].
Qed.
Theorem C105_history : forall a calls a', updates a calls a' -> hold kept_by_set a (concat (map (@concat _) calls)) a'.
Proof.
  intros a calls a' U. induction U as [a|a c a1 cs a2 E U IH]; intros k; cbn [map concat]; [reflexivity|]. rewrite last_given_app. specialize (IH k). pose proof (update_holds _ _ _ E k) as H.
  destruct (last_given (concat (map (@concat _) cs)) k); [exact IH|]. rewrite IH. exact H.
Qed.
Print Assumptions C105_history.
Theorem C105_accepted : forall a ds, (exists a', update_set a ds = (a', None)) <-> (forall k v, last_given (concat ds) k = Some v -> exists w, kept_by_set k v w).
Proof.
  intros a ds. split.
  - intros (a' & U) k v G. pose proof (update_holds _ _ _ U k) as H. rewrite G in H. destruct H as (w & H & _). now exists w.
  - intros H. destruct (set_all_ok convert_set (merge ds) a (merge_nodup ds)) as (a' & E & _); [|now exists a'].
    intros k v I. destruct (H k v) as (w & W); [rewrite <- merge_given; apply in_given; [apply merge_nodup|exact I]|]. exists w. now apply convert_set_iff.
Qed.
Print Assumptions C105_accepted.
Theorem C105_refused : forall a ds a' e, update_set a ds = (a', Some e) ->
  (exists k v, last_given (concat ds) k = Some v /\ (forall w, ~ kept_by_set k v w) /\ a' k = a k) /\
  (forall k, a' k = a k \/ exists v w, last_given (concat ds) k = Some v /\ kept_by_set k v w /\ a' k = Some w).
Proof.
  intros a ds a' e U. destruct (set_all_err _ _ _ _ _ (merge_nodup ds) U) as ((k & v & I & C & A) & P). split.
  - exists k, v. split; [rewrite <- merge_given; apply in_given; [apply merge_nodup|exact I]|]. split; [|exact A]. intros w W. apply convert_set_iff in W. congruence.
  - intros i. destruct (P i) as [Q|(y & z & I' & C' & A')]; [now left|]. right. exists y, z. split; [rewrite <- merge_given; apply in_given; [apply merge_nodup|exact I']|]. split; [now apply convert_set_iff|exact A'].
Qed.
Print Assumptions C105_refused.
(** A refused call may have changed settings *)
Theorem C105_refused_changes_refuted : forall a, exists ds a' e, update_set a ds = (a', Some e) /\ a' (L "title") = Some (VStr (L "Mare")) /\ (a (L "title") <> Some (VStr (L "Mare")) -> a' (L "title") <> a (L "title")).
Proof.
  intros a. exists [[(L "title", VStr (L "Mare")); (L "sig_figs", VStr (L "three")); (L "font", VStr (L "Tahoma"))]]. eexists. eexists. split; [reflexivity|]. split; [reflexivity|]. intros N E. apply N. rewrite <- E. reflexivity.
Qed.
Print Assumptions C105_refused_changes_refuted.

Lemma kept_number k v w : k = L "pt_size" \/ k = L "ref_diameter" -> kept_by_set k v w -> exists x, w = VNum x.
Proof.
  intros K H. apply convert_set_iff in H. unfold convert_set in H. assert (E1 : existsb (seqb k) (map L ["xrange"; "yrange"]%string) = false) by (destruct K; subst; reflexivity).
  assert (E2 : existsb (seqb k) (map L ["pt_size"; "ref_diameter"]%string) = true) by (destruct K; subst; reflexivity). rewrite E1, E2 in H. destruct (to_float v) as [x|]; cbn in H; [|discriminate]. injection H as <-. now exists x.
Qed.
Lemma kept_whole v w : kept_by_set (L "invert") v w -> exists z, as_whole v z /\ w = VInt z.
Proof.
  intros H. apply convert_set_iff in H. unfold convert_set in H. change (existsb (seqb (L "invert")) (map L ["xrange"; "yrange"]%string)) with false in H. change (existsb (seqb (L "invert")) (map L ["pt_size"; "ref_diameter"]%string)) with false in H.
  change (existsb (seqb (L "invert")) (map L ["randomness"; "mu"; "invert"; "text_halo"; "sig_figs"]%string)) with true in H. cbn iota in H. destruct (to_int v) as [z|] eqn:E; cbn in H; [|discriminate]. injection H as <-. exists z. split; [now apply to_int_iff|reflexivity].
Qed.
(** a new plot set: its settings are those given, or the defaults; on a white page it has the first colours of the tables, on a black one the second *)
Theorem C105_new : forall ds, (forall k v, last_given (concat ds) k = Some v -> exists w, kept_by_set k v w) ->
  (forall v, last_given (concat ds) (L "invert") = Some v -> as_whole v 0 \/ as_whole v 1) ->
  exists s pt inv, new_set ds = Ok s /\ hold kept_by_set no_attributes (set_defaults ++ concat ds) (ps_attributes s) /\
    ps_attributes s (L "pt_size") = Some (VNum pt) /\ ps_sz_ratio s = pt / 9 /\
    ps_attributes s (L "invert") = Some (VInt (if inv : bool then 1 else 0)) /\
    ps_grey s = nth (if inv then 1 else 0)%nat GREYS [] /\ ps_palette s = map (fun e => nth (if inv then 1 else 0)%nat e []) PALETTE /\
    ps_markers s = map (fun m => (m, None)) MARKERSIZES.
Proof.
  intros ds H IV. assert (DF : forall k v, last_given set_defaults k = Some v -> exists w, kept_by_set k v w).
  { intros k v G. apply given_in in G. assert (G' : exists w, convert_set k v = Ok w). { unfold set_defaults in G. repeat (destruct G as [G|G]; [injection G as <- <-; eexists; reflexivity|]). contradiction. } destruct G' as (w & W). exists w. now apply convert_set_iff. }
  assert (AL : forall k v, last_given (concat (set_defaults :: ds)) k = Some v -> exists w, kept_by_set k v w).
  { intros k v. cbn [concat]. rewrite last_given_app. specialize (H k). specialize (DF k). destruct (last_given (concat ds) k) as [u|]; [intros G; injection G as ->; now apply H|now apply DF]. }
  destruct (proj2 (C105_accepted no_attributes _) AL) as (a & U). pose proof (update_holds _ _ _ U) as HD. cbn [concat] in HD.
  assert (PT : exists pt, a (L "pt_size") = Some (VNum pt)).
  { pose proof (HD (L "pt_size")) as P. rewrite last_given_app in P. replace (last_given set_defaults (L "pt_size")) with (Some (VNum 9)) in P by reflexivity.
    destruct (last_given (concat ds) (L "pt_size")); destruct P as (w & W & A); destruct (kept_number (L "pt_size") _ w ltac:(now left) W) as (x & ->); now exists x. }
  assert (IN : exists b : bool, a (L "invert") = Some (VInt (if b then 1 else 0))).
  { pose proof (HD (L "invert")) as P. rewrite last_given_app in P. replace (last_given set_defaults (L "invert")) with (Some (VInt 0)) in P by reflexivity.
    specialize (IV). destruct (last_given (concat ds) (L "invert")) as [v|]; destruct P as (w & W & A); destruct (kept_whole _ _ W) as (z & Z1 & ->).
    - destruct (IV v eq_refl) as [Q|Q]; [exists false|exists true]; rewrite A; apply to_int_iff in Z1, Q; assert (z = 0%Z \/ z = 1%Z) by (rewrite Z1 in Q; injection Q as ->; tauto); do 2 f_equal; congruence.
    - exists false. inversion Z1; subst. exact A. }
  destruct PT as (pt & PT). destruct IN as (inv & IN). exists (mkSet a (pt / 9) (nth (if inv then 1 else 0)%nat GREYS []) (map (fun e => nth (if inv then 1 else 0)%nat e []) PALETTE) (map (fun m => (m, None)) MARKERSIZES)), pt, inv.
  split; [|cbn [ps_attributes ps_sz_ratio ps_grey ps_palette ps_markers]; tauto].
  unfold new_set. rewrite U, PT, IN. cbn [bind to_float to_int]. destruct inv; reflexivity.
Qed.
Print Assumptions C105_new.
(** Settings changed later do not reach the colours nor the widths of lines *)
Theorem C105_later_refuted : exists s s' later, new_set [] = Ok s /\ new_set [later] = Ok s' /\
  (forall k, ps_attributes (fst (later_settings s [later])) k = ps_attributes s' k) /\ snd (later_settings s [later]) = None /\
  ps_palette (fst (later_settings s [later])) <> ps_palette s' /\ ps_grey (fst (later_settings s [later])) <> ps_grey s' /\ ps_sz_ratio (fst (later_settings s [later])) <> ps_sz_ratio s'.
Proof.
  set (later := [(L "invert", VInt 1); (L "pt_size", VNum 18)]).
  destruct (C105_new []) as (s & pt & inv & N & HD & PT & SZ & IV & GR & PA & _); [discriminate|discriminate|].
  destruct (C105_new [later]) as (s' & pt' & inv' & N' & HD' & PT' & SZ' & IV' & GR' & PA' & _).
  { intros k v G. apply given_in in G. cbn in G. destruct G as [G|[G|[]]]; injection G as <- <-; eexists; apply convert_set_iff; reflexivity. }
  { intros v G. apply given_in in G. cbn in G. destruct G as [G|[G|[]]]; [injection G as <-; right; constructor|discriminate]. }
  exists s, s', later. split; [exact N|]. split; [exact N'|].
  destruct (later_settings s [later]) as [s2 e] eqn:E. unfold later_settings in E. destruct (update_set (ps_attributes s) [later]) as [a e'] eqn:U. injection E as <- <-. cbn [fst snd ps_attributes ps_palette ps_grey ps_sz_ratio].
  assert (e' = None). { assert (P : snd (update_set (ps_attributes s) [later]) = None) by reflexivity. rewrite U in P. exact P. } subst e'. split.
  { pose proof (update_holds _ _ _ U) as H2. intros k. specialize (H2 k). specialize (HD k). specialize (HD' k). cbn [concat] in *. rewrite !app_nil_r in *. rewrite last_given_app in HD'. 
    destruct (last_given later k) as [v|].
    - destruct H2 as (w & W & A), HD' as (w' & W' & A'). apply convert_set_iff in W, W'. congruence.
    - rewrite H2. destruct (last_given set_defaults k) as [v|]; [|congruence]. destruct HD as (w & W & A), HD' as (w' & W' & A'). apply convert_set_iff in W, W'. congruence. }
  assert (IE : inv = false /\ inv' = true /\ pt = 9 /\ pt' = 18).
  { specialize (HD (L "invert")) as Q1. specialize (HD' (L "invert")) as Q2. specialize (HD (L "pt_size")) as Q3. specialize (HD' (L "pt_size")) as Q4.
    change (last_given _ (L "invert")) with (Some (VInt 0)) in Q1. change (last_given _ (L "invert")) with (Some (VInt 1)) in Q2. change (last_given _ (L "pt_size")) with (Some (VNum 9)) in Q3. change (last_given _ (L "pt_size")) with (Some (VNum 18)) in Q4.
    destruct Q1 as (w1 & W1 & A1), Q2 as (w2 & W2 & A2), Q3 as (w3 & W3 & A3), Q4 as (w4 & W4 & A4). apply convert_set_iff in W1, W2, W3, W4.
    assert (w1 = VInt 0) by (cbn in W1; congruence). assert (w2 = VInt 1) by (cbn in W2; congruence). assert (w3 = VNum 9) by (cbn in W3; congruence). assert (w4 = VNum 18) by (cbn in W4; congruence). subst.
    rewrite IV in A1. rewrite IV' in A2. rewrite PT in A3. rewrite PT' in A4. repeat split; [destruct inv; [discriminate|reflexivity]|destruct inv'; [reflexivity|discriminate]|congruence|congruence]. }
  destruct IE as (-> & -> & -> & ->). split; [reflexivity|]. rewrite PA, PA', GR, GR', SZ, SZ'. split; [discriminate|]. split; [discriminate|lra].
Qed.
Print Assumptions C105_later_refuted.

(** ** Markers *)
Definition width_factor (l : layout) : R := let '(_, _, w, _) := l_axes l in w / (15 / 2).
Lemma layout_width p xr yr dims pt ra l : 0 < pt -> plot_layout p xr yr dims pt ra = Ok l -> fst (l_decades l) * l_scale l / (15 / 2) = width_factor l.
Proof.
  intros P E. unfold plot_layout in E. destruct (match dims with [] => _ | _ => _ end) as [scale|]; [|discriminate]. cbn [bind] in E. injection E as <-. unfold width_factor. cbn [l_decades l_scale l_axes fst]. field. lra.
Qed.
(** drawn for the first time, the markers are in proportion to the width of the diagram on the paper, which has its standard size at 9.375 cm; and at every further drawing they are scaled again *)
Theorem C105_markers : forall p xr yr dims pt ra l s n, 0 < pt -> plot_layout p xr yr dims pt ra = Ok l ->
  let '(_, _, w, _) := l_axes l in
  map fst (ps_markers (Nat.iter n (scale_markers l) s)) = map (fun m => fst m * (w / (75 / 8)) ^ n) (ps_markers s) /\
  ((0 < n)%nat -> Forall (fun m => snd m = Some (w / 15)) (ps_markers (Nat.iter n (scale_markers l) s))).
Proof.
  intros p xr yr dims pt ra l s n P E. pose proof (layout_width _ _ _ _ _ _ _ P E) as W. unfold width_factor in W. destruct (l_axes l) as [[[x y] w] h]. split.
  - induction n as [|n IH]; [cbn [Nat.iter nat_rect]; apply map_ext; intros m; cbn [pow]; ring|]. cbn [Nat.iter nat_rect]. change (nat_rect (fun _ => plotset) s (fun _ => scale_markers l) n) with (Nat.iter n (scale_markers l) s).
    unfold scale_markers at 1. cbn [ps_markers]. rewrite W, map_map. cbn [fst]. rewrite <- (map_map fst (fun m => m * (8 / 10 * (w / (15 / 2))))), IH, map_map. apply map_ext. intros m. cbn [pow]. field.
  - intros N. destruct n as [|n]; [lia|]. cbn [Nat.iter nat_rect]. unfold scale_markers at 1. cbn [ps_markers]. rewrite W. apply Forall_map. apply Forall_forall. intros m _. cbn [snd]. f_equal. field.
Qed.
Print Assumptions C105_markers.
(** The standard page, drawn twice, has smaller markers than drawn once *)
Theorem C105_redraw_refuted : exists s l, new_set [] = Ok s /\ plot_layout Differential (-3, 2) (-5, 5) [15 / 2; 15 / 2] 9 false = Ok l /\
  Forall2 (fun m1 m2 => 0 < fst m2 < fst m1) (ps_markers (scale_markers l s)) (ps_markers (scale_markers l (scale_markers l s))).
Proof.
  destruct (C105_new []) as (s & pt & inv & N & _ & _ & _ & _ & _ & _ & M); [discriminate|discriminate|]. eexists. eexists. split; [exact N|]. split; [reflexivity|].
  unfold scale_markers. cbn [ps_markers l_decades l_scale fst]. rewrite M.
  assert (F : decades (-3, 2) * Rmin (Rmax (15 / 2) 1 / decades (-3, 2)) (Rmax (15 / 2 * 2) 1 / decades (-5, 5)) / (15 / 2) = 1).
  { unfold decades, mag. cbn [fst snd]. unfold Rmin, Rmax. repeat destruct (Rle_dec _ _); lra. }
  rewrite F. unfold MARKERSIZES. cbn [map fst]. repeat constructor; cbn [fst]; lra.
Qed.
Print Assumptions C105_redraw_refuted.
Example C105_hypotheses_met : exists a', updates no_attributes [[[(L "xrange", VList [VStr (L "-2"); VInt 3])]; [(L "invert", VStr (L "1"))]]; [[(L "invert", VNum (3 / 10)); (L "title", VStr (L "Mare"))]]] a' /\
  a' (L "invert") = Some (VInt 0) /\ a' (L "title") = Some (VStr (L "Mare")).
Proof.
  assert (K : forall a, update_set a [[(L "invert", VNum (3 / 10)); (L "title", VStr (L "Mare"))]] = (set_attribute (set_attribute a (L "invert") (VInt 0)) (L "title") (VStr (L "Mare")), None)).
  { intros a. unfold update_set. change (merge _) with [(L "invert", VNum (3 / 10)); (L "title", VStr (L "Mare"))]. cbn [set_all]. assert (C : convert_set (L "invert") (VNum (3 / 10)) = Ok (VInt 0)).
    { apply convert_set_iff. right. right. left. split; [cbn; tauto|]. exists 0%Z. split; [|reflexivity]. apply aw_up; lra. }
    rewrite C. reflexivity. }
  eexists. split; [eapply updates_one; [reflexivity|]; eapply updates_one; [apply K|constructor]|]. split; reflexivity.
Qed.
