(** Nearest neighbours. *)
From Coq Require Import String Ascii List ZArith Reals Bool Permutation Sorted Lia Lra.
From Verif Require Import Base NumModel NumLemmas StrModel FmtModel RaModel RaSpec RaProofs.
Import ListNotations.
Local Open Scope R_scope.

(** counting *)
Lemma count_perm P l m : Permutation l m -> count P l = count P m.
Proof.
  unfold count. induction 1 as [|x l m _ IH|x y l|l m n _ I1 _ I2]; cbn; [reflexivity| | |congruence].
  - destruct (P x); cbn; now rewrite IH.
  - destruct (P x), (P y); reflexivity.
Qed.
Lemma count_cons P x l : count P (x :: l) = ((if P x then 1 else 0) + count P l)%nat.
Proof. unfold count. cbn. destruct (P x); reflexivity. Qed.
Lemma count_le_length P l : (count P l <= length l)%nat.
Proof. induction l as [|x l IH]; [auto|]. rewrite count_cons. cbn. destruct (P x); lia. Qed.
Lemma count_mono P Q l : (forall x, P x = true -> Q x = true) -> (count P l <= count Q l)%nat.
Proof.
  intros H. induction l as [|x l IH]; [auto|]. rewrite !count_cons. specialize (H x). destruct (P x); [rewrite H by reflexivity; lia|]. destruct (Q x); lia.
Qed.
Lemma count_none P l : Forall (fun x => P x = false) l -> count P l = 0%nat.
Proof. induction 1 as [|x l H _ IH]; [reflexivity|]. rewrite count_cons, H, IH. reflexivity. Qed.
Lemma sorted_kth l k : StronglySorted Rle l -> (k < length l)%nat ->
  (count (fun x => Rltb x (nth k l 0%R)) l <= k)%nat /\ (k < count (fun x => Rleb x (nth k l 0%R)) l)%nat.
Proof.
  revert k. induction l as [|x l IH]; intros k So Lk; [cbn in Lk; lia|]. apply StronglySorted_inv in So. destruct So as [So F]. rewrite !count_cons. destruct k as [|k].
  - cbn [nth]. split.
    + rewrite (count_none (fun y => Rltb y x) l).
      * destruct (Rltb_spec x x); [lra|lia].
      * apply Forall_forall. intros y Iy. destruct (Rltb_spec y x) as [G|]; [|reflexivity]. pose proof (proj1 (Forall_forall _ _) F y Iy). lra.
    + destruct (Rleb_spec x x); [lia|lra].
  - cbn [nth]. cbn in Lk. assert (Lk' : (k < length l)%nat) by lia. destruct (IH k So Lk') as [A B]. split.
    + destruct (Rltb _ _); lia.
    + assert (x <= nth k l 0) by exact (proj1 (Forall_forall _ _) F _ (nth_In _ _ Lk')). destruct (Rleb_spec x (nth k l 0)); [lia|contradiction].
Qed.

Section Nearest.
Context {Point : Type} (dist : Point -> Point -> R) (pix : Point -> Z) (cone : Point -> R -> list Z) (neighbours : Z -> res (list Z)) (radius : R).
Notation cells := (RaModel.cells Point).
Notation flat h := (concat (map snd h)).

(** the points of a zone *)
Lemma filter_none {A} (f : A -> bool) l : Forall (fun x => f x = false) l -> filter f l = [].
Proof. induction 1 as [|x l H _ IH]; [reflexivity|]. cbn. now rewrite H. Qed.
Lemma cell_filter (h : cells) id : NoDup (map fst h) -> (forall i l, In (i, l) h -> Forall (fun p => pix p = i) l) ->
  match cell_get h id with Some l => l | None => [] end = filter (fun p => Z.eqb (pix p) id) (flat h).
Proof.
  intros N P. induction h as [|[k l] h IH]; [reflexivity|]. cbn [cell_get map concat snd fst] in *. inversion N; subst. rewrite filter_app.
  assert (P' : forall i l, In (i, l) h -> Forall (fun p => pix p = i) l) by (intros; apply P; now right).
  specialize (IH H2 P'). pose proof (P k l (or_introl eq_refl)) as Pk. destruct (Z.eqb_spec k id) as [->|D].
  - rewrite filter_all.
    + rewrite <- IH. rewrite cell_get_absent by assumption. now rewrite app_nil_r.
    + eapply Forall_impl; [|exact Pk]. cbn. intros p ->. apply Z.eqb_refl.
  - rewrite filter_none; [exact IH|]. eapply Forall_impl; [|exact Pk]. cbn. intros p ->. now apply Z.eqb_neq.
Qed.
Lemma filter_or {A} (f g : A -> bool) l : (forall x, f x = true -> g x = false) -> Permutation (filter f l ++ filter g l) (filter (fun x => f x || g x) l).
Proof.
  intros H. induction l as [|x l IH]; [constructor|]. cbn. specialize (H x). destruct (f x) eqn:F; cbn [orb].
  - rewrite H by reflexivity. cbn. now constructor.
  - destruct (g x); [|exact IH]. rewrite <- Permutation_middle. now constructor.
Qed.
Lemma filter_perm {A} (f : A -> bool) l m : Permutation l m -> Permutation (filter f l) (filter f m).
Proof.
  induction 1 as [|x l m _ IH|x y l|l m n _ I1 _ I2]; cbn; [constructor| | |etransitivity; eassumption].
  - destruct (f x); [now constructor|assumption].
  - destruct (f x), (f y); try reflexivity. constructor.
Qed.
Lemma in_zone_filter (h : cells) pts zone : holds pix h pts -> NoDup zone ->
  Permutation (in_zone Point h zone) (filter (fun p => isin zone (pix p)) pts).
Proof.
  intros (N & P & Pe) ND. rewrite <- (filter_perm _ _ _ Pe). induction ND as [|id zone NI _ IH].
  - rewrite filter_none; [constructor|]. apply Forall_forall. reflexivity.
  - rewrite in_zone_cons, cell_filter, IH by assumption. rewrite filter_or.
    + erewrite filter_ext; [reflexivity|]. reflexivity.
    + intros p E. apply Z.eqb_eq in E. apply not_true_iff_false. intros X. apply NI. unfold isin in X. apply existsb_exists in X. destruct X as (y & Iy & Ey).
      apply Z.eqb_eq in Ey. congruence.
Qed.

(** the k-th of a zone *)
Lemma get_kth_spec (h : cells) k pt zone : (k < length (in_zone Point h zone))%nat ->
  exists d e, get_kth Point dist h k pt zone = Ok (d, e) /\ In e (in_zone Point h zone) /\ d = dist pt e /\
    (count (fun x => Rltb x d) (map (dist pt) (in_zone Point h zone)) <= k)%nat /\
    (k < count (fun x => Rleb x d) (map (dist pt) (in_zone Point h zone)))%nat.
Proof.
  intros Lk. unfold get_kth. set (zs := in_zone Point h zone) in *. set (dp := map (fun e => (dist pt e, e)) zs).
  set (lep := fun a b : R * Point => Rleb (fst a) (fst b)).
  assert (T : forall x y, lep x y = false -> lep y x = true). { unfold lep. intros x y. destruct (Rleb_spec (fst x) (fst y)); [discriminate|]. intros _. destruct (Rleb_spec (fst y) (fst x)); [reflexivity|lra]. }
  assert (Tr : forall x y z, lep x y = true -> lep y z = true -> lep x z = true).
  { unfold lep. intros x y z. destruct (Rleb_spec (fst x) (fst y)); [|discriminate]. destruct (Rleb_spec (fst y) (fst z)); [|discriminate]. intros _ _. destruct (Rleb_spec (fst x) (fst z)); [reflexivity|lra]. }
  pose proof (sort_perm lep dp) as Pe.
  assert (So : StronglySorted (fun a b => lep a b = true) (sort lep dp)) by (apply sort_sorted; assumption). set (s := sort lep dp) in *.
  assert (Ls : (k < length s)%nat). { rewrite <- (Permutation_length Pe). unfold dp. now rewrite map_length. }
  destruct (nth_error s k) as [[d e]|] eqn:E; [|apply nth_error_None in E; lia].
  exists d, e. unfold pyindex. destruct (Z.ltb_spec (Z.of_nat k) 0); [lia|]. destruct (Z.ltb_spec (Z.of_nat k) 0); [lia|]. rewrite Nat2Z.id, E. split; [reflexivity|].
  assert (I : In (d, e) dp). { apply (Permutation_in _ (Permutation_sym Pe)). now apply nth_error_In in E. }
  unfold dp in I. apply in_map_iff in I. destruct I as (e' & E' & Ie). injection E' as <- ->. split; [exact Ie|]. split; [reflexivity|].
  assert (Pm : Permutation (map (dist pt) zs) (map fst s)). { rewrite <- Pe. unfold dp. rewrite map_map. reflexivity. }
  rewrite !(count_perm _ _ _ Pm). assert (Sm : StronglySorted Rle (map fst s)).
  { clear - So. induction So as [|x l So IH F]; cbn; constructor; [exact IH|]. apply Forall_map. eapply Forall_impl; [|exact F]. cbn. intros y. unfold lep. destruct (Rleb_spec (fst x) (fst y)); [auto|discriminate]. }
  assert (En : dist pt e = nth k (map fst s) 0). { apply nth_error_nth with (d := (0, e)) in E. rewrite (nth_map_lt fst s k (0, e)) by exact Ls. now rewrite E. }
  rewrite En. apply sorted_kth; [exact Sm|]. now rewrite map_length.
Qed.
(** the neighbourhood *)
Lemma isin_In l x : isin l x = true <-> In x l.
Proof.
  unfold isin. rewrite existsb_exists. split; [intros (y & I & E); apply Z.eqb_eq in E; congruence|]. intros I. exists x. split; [exact I|apply Z.eqb_refl].
Qed.
Lemma isin_not l x : isin l x = false <-> ~ In x l.
Proof. rewrite <- isin_In. now rewrite not_true_iff_false. Qed.
Lemma NoDup_filter' {A} (f : A -> bool) l : NoDup l -> NoDup (filter f l).
Proof. induction 1 as [|x l NI _ IH]; [constructor|]. cbn. destruct (f x); [constructor; [|exact IH]|exact IH]. intros I. apply filter_In in I. tauto. Qed.
Lemma NoDup_app' {A} (a b : list A) : NoDup a -> NoDup b -> (forall x, In x a -> ~ In x b) -> NoDup (a ++ b).
Proof.
  induction 1 as [|x a NI _ IH]; intros Nb D; [exact Nb|]. cbn. constructor; [|apply IH; [exact Nb|intros y I; apply D; now right]].
  rewrite in_app_iff. intros [I|I]; [auto|]. exact (D x (or_introl eq_refl) I).
Qed.
Lemma union_NoDup a b : NoDup a -> NoDup (union a b).
Proof.
  intros N. unfold union. apply NoDup_app'; [exact N|apply NoDup_filter', NoDup_nodup|]. intros x I J. apply filter_In in J. destruct J as [_ J].
  apply negb_true_iff, isin_not in J. auto.
Qed.
Lemma union_In a b x : In x (union a b) <-> In x a \/ In x b.
Proof using.
  unfold union. rewrite in_app_iff, filter_In, nodup_In. split; [intros [I|[I _]]; [now left|now right]|]. intros [I|I]; [now left|]. destruct (isin a x) eqn:E; [left; now apply isin_In|right; now split].
Qed.
Lemma minus_In a b x : In x (minus a b) <-> In x a /\ ~ In x b.
Proof using. unfold minus. rewrite filter_In, nodup_In, negb_true_iff, isin_not. apply iff_refl. Qed.
Lemma minus_NoDup a b : NoDup (minus a b).
Proof. apply NoDup_filter', NoDup_nodup. Qed.
Lemma grow_some fuel (h : cells) k loc outer zone : NoDup loc -> grow Point neighbours fuel h k loc outer = Some (Ok zone) ->
  NoDup zone /\ (k < length (in_zone Point h zone))%nat.
Proof.
  revert loc outer. induction fuel as [|fuel IH]; intros loc outer N E; [discriminate|]. cbn [grow] in E.
  destruct (Nat.leb_spec (k + 1) (length (in_zone Point h (union loc outer)))) as [G|G].
  - injection E as <-. split; [now apply union_NoDup|lia].
  - destruct (mapM neighbours outer); [|discriminate]. apply IH in E; [exact E|now apply union_NoDup].
Qed.
Lemma grow_few fuel (h : cells) pts k loc outer zone : holds pix h pts -> (length pts <= k)%nat -> NoDup loc -> grow Point neighbours fuel h k loc outer <> Some (Ok zone).
Proof.
  intros H L. revert loc outer. induction fuel as [|fuel IH]; intros loc outer N; [discriminate|]. cbn [grow].
  pose proof (union_NoDup loc outer N) as NU. pose proof (Permutation_length (in_zone_filter h pts _ H NU)) as Pl.
  pose proof (filter_length_le' (fun p => isin (union loc outer) (pix p)) pts) as F.
  destruct (Nat.leb_spec (k + 1) (length (in_zone Point h (union loc outer)))) as [G|G]; [exfalso; revert F G; rewrite <- Pl; lia|].
  destruct (mapM neighbours outer); [|discriminate]. apply IH. exact NU.
Qed.
Lemma mapM_closed grid outer : closed_grid neighbours grid -> incl outer grid -> exists ns, mapM neighbours outer = Ok ns /\
  forall c, In c (concat ns) <-> exists b, In b outer /\ exists l, neighbours b = Ok l /\ In c l.
Proof.
  intros Cg. induction outer as [|b outer IH]; intros I.
  - exists []. split; [reflexivity|]. intros c. cbn. split; [contradiction|]. intros (b & [] & _).
  - destruct IH as (ns & E & H); [intros x Ix; apply I; now right|]. destruct (Cg b (I b (or_introl eq_refl))) as (l & El & _). exists (l :: ns). cbn [mapM]. rewrite El. cbn [bind]. rewrite E. cbn [bind].
    split; [reflexivity|]. intros c. cbn [concat]. rewrite in_app_iff, H. split.
    + intros [Ic|(b' & Ib & R1)]; [exists b; split; [now left|eauto]|exists b'; split; [now right|exact R1]].
    + intros (b' & [<-|Ib] & l' & El' & Ic); [left; rewrite El in El'; injection El' as <-; exact Ic|right; eauto].
Qed.
Lemma grow_closed_none fuel (h : cells) pts k grid loc outer : holds pix h pts -> (length pts <= k)%nat -> closed_grid neighbours grid -> NoDup loc -> incl outer grid ->
  grow Point neighbours fuel h k loc outer = None.
Proof.
  intros H L Cg. revert loc outer. induction fuel as [|fuel IH]; intros loc outer N I; [reflexivity|]. cbn [grow].
  pose proof (union_NoDup loc outer N) as NU. pose proof (Permutation_length (in_zone_filter h pts _ H NU)) as Pl.
  pose proof (filter_length_le' (fun p => isin (union loc outer) (pix p)) pts) as F.
  destruct (Nat.leb_spec (k + 1) (length (in_zone Point h (union loc outer)))) as [G|G]; [exfalso; revert F G; rewrite <- Pl; lia|].
  destruct (mapM_closed grid outer Cg I) as (ns & -> & Hns). apply IH; [exact NU|]. intros x Ix. apply minus_In in Ix. destruct Ix as [Ix _]. apply Hns in Ix. destruct Ix as (b & Ib & l & El & Il).
  destruct (Cg b (I b Ib)) as (l' & El' & J). rewrite El in El'. injection El' as <-. exact (J x Il).
Qed.
Lemma reach_closed id loc : In id loc -> (forall b c, In b loc -> (exists l, neighbours b = Ok l /\ In c l) -> In c loc) -> forall x, reach neighbours id x -> In x loc.
Proof. intros I C x R1. induction R1 as [|b c _ IH Ic]; [exact I|]. exact (C b c IH Ic). Qed.
Lemma grow_ends (h : cells) pts k id grid : holds pix h pts -> (k < length pts)%nat -> NoDup grid ->
  closed_grid neighbours grid -> (forall p, In p pts -> reach neighbours id (pix p)) ->
  forall m loc outer, NoDup loc -> NoDup outer -> (forall x, In x loc -> ~ In x outer) -> incl loc grid -> incl outer grid ->
    In id (loc ++ outer) -> (forall b c, In b loc -> (exists l, neighbours b = Ok l /\ In c l) -> In c (loc ++ outer)) -> (length grid <= length loc + m)%nat ->
    exists zone, grow Point neighbours (S m) h k loc outer = Some (Ok zone).
Proof.
  intros H Lk Ng Cg Re. induction m as [|m IH]; intros loc outer Nl No Di Il Io Iid Cl Lm.
  - assert (outer = []) as ->.
    { destruct outer as [|x r]; [reflexivity|]. exfalso. pose proof (NoDup_app' loc (x :: r) Nl No Di) as NA. assert (incl (loc ++ x :: r) grid) as IA by now apply incl_app.
      pose proof (NoDup_incl_length NA IA) as L. rewrite app_length in L. cbn in L. lia. }
    rewrite app_nil_r in *. cbn [grow]. assert (EU : forall x, In x (union loc []) <-> In x loc). { intros x. rewrite union_In. cbn. tauto. }
    destruct (Nat.leb_spec (k + 1) (length (in_zone Point h (union loc [])))) as [G|G]; [eauto|]. exfalso.
    rewrite (Permutation_length (in_zone_filter h pts _ H (union_NoDup loc [] Nl))) in G. rewrite filter_all in G; [lia|].
    apply Forall_forall. intros p Ip. apply isin_In, EU. apply (reach_closed id); [exact Iid|exact Cl|exact (Re p Ip)].
  - change (grow Point neighbours (S (S m)) h k loc outer) with (if Nat.leb (k + 1) (length (in_zone Point h (union loc outer))) then Some (Ok (union loc outer))
      else match mapM neighbours outer with Err e => Some (Err e) | Ok ns => grow Point neighbours (S m) h k (union loc outer) (minus (concat ns) (union loc outer)) end).
    destruct (Nat.leb_spec (k + 1) (length (in_zone Point h (union loc outer)))) as [G|G]; [eauto|].
    destruct (mapM_closed grid outer Cg Io) as (ns & -> & Hns).
    apply IH.
    + now apply union_NoDup.
    + apply minus_NoDup.
    + intros x Ix. rewrite minus_In. tauto.
    + intros x. rewrite union_In. intros [I|I]; auto.
    + intros x. rewrite minus_In, Hns. intros [(b & Ib & l & El & Ic) _]. destruct (Cg b (Io b Ib)) as (l' & El' & J). rewrite El in El'. injection El' as <-. exact (J x Ic).
    + rewrite in_app_iff, union_In. rewrite in_app_iff in Iid. tauto.
    + intros b c. rewrite in_app_iff, !union_In, minus_In, Hns, union_In. intros [Ib|Ib] Ic.
      * specialize (Cl b c Ib Ic). rewrite in_app_iff in Cl. tauto.
      * destruct (in_dec Z.eq_dec c loc); [auto|]. destruct (in_dec Z.eq_dec c outer); [auto|]. right. split; [|tauto]. exists b. auto.
    + destruct outer as [|x r].
      * (* nothing left to add: the points of the closed neighbourhood are all of them *)
        exfalso. rewrite app_nil_r in Iid. rewrite (Permutation_length (in_zone_filter h pts _ H (union_NoDup loc [] Nl))) in G. rewrite filter_all in G; [lia|].
        apply Forall_forall. intros p Ip. apply isin_In, union_In. left. apply (reach_closed id); [exact Iid| |exact (Re p Ip)]. intros b c Ib Ic. specialize (Cl b c Ib Ic). now rewrite app_nil_r in Cl.
      * assert (L : (length loc < length (union loc (x :: r)))%nat).
        { assert (I : incl (x :: loc) (union loc (x :: r))). { intros y [<-|Iy]; apply union_In; cbn; auto. }
          assert (N : NoDup (x :: loc)). { constructor; [|exact Nl]. intros Ix. apply (Di x Ix). now left. }
          pose proof (NoDup_incl_length N I) as LL. cbn in LL. lia. }
        lia.
Qed.

(** one point *)
Lemma count_map_filter (f : R -> bool) (g : Point -> R) (z : Point -> bool) l : (forall p, In p l -> f (g p) = true -> z p = true) ->
  count f (map g (filter z l)) = count f (map g l).
Proof.
  intros H. induction l as [|p l IH]; [reflexivity|]. cbn [filter map]. rewrite count_cons. assert (IH' := IH ltac:(intros q I; apply H; now right)). 
  specialize (H p (or_introl eq_refl)). destruct (z p).
  - cbn [map]. rewrite count_cons. lia.
  - destruct (f (g p)); [discriminate (H eq_refl)|]. lia.
Qed.
Lemma count_map_filter_le (f : R -> bool) (g : Point -> R) (z : Point -> bool) l : (count f (map g (filter z l)) <= count f (map g l))%nat.
Proof. induction l as [|p l IH]; [auto|]. cbn [filter map]. rewrite count_cons. destruct (z p); [cbn [map]; rewrite count_cons|]; lia. Qed.
Lemma count_gap l d k : (count (fun x => Rltb x d) l < k)%nat -> (k <= count (fun x => Rleb x d) l)%nat -> In d l.
Proof.
  revert k. induction l as [|x l IH]; intros k A B; [unfold count in *; cbn in *; lia|]. rewrite count_cons in *. destruct (Rltb_spec x d) as [L|L].
  - destruct (Rleb_spec x d); [|lra]. right. apply (IH (k - 1)%nat); lia.
  - destruct (Rleb_spec x d); [left; lra|]. right. apply (IH k); lia.
Qed.
Lemma nearest_spec fuel (h : cells) pts k id pt p : metric dist -> search_covers dist pix cone radius -> holds pix h pts -> In pt pts -> (1 <= k)%nat ->
  nearest Point dist cone neighbours radius fuel h k id pt = Some (Ok p) ->
  exists l, Permutation pts (pt :: l) /\ kth_smallest k (map (dist pt) l) (fst p) /\ In (snd p) pts /\ dist pt (snd p) = fst p.
Proof.
  intros (D0 & Dp & _) (RP & CN & Cov) H Ip Hk. unfold nearest. destruct (grow Point neighbours fuel h k [] [id]) as [[loc|]|] eqn:G; [|discriminate|discriminate]. intros E. injection E as E. cbn [bind] in E.
  destruct (grow_some fuel h k [] [id] loc (NoDup_nil _) G) as [Nl Ll]. destruct (get_kth_spec h k pt loc Ll) as (d0 & e0 & E0 & I0 & _ & _ & C0). rewrite E0 in E. cbn [bind] in E.
  pose proof (in_zone_filter h pts loc H Nl) as P0. rewrite (count_perm _ _ _ (Permutation_map (dist pt) P0)) in C0.
  set (zone := cone pt (d0 / radius)) in *. pose proof (in_zone_filter h pts zone H (CN _ _)) as P1.
  assert (Inz : forall q, dist pt q <= d0 -> isin zone (pix q) = true). { intros q Hq. apply isin_In. apply Cov. replace (d0 / radius * radius) with d0 by (field; lra). exact Hq. }
  assert (Call : (k < count (fun x => Rleb x d0) (map (dist pt) pts))%nat). { pose proof (count_map_filter_le (fun x => Rleb x d0) (dist pt) (fun p => isin loc (pix p)) pts). lia. }
  assert (Cz : forall x, x <= d0 -> count (fun y => Rleb y x) (map (dist pt) (in_zone Point h zone)) = count (fun y => Rleb y x) (map (dist pt) pts)).
  { intros x Hx. rewrite (count_perm _ _ _ (Permutation_map (dist pt) P1)). apply count_map_filter. intros q _ Hq. apply Inz. destruct (Rleb_spec (dist pt q) x); [lra|discriminate]. }
  assert (Cl : forall x, x <= d0 -> count (fun y => Rltb y x) (map (dist pt) (in_zone Point h zone)) = count (fun y => Rltb y x) (map (dist pt) pts)).
  { intros x Hx. rewrite (count_perm _ _ _ (Permutation_map (dist pt) P1)). apply count_map_filter. intros q _ Hq. apply Inz. destruct (Rltb_spec (dist pt q) x); [lra|discriminate]. }
  assert (Lz : (k < length (in_zone Point h zone))%nat).
  { rewrite <- (Cz d0) in Call by lra. pose proof (count_le_length (fun x => Rleb x d0) (map (dist pt) (in_zone Point h zone))) as X. rewrite map_length in X. lia. }
  destruct (get_kth_spec h k pt zone Lz) as (d & e & E1 & I1 & Ed & A & B). fold zone in E. rewrite E1 in E. injection E as <-. cbn [fst snd].
  assert (Hd : d <= d0).
  { destruct (Rle_dec d d0) as [|N]; [assumption|]. exfalso. assert (count (fun x => Rleb x d0) (map (dist pt) (in_zone Point h zone)) <= count (fun x => Rltb x d) (map (dist pt) (in_zone Point h zone)))%nat.
    { apply count_mono. intros x. destruct (Rleb_spec x d0); [|discriminate]. intros _. destruct (Rltb_spec x d); [reflexivity|lra]. }
    rewrite (Cz d0) in * by lra. lia. }
  rewrite Cz in B by exact Hd. rewrite Cl in A by exact Hd.
  apply in_split in Ip. destruct Ip as (l1 & l2 & ->). exists (l1 ++ l2).
  assert (Pp : Permutation (l1 ++ pt :: l2) (pt :: l1 ++ l2)) by (symmetry; apply Permutation_middle). split; [exact Pp|].
  rewrite (count_perm _ _ _ (Permutation_map (dist pt) Pp)) in A. rewrite (count_perm _ _ _ (Permutation_map (dist pt) Pp)) in B. cbn [map] in A, B. rewrite count_cons, Dp in A. rewrite count_cons, Dp in B.
  assert (Hd0 : 0 <= d) by (rewrite Ed; apply D0). destruct (Rleb_spec 0 d) in B; [|lra].
  assert (A' : (count (fun x => Rltb x d) (map (dist pt) (l1 ++ l2)) < k)%nat).
  { destruct (Rltb_spec 0 d) as [L|L] in A; [lia|]. rewrite count_none; [lia|]. apply Forall_forall. intros x Ix. apply in_map_iff in Ix. destruct Ix as (q & <- & _). destruct (Rltb_spec (dist pt q) d) as [X|]; [|reflexivity].
    specialize (D0 pt q). lra. }
  split; [split; [|split; [exact A'|lia]]|split].
  - apply (count_gap _ d k); [exact A'|lia].
  - apply (Permutation_in _ P1) in I1. apply filter_In in I1. tauto.
  - now symmetry.
Qed.
Lemma get_kth_ok (h : cells) k pt zone r : get_kth Point dist h k pt zone = Ok r -> (k < length (in_zone Point h zone))%nat.
Proof.
  unfold get_kth, pyindex. destruct (Z.ltb_spec (Z.of_nat k) 0); [lia|]. destruct (Z.ltb_spec (Z.of_nat k) 0); [lia|]. rewrite Nat2Z.id. set (s := sort _ _).
  destruct (nth_error s k) eqn:E; [|discriminate]. intros _. assert (k < length s)%nat as L by (apply nth_error_Some; now rewrite E). unfold s in L. rewrite sort_length, map_length in L. exact L.
Qed.
(** the search never fails once it has found k + 1 points *)
Lemma nearest_total fuel (h : cells) pts k id pt zone : search_covers dist pix cone radius -> holds pix h pts -> 
  grow Point neighbours fuel h k [] [id] = Some (Ok zone) -> exists p, nearest Point dist cone neighbours radius fuel h k id pt = Some (Ok p).
Proof.
  intros (RP & CN & Cov) H G. unfold nearest. rewrite G. cbn [bind]. destruct (grow_some fuel h k [] [id] zone (NoDup_nil _) G) as [Nl Ll].
  destruct (get_kth_spec h k pt zone Ll) as (d0 & e0 & -> & _ & _ & _ & C0). cbn [bind].
  pose proof (in_zone_filter h pts zone H Nl) as P0. rewrite (count_perm _ _ _ (Permutation_map (dist pt) P0)) in C0.
  pose proof (in_zone_filter h pts (cone pt (d0 / radius)) H (CN _ _)) as P1.
  assert (Lz : (k < length (in_zone Point h (cone pt (d0 / radius))))%nat).
  { pose proof (count_map_filter_le (fun x => Rleb x d0) (dist pt) (fun p => isin zone (pix p)) pts).
    assert (X : count (fun y => Rleb y d0) (map (dist pt) (in_zone Point h (cone pt (d0 / radius)))) = count (fun y => Rleb y d0) (map (dist pt) pts)).
    { rewrite (count_perm _ _ _ (Permutation_map (dist pt) P1)). apply count_map_filter. intros q _ Hq. apply isin_In. apply Cov. replace (d0 / radius * radius) with d0 by (field; lra). destruct (Rleb_spec (dist pt q) d0); [lra|discriminate]. }
    pose proof (count_le_length (fun x => Rleb x d0) (map (dist pt) (in_zone Point h (cone pt (d0 / radius))))) as Y. rewrite map_length in Y. lia. }
  destruct (get_kth_spec h k pt _ Lz) as (d & e & -> & _). eauto.
Qed.

(** all points *)
Lemma each_spec fuel (h : cells) pts k q : metric dist -> search_covers dist pix cone radius -> holds pix h pts -> (1 <= k)%nat ->
  forall l, Forall (fun p => In (snd p) pts) l -> each Point dist cone neighbours radius fuel h k l = Some (Ok q) ->
  Forall2 (fun p r => exists others, Permutation pts (snd p :: others) /\ kth_smallest k (map (dist (snd p)) others) (fst r) /\ In (snd r) pts /\ dist (snd p) (snd r) = fst r) l q.
Proof.
  intros M SC H Hk l. revert q. induction l as [|[id pt] l IH]; intros q F E; cbn [each] in E; [injection E as <-; constructor|]. inversion F as [|? ? F1 F2]; subst. cbn [snd] in F1.
  destruct (nearest Point dist cone neighbours radius fuel h k id pt) as [[p|]|] eqn:N; try discriminate. destruct (each Point dist cone neighbours radius fuel h k l) as [[q'|]|] eqn:E'; try discriminate.
  cbn [bind] in E. injection E as <-. constructor; [|now apply IH]. cbn [snd]. exact (nearest_spec fuel h pts k id pt p M SC H F1 Hk N).
Qed.
Lemma grow_more fuel (h : cells) k : forall loc outer z, grow Point neighbours fuel h k loc outer = Some z -> grow Point neighbours (S fuel) h k loc outer = Some z.
Proof.
  induction fuel as [|fuel IH]; intros loc outer z E; [discriminate|]. cbn [grow] in E.
  change (grow Point neighbours (S (S fuel)) h k loc outer) with (if Nat.leb (k + 1) (length (in_zone Point h (union loc outer))) then Some (Ok (union loc outer))
      else match mapM neighbours outer with Err e => Some (Err e) | Ok ns => grow Point neighbours (S fuel) h k (union loc outer) (minus (concat ns) (union loc outer)) end).
  destruct (Nat.leb _ _); [exact E|]. destruct (mapM neighbours outer); [|exact E]. now apply IH.
Qed.
Lemma each_total (h : cells) pts k grid : search_covers dist pix cone radius -> holds pix h pts -> (k < length pts)%nat -> NoDup grid -> closed_grid neighbours grid ->
  forall l, (forall id pt, In (id, pt) l -> In id grid /\ forall p, In p pts -> reach neighbours id (pix p)) ->
  exists q, each Point dist cone neighbours radius (S (length grid)) h k l = Some (Ok q).
Proof.
  intros SC H Lk Ng Cg. induction l as [|[id pt] l IH]; intros Hl; [exists []; reflexivity|]. destruct IH as [q E]; [intros; apply (Hl id0 pt0); now right|].
  destruct (Hl id pt (or_introl eq_refl)) as [Ig Rg]. destruct (grow_ends h pts k id grid H Lk Ng Cg Rg (length grid) [] [id]) as [zone G].
  - constructor.
  - repeat constructor. auto.
  - auto.
  - intros x [].
  - intros x [<-|[]]. exact Ig.
  - now left.
  - intros b c [].
  - cbn. lia.
  - destruct (nearest_total _ h pts k id pt zone SC H G) as [p N]. exists (p :: q). cbn [each]. rewrite N, E. reflexivity.
Qed.
Lemma each_few (h : cells) pts k fuel id pt l q : holds pix h pts -> (length pts <= k)%nat -> each Point dist cone neighbours radius fuel h k ((id, pt) :: l) <> Some (Ok q).
Proof.
  intros H L. cbn [each]. unfold nearest. destruct (grow Point neighbours fuel h k [] [id]) as [[zone|]|] eqn:G; try discriminate.
  exfalso. exact (grow_few fuel h pts k [] [id] zone H L (NoDup_nil _) G).
Qed.
End Nearest.
