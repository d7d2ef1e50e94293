(** The random population. *)
From Coq Require Import String Ascii List ZArith Reals Bool Permutation Lia Lra.
From Verif Require Import Base NumModel NumLemmas StrModel FmtModel RaModel RaSpec.
Import ListNotations.
Local Open Scope R_scope.

Section Cells.
Context {Point : Type}.
Implicit Type h : list (Z * list Point).
Lemma cell_get_in h id l : cell_get h id = Some l -> In (id, l) h.
Proof.
  induction h as [|[k l0] h IH]; cbn; [discriminate|]. destruct (Z.eqb_spec k id) as [->|N]; intros E; [injection E as ->; auto|auto].
Qed.
Lemma cell_get_some h id l : NoDup (map fst h) -> In (id, l) h -> cell_get h id = Some l.
Proof.
  induction h as [|[k l0] h IH]; cbn; intros N I; [destruct I|]. inversion N; subst. destruct I as [I|I].
  - injection I as -> ->. now rewrite Z.eqb_refl.
  - destruct (Z.eqb_spec k id) as [->|_]; [|auto]. exfalso. apply H1. apply (in_map fst) in I. exact I.
Qed.
Lemma cell_get_none h id : cell_get h id = None -> ~ In id (map fst h).
Proof.
  induction h as [|[k l0] h IH]; cbn; intros E I; [exact I|]. destruct (Z.eqb_spec k id) as [->|N]; [discriminate|]. destruct I; [auto|]. now apply IH.
Qed.
Lemma cell_get_absent h id : ~ In id (map fst h) -> cell_get h id = None.
Proof.
  induction h as [|[k l0] h IH]; cbn; intros I; [reflexivity|]. destruct (Z.eqb_spec k id) as [->|N]; [exfalso; auto|]. apply IH. auto.
Qed.
(** replacing one cell *)
Lemma cell_set_map h id l l' : NoDup (map fst h) -> cell_get h id = Some l ->
  cell_set h id l' = map (fun p => (fst p, if Z.eqb (fst p) id then l' else snd p)) h.
Proof.
  induction h as [|[k l0] h IH]; cbn; intros N E; [discriminate|]. inversion N; subst. destruct (Z.eqb_spec k id) as [->|D].
  - f_equal. clear - H1. induction h as [|[k l1] h IH]; [reflexivity|]. cbn in *. destruct (Z.eqb_spec k id) as [->|D]; [exfalso; auto|].
    f_equal. apply IH. auto.
  - f_equal. auto.
Qed.
Lemma cell_set_new h id l : cell_get h id = None -> cell_set h id l = h ++ [(id, l)].
Proof.
  induction h as [|[k l0] h IH]; cbn; intros E; [reflexivity|]. destruct (Z.eqb_spec k id); [discriminate|]. f_equal. auto.
Qed.
Lemma in_zone_cons h id zone : in_zone Point h (id :: zone) = match cell_get h id with Some l => l | None => [] end ++ in_zone Point h zone.
Proof. reflexivity. Qed.
End Cells.

Section Sprinkle.
Context {Point : Type} (dist : Point -> Point -> R) (pix : Point -> Z) (cone : Point -> R -> list Z) (radius : R).
Notation cells := (RaModel.cells Point).
Notation flat h := (concat (map snd h)).
Definition far (r : R) (pt : Point) : Point -> bool := fun e => Rltb r (dist pt e).

(** erasing *)
Definition erased (r : R) (pt : Point) (zone : list Z) (h : cells) : cells :=
  map (fun p => (fst p, if existsb (Z.eqb (fst p)) zone then filter (far r pt) (snd p) else snd p)) h.
Lemma erased_keys r pt zone h : map fst (erased r pt zone h) = map fst h.
Proof. unfold erased. rewrite map_map. reflexivity. Qed.
Lemma erase_in_spec diam pt h c id : NoDup (map fst h) -> c = Z.of_nat (length (flat h)) ->
  erase_in Point dist diam pt (h, c) id = (erased (diam / 2) pt [id] h, Z.of_nat (length (flat (erased (diam / 2) pt [id] h)))).
Proof.
  intros N C. unfold erase_in. cbn [fst snd]. destruct (cell_get h id) as [l|] eqn:G.
  - rewrite (cell_set_map _ _ l) by assumption.
    assert (E : map (fun p : Z * list Point => (fst p, if Z.eqb (fst p) id then filter (fun e => Rltb (diam / 2) (dist pt e)) l else snd p)) h = erased (diam / 2) pt [id] h).
    { unfold erased. apply map_ext_in. intros [k l0] I. cbn [fst snd existsb]. rewrite orb_false_r. destruct (Z.eqb_spec k id) as [->|D]; [|reflexivity].
      rewrite (cell_get_some _ _ l0) in G by assumption. injection G as ->. reflexivity. }
    rewrite E. f_equal. subst c. rewrite <- E. clear E. induction h as [|[k l0] h IH]; [discriminate|]. cbn [map concat fst snd] in *.
    inversion N; subst. cbn [cell_get] in G. rewrite !app_length. destruct (Z.eqb_spec k id) as [->|D].
    + injection G as ->. assert (X : map (fun p : Z * list Point => (fst p, if Z.eqb (fst p) id then filter (fun e => Rltb (diam / 2) (dist pt e)) l else snd p)) h = h).
      { rewrite <- map_id. apply map_ext_in. intros [k' l'] I. cbn. destruct (Z.eqb_spec k' id) as [->|D]; [|reflexivity]. exfalso. apply H1. apply (in_map fst) in I. exact I. }
      rewrite X. lia.
    + specialize (IH H2 G). lia.
  - assert (E : erased (diam / 2) pt [id] h = h).
    { unfold erased. rewrite <- map_id. apply map_ext_in. intros [k l] I. cbn. rewrite orb_false_r. destruct (Z.eqb_spec k id) as [->|D]; [|reflexivity].
      exfalso. apply (cell_get_none _ _ G). apply (in_map fst) in I. exact I. }
    rewrite E, C. reflexivity.
Qed.
Lemma filter_twice {A} (f : A -> bool) l : filter f (filter f l) = filter f l.
Proof. induction l as [|x l IH]; [reflexivity|]. cbn. destruct (f x) eqn:E; [|exact IH]. cbn. now rewrite E, IH. Qed.
Lemma erase_all diam pt zone h c : NoDup (map fst h) -> c = Z.of_nat (length (flat h)) ->
  fold_left (erase_in Point dist diam pt) zone (h, c) = (erased (diam / 2) pt zone h, Z.of_nat (length (flat (erased (diam / 2) pt zone h)))).
Proof.
  revert h c. induction zone as [|id zone IH]; intros h c N C.
  - cbn [fold_left]. assert (E : erased (diam / 2) pt [] h = h). { unfold erased. rewrite <- map_id. apply map_ext. now intros [k l]. } rewrite E, C. reflexivity.
  - cbn [fold_left]. rewrite erase_in_spec by assumption. rewrite IH by (try rewrite erased_keys; auto).
    assert (E : erased (diam / 2) pt zone (erased (diam / 2) pt [id] h) = erased (diam / 2) pt (id :: zone) h).
    { unfold erased. rewrite map_map. apply map_ext. intros [k l]. cbn [fst snd existsb]. rewrite orb_false_r. destruct (Z.eqb k id); cbn [orb]; [|reflexivity].
      destruct (existsb (Z.eqb k) zone); [now rewrite filter_twice|reflexivity]. }
    now rewrite E.
Qed.
(** with a search that finds all the cells concerned, everything near is erased *)
Lemma filter_all {A} (f : A -> bool) l : Forall (fun x => f x = true) l -> filter f l = l.
Proof. induction 1 as [|x l H _ IH]; [reflexivity|]. cbn. now rewrite H, IH. Qed.
Lemma flat_filter r pt h : flat (map (fun p : Z * list Point => (fst p, filter (far r pt) (snd p))) h) = filter (far r pt) (flat h).
Proof. induction h as [|[k l] h IH]; [reflexivity|]. cbn [map concat fst snd]. rewrite IH. symmetry. apply filter_app. Qed.
Lemma erased_covers r a pt h : search_covers dist pix cone radius -> r <= a * radius ->
  (forall id l, In (id, l) h -> Forall (fun p => pix p = id) l) ->
  erased r pt (cone pt a) h = map (fun p => (fst p, filter (far r pt) (snd p))) h.
Proof.
  intros (RP & _ & Cov) RA H. apply map_ext_in. intros [k l] I. cbn [fst snd]. destruct (existsb (Z.eqb k) (cone pt a)) eqn:E; [reflexivity|].
  rewrite filter_all; [reflexivity|]. apply Forall_forall. intros e Ie. unfold far. destruct (Rltb_spec r (dist pt e)) as [|G]; [reflexivity|]. exfalso.
  assert (In k (cone pt a)). { rewrite <- (proj1 (Forall_forall _ _) (H _ _ I) e Ie). apply Cov. lra. }
  rewrite <- not_true_iff_false in E. apply E. apply existsb_exists. exists k. split; [assumption|apply Z.eqb_refl].
Qed.

(** adding *)
Lemma add_point_holds pt h c pts : holds pix h pts -> holds pix (fst (add_point Point pix pt (h, c))) (pts ++ [pt]).
Proof.
  intros (N & P & Pe). unfold add_point. cbn [fst snd]. destruct (cell_get h (pix pt)) as [l|] eqn:G.
  - rewrite (cell_set_map _ _ l) by assumption. repeat split.
    + rewrite map_map. exact N.
    + intros id l' I. apply in_map_iff in I. destruct I as ([k l0] & E & I). cbn [fst snd] in E. injection E as <- <-. specialize (P _ _ I).
      destruct (Z.eqb_spec k (pix pt)) as [->|D]; [|exact P]. rewrite (cell_get_some _ _ l0) in G by assumption. injection G as ->.
      apply Forall_app. split; [exact P|now repeat constructor].
    + rewrite <- Pe. clear - N G. induction h as [|[k l0] h IH]; [discriminate|]. cbn [map concat fst snd cell_get] in *. inversion N; subst.
      destruct (Z.eqb_spec k (pix pt)) as [->|D].
      * injection G as ->. assert (X : map (fun p : Z * list Point => (fst p, if Z.eqb (fst p) (pix pt) then l ++ [pt] else snd p)) h = h).
        { rewrite <- map_id. apply map_ext_in. intros [k' l'] I. cbn. destruct (Z.eqb_spec k' (pix pt)) as [->|D]; [|reflexivity]. exfalso. apply H1. apply (in_map fst) in I. exact I. }
        rewrite X. rewrite <- !app_assoc. apply Permutation_app_head. apply Permutation_app_comm.
      * rewrite <- app_assoc. apply Permutation_app_head. auto.
  - rewrite cell_set_new by assumption. repeat split.
    + rewrite map_app. cbn. apply (Permutation_NoDup (Permutation_cons_append _ _)). constructor; [exact (cell_get_none _ _ G)|exact N].
    + intros id l I. apply in_app_or in I. destruct I as [I|[I|[]]]; [now apply P|]. injection I as <- <-. now repeat constructor.
    + rewrite map_app, concat_app. cbn. rewrite Pe. reflexivity.
Qed.

(** what is left *)
Lemma survivors_snoc r l pt : survivors dist r (l ++ [pt]) = filter (far r pt) (survivors dist r l) ++ [pt].
Proof.
  induction l as [|e l IH]; [reflexivity|]. cbn [app survivors]. rewrite forallb_app. cbn [forallb]. rewrite andb_true_r, IH.
  destruct (forallb (fun p => Rltb r (dist p e)) l); cbn [andb filter]; [|reflexivity]. change (Rltb r (dist pt e)) with (far r pt e). destruct (far r pt e); reflexivity.
Qed.
Lemma survivors_app r l m : exists l', survivors dist r (l ++ m) = l' ++ survivors dist r m.
Proof.
  induction l as [|e l [l' IH]]; [now exists []|]. cbn [app survivors]. rewrite IH. destruct (forallb _ _); [now exists (e :: l')|now exists l'].
Qed.
Lemma survivors_apart r l : ForallOrdPairs (fun earlier later => r < dist later earlier) (survivors dist r l).
Proof.
  induction l as [|e l IH]; [constructor|]. cbn [survivors]. destruct (forallb _ l) eqn:F; [|exact IH]. constructor; [|exact IH].
  apply Forall_forall. intros p I. rewrite forallb_forall in F. assert (In p l) as Ip.
  { clear - I. revert I. induction l as [|x l IH]; [auto|]. cbn. destruct (forallb _ l); [intros [->|I]; auto|auto]. }
  specialize (F p Ip). destruct (Rltb_spec r (dist p e)); [assumption|discriminate].
Qed.
Lemma survivors_in r l e : In e (survivors dist r l) -> In e l.
Proof. induction l as [|x l IH]; [auto|]. cbn. destruct (forallb _ l); [intros [->|I]; auto|auto]. Qed.
Lemma survivors_of_apart r l : ForallOrdPairs (fun earlier later => r < dist later earlier) l -> survivors dist r l = l.
Proof.
  induction 1 as [|e l H _ IH]; [reflexivity|]. cbn. rewrite IH. assert (E : forallb (fun p => Rltb r (dist p e)) l = true).
  { apply forallb_forall. intros p I. destruct (Rltb_spec r (dist p e)) as [|N]; [reflexivity|]. exfalso. apply N. exact (proj1 (Forall_forall _ _) H p I). }
  now rewrite E.
Qed.

(** one point *)
Definition state_of (r : R) (s : cells * Z) (drawn : list Point) : Prop :=
  holds pix (fst s) (survivors dist r drawn) /\ snd s = Z.of_nat (length (survivors dist r drawn)).
Lemma place_state diam s drawn pt : search_covers dist pix cone radius -> 0 <= diam ->
  state_of (diam / 2) s drawn -> state_of (diam / 2) (place Point dist pix cone radius diam s pt) (drawn ++ [pt]).
Proof.
  intros SC D [H C]. destruct s as [h c]. cbn [fst snd] in *. unfold place. destruct H as (N & P & Pe).
  assert (RP : 0 < radius) by apply SC.
  rewrite erase_all; [|exact N|rewrite C; f_equal; symmetry; now apply Permutation_length].
  rewrite erased_covers; [|exact SC|replace (diam / radius * radius) with diam by (field; lra); lra|exact P].
  set (h' := map _ h). assert (H' : holds pix h' (filter (far (diam / 2) pt) (survivors dist (diam / 2) drawn))).
  { repeat split.
    - unfold h'. rewrite map_map. exact N.
    - intros id l I. unfold h' in I. apply in_map_iff in I. destruct I as ([k l0] & E & I). cbn [fst snd] in E. injection E as <- <-.
      apply Forall_forall. intros e Ie. apply filter_In in Ie. exact (proj1 (Forall_forall _ _) (P _ _ I) e (proj1 Ie)).
    - unfold h'. rewrite flat_filter. clear - Pe. induction Pe as [|x l l' _ IH|x y l|l l' l'' _ I1 _ I2]; cbn; [constructor| | |etransitivity; eassumption].
      + destruct (far _ _ x); [now constructor|assumption].
      + destruct (far (diam / 2) pt x), (far (diam / 2) pt y); try reflexivity. constructor. }
  split.
  - rewrite survivors_snoc. now apply add_point_holds.
  - cbn [snd add_point]. rewrite survivors_snoc, app_length. cbn [length]. destruct H' as (_ & _ & Pe'). rewrite (Permutation_length Pe'). lia.
Qed.
Lemma filter_length_le' {A} (f : A -> bool) l : (length (filter f l) <= length l)%nat.
Proof. induction l as [|x l IH]; [auto|]. cbn. destruct (f x); cbn; lia. Qed.
Lemma survivors_snoc_length r l pt : (length (survivors dist r (l ++ [pt])) <= S (length (survivors dist r l)))%nat.
Proof. rewrite survivors_snoc, app_length. cbn [length]. pose proof (filter_length_le' (far r pt) (survivors dist r l)). lia. Qed.

(** the points of a batch *)
Section Fill.
Variable inside : Point -> bool.
Definition below (n : Z) (r : R) (drawn : list Point) : Prop := forall a b, drawn = a ++ b -> (Z.of_nat (length (survivors dist r a)) < n)%Z.
Definition below_but_last (n : Z) (r : R) (drawn : list Point) : Prop := forall a b, b <> [] -> drawn = a ++ b -> (Z.of_nat (length (survivors dist r a)) < n)%Z.
Lemma app_snoc_inv {A} (a b l : list A) x : l ++ [x] = a ++ b -> (b = [] /\ a = l ++ [x]) \/ exists b', b = b' ++ [x] /\ l = a ++ b'.
Proof.
  destruct b as [|y b] using rev_ind; intros E; [left; rewrite app_nil_r in E; auto|]. clear IHb. right. exists b. rewrite app_assoc in E. apply app_inj_tail in E. destruct E as [-> ->]. auto.
Qed.
Lemma below_snoc n r l pt : below n r l -> (Z.of_nat (length (survivors dist r (l ++ [pt]))) < n)%Z -> below n r (l ++ [pt]).
Proof. intros B H a b E. apply app_snoc_inv in E. destruct E as [[-> ->]|(b' & -> & ->)]; [exact H|]. exact (B a b' eq_refl). Qed.
Lemma below_last_snoc n r l pt : below n r l -> below_but_last n r (l ++ [pt]).
Proof. intros B a b NE E. apply app_snoc_inv in E. destruct E as [[-> ->]|(b' & -> & ->)]; [now destruct NE|]. exact (B a b' eq_refl). Qed.
Lemma place_all_state n diam s l drawn : search_covers dist pix cone radius -> 0 <= diam ->
  state_of (diam / 2) s drawn -> below n (diam / 2) drawn ->
  exists raw rest, l = raw ++ rest /\ state_of (diam / 2) (place_all Point dist inside pix cone radius n diam s l) (drawn ++ filter inside raw) /\
    ((rest = [] /\ below n (diam / 2) (drawn ++ filter inside raw)) \/
     (below_but_last n (diam / 2) (drawn ++ filter inside raw) /\ snd (place_all Point dist inside pix cone radius n diam s l) = n)).
Proof.
  intros SC D. revert s drawn. induction l as [|pt l IH]; intros s drawn St B.
  - exists [], []. cbn [filter place_all app]. rewrite app_nil_r. auto.
  - cbn [place_all]. destruct (inside pt) eqn:I.
    + pose proof (place_state diam s drawn pt SC D St) as St'. set (s' := place Point dist pix cone radius diam s pt) in *.
      assert (Le : (snd s' <= snd s + 1)%Z). { pose proof (proj2 St') as C1. pose proof (proj2 St) as C0. pose proof (survivors_snoc_length (diam / 2) drawn pt). lia. }
      assert (Lt : (snd s < n)%Z). { rewrite (proj2 St). apply (B drawn []). now rewrite app_nil_r. }
      destruct (Z.leb_spec n (snd s')) as [G|G].
      * exists [pt], l. cbn [filter app]. rewrite I. split; [reflexivity|]. split; [exact St'|]. right. split; [now apply below_last_snoc|lia].
      * assert (B' : below n (diam / 2) (drawn ++ [pt])). { apply below_snoc; [exact B|]. pose proof (proj2 St') as C1. lia. }
        destruct (IH s' (drawn ++ [pt]) St' B') as (raw & rest & -> & S1 & S2). exists (pt :: raw), rest. cbn [filter]. rewrite I.
        replace (drawn ++ pt :: filter inside raw) with ((drawn ++ [pt]) ++ filter inside raw) by now rewrite <- app_assoc. auto.
    + destruct (IH s drawn St B) as (raw & rest & -> & S1 & S2). exists (pt :: raw), rest. cbn [filter]. rewrite I. auto.
Qed.
Lemma combine_snoc {A B} (a : list A) (b : list B) x y : length a = length b -> combine (a ++ [x]) (b ++ [y]) = combine a b ++ [(x, y)].
Proof. revert b. induction a as [|u a IH]; intros [|v b] E; try discriminate; [reflexivity|]. cbn in *. f_equal. apply IH. lia. Qed.
Lemma stream_snoc (batch : nat -> Z -> list Point) zs z : stream batch (zs ++ [z]) = stream batch zs ++ batch (length zs) z.
Proof.
  unfold stream. rewrite app_length. cbn [length]. rewrite Nat.add_1_r, seq_S. rewrite combine_snoc by apply seq_length. rewrite map_app, concat_app. cbn. now rewrite app_nil_r.
Qed.
Lemma fill_state fuel n diam rate batch : search_covers dist pix cone radius -> 0 <= diam -> (0 < n)%Z ->
  forall zs s s', state_of (diam / 2) s (filter inside (stream batch zs)) -> below n (diam / 2) (filter inside (stream batch zs)) ->
  fill Point dist inside pix cone radius fuel (length zs) n diam rate batch s = Some s' ->
  exists zs' raw rest, stream batch zs' = raw ++ rest /\ state_of (diam / 2) s' (filter inside raw) /\ snd s' = n /\ below_but_last n (diam / 2) (filter inside raw).
Proof.
  intros SC D NP. induction fuel as [|fuel IH]; intros zs s s' St B E; [discriminate|]. cbn [fill] in E. assert (Lt : (snd s < n)%Z).
  { rewrite (proj2 St). apply (B _ []). now rewrite app_nil_r. }
  destruct (Z.ltb_spec (snd s) n) as [_|G]; [|lia]. set (z := (_ + 10)%Z) in E.
  destruct (place_all_state n diam s (batch (length zs) z) _ SC D St B) as (raw & rest & El & St' & [[-> B']|[B' Cn]]).
  - rewrite app_nil_r in El. apply (IH (zs ++ [z]) (place_all Point dist inside pix cone radius n diam s (batch (length zs) z))).
    + rewrite stream_snoc, filter_app. subst raw. exact St'.
    + rewrite stream_snoc, filter_app. subst raw. exact B'.
    + rewrite app_length. cbn [length]. rewrite Nat.add_1_r. exact E.
  - destruct fuel as [|fuel]; [discriminate|]. cbn [fill] in E. rewrite Cn, Z.ltb_irrefl in E. injection E as <-.
    exists (zs ++ [z]), (stream batch zs ++ raw), rest. rewrite stream_snoc, filter_app. split; [rewrite El; apply app_assoc|]. split; [exact St'|]. split; [exact Cn|exact B'].
Qed.
Lemma sprinkle_ok fuel n diam rate batch pts ids h : search_covers dist pix cone radius -> 0 <= diam ->
  sprinkle_discs Point dist inside pix cone radius fuel n diam rate batch = Some (Ok (pts, ids, h)) ->
  (0 < n)%Z /\ ids = map pix pts /\ pts = flat h /\
  exists zs raw rest, stream batch zs = raw ++ rest /\ holds pix h (survivors dist (diam / 2) (filter inside raw)) /\
    length pts = Z.to_nat n /\ below_but_last n (diam / 2) (filter inside raw).
Proof.
  intros SC D E. unfold sprinkle_discs in E. destruct (fill _ _ _ _ _ _ fuel 0 n diam rate batch ([], 0%Z)) as [[h0 c]|] eqn:F; [|discriminate].
  set (items := flat_map _ h0) in E.
  assert (I1 : map fst items = flat h0). { unfold items. clear. induction h0 as [|[k l] h IH]; [reflexivity|]. cbn. rewrite map_app, IH, map_map. cbn. now rewrite map_id. }
  assert (NP : (0 < n)%Z).
  { destruct (Z.ltb_spec 0 n) as [|G]; [assumption|]. exfalso. destruct fuel as [|fuel]; [discriminate|]. cbn [fill snd] in F.
    destruct (Z.ltb_spec 0 n); [lia|]. injection F as <- <-. discriminate. }
  destruct (fill_state fuel n diam rate batch SC D NP [] ([], 0%Z) (h0, c)) as (zs & raw & rest & Es & [Ho Ho2] & Cn & B); [| |exact F|].
  { split; [|reflexivity]. repeat split; cbn; [constructor|now intros|reflexivity]. }
  { intros a b Eab. symmetry in Eab. apply app_eq_nil in Eab. destruct Eab as [-> _]. cbn. exact NP. }
  cbn [fst snd] in *. assert (E' : (map fst items, map snd items, h0) = (pts, ids, h)). { destruct items; [discriminate|]. now injection E as <- <- <-. }
  clear E. injection E' as E1 E2 <-. rewrite I1 in E1. split; [exact NP|]. split; [|split; [now symmetry|]].
  - rewrite <- E1, <- E2. unfold items. clear - Ho. destruct Ho as (_ & P & _). induction h0 as [|[k l] h IH]; [reflexivity|]. cbn [flat_map map concat snd fst].
    rewrite !map_app, map_map. cbn [snd]. rewrite IH by (intros; apply P; now right). f_equal. specialize (P k l (or_introl eq_refl)). induction P as [|x l H _ IHl]; [reflexivity|]. cbn. now rewrite H, IHl.
  - exists zs, raw, rest. split; [exact Es|]. split; [exact Ho|]. split; [|exact B]. destruct Ho as (_ & _ & Pe). rewrite <- E1, (Permutation_length Pe). lia.
Qed.
(** no points asked for *)
Lemma sprinkle_none fuel n diam rate batch : (n <= 0)%Z ->
  sprinkle_discs Point dist inside pix cone radius (S fuel) n diam rate batch = Some (Err ValueError).
Proof. intros N. unfold sprinkle_discs. cbn [fill snd]. destruct (Z.ltb_spec 0 n); [lia|]. reflexivity. Qed.
(** ending *)
Lemma fill_more fuel i n diam rate batch s s' : fill Point dist inside pix cone radius fuel i n diam rate batch s = Some s' ->
  fill Point dist inside pix cone radius (S fuel) i n diam rate batch s = Some s'.
Proof.
  revert i s. induction fuel as [|fuel IH]; intros i s E; [discriminate|]. cbn [fill] in E. change (fill Point dist inside pix cone radius (S (S fuel)) i n diam rate batch s) with
    (if Z.ltb (snd s) n then fill Point dist inside pix cone radius (S fuel) (S i) n diam rate batch (place_all Point dist inside pix cone radius n diam s (batch i (Rfloor (12 / 10 * IZR (n - snd s) / rate) + 10)%Z)) else Some s).
  destruct (Z.ltb (snd s) n); [|exact E]. apply IH. exact E.
Qed.
Lemma fill_ends n diam rate batch : search_covers dist pix cone radius -> 0 <= diam -> (0 < n)%Z -> 
  forall m zs s, state_of (diam / 2) s (filter inside (stream batch zs)) -> below n (diam / 2) (filter inside (stream batch zs)) ->
  (forall z, exists a l b, filter inside (batch (length zs + m)%nat z) = a ++ l ++ b /\ Z.of_nat (length l) = n /\ ForallOrdPairs (fun earlier later => diam / 2 < dist later earlier) l) ->
  exists fuel s', fill Point dist inside pix cone radius fuel (length zs) n diam rate batch s = Some s'.
Proof.
  intros SC D NP. induction m as [|m IH]; intros zs s St B H.
  - exists 2%nat. cbn [fill]. assert (Lt : (snd s < n)%Z). { rewrite (proj2 St). apply (B _ []). now rewrite app_nil_r. }
    destruct (Z.ltb_spec (snd s) n) as [_|G]; [|lia]. set (z := (_ + 10)%Z).
    destruct (place_all_state n diam s (batch (length zs) z) _ SC D St B) as (raw & rest & El & St' & [[-> B']|[B' Cn]]).
    + exfalso. rewrite app_nil_r in El. destruct (H z) as (a & l & b & Ea & Ll & Ap). rewrite Nat.add_0_r, El in Ea. rewrite Ea in B'.
      specialize (B' (filter inside (stream batch zs) ++ a ++ l) b). rewrite <- !app_assoc in B'. specialize (B' eq_refl).
      rewrite app_assoc in B'. destruct (survivors_app (diam / 2) (filter inside (stream batch zs) ++ a) l) as [l' E']. rewrite E', survivors_of_apart, app_length in B' by exact Ap. lia.
    + rewrite Cn, Z.ltb_irrefl. eauto.
  - assert (Lt : (snd s < n)%Z). { rewrite (proj2 St). apply (B _ []). now rewrite app_nil_r. }
    set (z := (Rfloor (12 / 10 * IZR (n - snd s) / rate) + 10)%Z). set (s1 := place_all Point dist inside pix cone radius n diam s (batch (length zs) z)).
    destruct (place_all_state n diam s (batch (length zs) z) _ SC D St B) as (raw & rest & El & St' & [[-> B']|[B' Cn]]).
    + rewrite app_nil_r in El. destruct (IH (zs ++ [z]) s1) as (fuel & s' & F).
      * rewrite stream_snoc, filter_app. subst raw. exact St'.
      * rewrite stream_snoc, filter_app. subst raw. exact B'.
      * intros z'. rewrite app_length. cbn [length]. replace (length zs + 1 + m)%nat with (length zs + S m)%nat by lia. apply H.
      * exists (S fuel), s'. cbn [fill]. destruct (Z.ltb_spec (snd s) n); [|lia]. fold z. fold s1. rewrite app_length in F. cbn [length] in F. rewrite Nat.add_1_r in F. exact F.
    + exists 2%nat. cbn [fill]. destruct (Z.ltb_spec (snd s) n); [|lia]. fold z. rewrite Cn, Z.ltb_irrefl. eauto.
Qed.
Lemma sprinkle_err fuel n diam rate batch e : search_covers dist pix cone radius -> 0 <= diam -> (0 < n)%Z ->
  sprinkle_discs Point dist inside pix cone radius fuel n diam rate batch <> Some (Err e).
Proof.
  intros SC D NP E. unfold sprinkle_discs in E. destruct (fill _ _ _ _ _ _ fuel 0 n diam rate batch ([], 0%Z)) as [[h0 c]|] eqn:F; [|discriminate].
  destruct (fill_state fuel n diam rate batch SC D NP [] ([], 0%Z) (h0, c)) as (zs & raw & rest & Es & [Ho Ho2] & Cn & B); [| |exact F|].
  { split; [|reflexivity]. repeat split; cbn; [constructor|now intros|reflexivity]. }
  { intros a b Eab. symmetry in Eab. apply app_eq_nil in Eab. destruct Eab as [-> _]. cbn. exact NP. }
  cbn [fst snd] in *. destruct Ho as (_ & _ & Pe). set (items := flat_map _ h0) in E. destruct items eqn:I; [|discriminate].
  assert (I1 : map fst items = flat h0). { unfold items. clear. induction h0 as [|[k l] h IH]; [reflexivity|]. cbn. rewrite map_app, IH, map_map. cbn. now rewrite map_id. }
  rewrite I in I1. cbn in I1. rewrite <- I1 in Pe. apply Permutation_nil in Pe. rewrite Pe in Ho2. cbn in Ho2. lia.
Qed.
Lemma sprinkle_ends n diam rate batch m : search_covers dist pix cone radius -> 0 <= diam -> (0 < n)%Z ->
  (forall z, exists a l b, filter inside (batch m z) = a ++ l ++ b /\ Z.of_nat (length l) = n /\ ForallOrdPairs (fun earlier later => diam / 2 < dist later earlier) l) ->
  exists fuel pts ids h, sprinkle_discs Point dist inside pix cone radius fuel n diam rate batch = Some (Ok (pts, ids, h)).
Proof.
  intros SC D NP H. destruct (fill_ends n diam rate batch SC D NP m [] ([], 0%Z)) as (fuel & s' & F).
  { split; [|reflexivity]. repeat split; cbn; [constructor|now intros|reflexivity]. }
  { intros a b Eab. symmetry in Eab. apply app_eq_nil in Eab. destruct Eab as [-> _]. cbn. exact NP. }
  { exact H. }
  exists fuel. cbn [length] in F. destruct (sprinkle_discs Point dist inside pix cone radius fuel n diam rate batch) as [[[[pts ids] h]|e]|] eqn:E.
  - eauto.
  - exfalso. exact (sprinkle_err _ _ _ _ _ _ SC D NP E).
  - unfold sprinkle_discs in E. rewrite F in E. destruct s' as [h c]. destruct (flat_map _ h); discriminate.
Qed.
End Fill.
End Sprinkle.
Lemma pairs_permutation {A} (P : A -> A -> Prop) l m : (forall x y, P x y -> P y x) -> Permutation l m -> ForallOrdPairs P l -> ForallOrdPairs P m.
Proof.
  intros Sy. induction 1 as [|x l m Pe IH|x y l|l m n _ I1 _ I2]; intros H; auto.
  - inversion H; subst. constructor; [|auto]. now rewrite <- Pe.
  - inversion H as [|? ? F H']; subst. inversion H' as [|? ? F' H'']; subst. inversion F; subst. constructor; [constructor; auto|]. constructor; auto.
Qed.
Lemma pairs_impl {A} (P Q : A -> A -> Prop) l : (forall x y, P x y -> Q x y) -> ForallOrdPairs P l -> ForallOrdPairs Q l.
Proof. intros H. induction 1; constructor; auto. eapply Forall_impl; [|eassumption]. auto. Qed.
