(** The rings that readSCCfile finds in the text that writeSCCfile writes. *)
From Coq Require Import String Ascii List ZArith Reals Bool Lia Lra Sorted.
From Verif Require Import Base NumModel NumLemmas BinModel StrModel StrSpec StrProofs StrProofs2 CliModel CliProofs FmtModel FmtSpec FmtProofs
  TsModel TsSpec TsProofs TsProofs2 TsProofs5 IoModel IoSpec IoProofs IoProofs2 IoProofs3 IoProofs4 SccModel SccProofs SccProofs2.
Import ListNotations.
Local Open Scope R_scope.

(** ** Numbers *)
Definition stored (x : R) : R := match py_float (fmt_f 15 x) with Ok y => y | Err _ => 0 end.
Lemma stored_spec x : py_float (fmt_f 15 x) = Ok (stored x) /\ rounded_to (/ 10 ^ 15) x (stored x).
Proof.
  destruct (fmt_f_spec 15 x) as (y & N & RT). pose proof (py_float_decimal _ _ (numeral_decimal _ _ N)) as E. unfold stored. rewrite E. auto.
Qed.
Lemma stored_float x : float_of (TStr (fmt_f 15 x)) = Ok (stored x).
Proof. apply stored_spec. Qed.
Definition read_g (k : nat) (x : R) : R := match py_float (fmt_g k x) with Ok y => y | Err _ => 0 end.
Lemma read_g_spec k x : py_float (fmt_g k x) = Ok (read_g k x) /\ significant (Nat.max k 1) x (read_g k x).
Proof.
  destruct (fmt_g_decimal k x) as (y & S & D). pose proof (py_float_decimal _ _ D) as E. unfold read_g. rewrite E. auto.
Qed.
Lemma digits_strip s : all_digits s -> strip is_space s = s.
Proof. intros H. apply strip_id; apply no_space_stops, digits_no_space; exact H. Qed.
Lemma int_of_str z : (0 <= z)%Z -> int_of (TStr (int_str z)) = Ok z.
Proof.
  intros H. unfold int_str. destruct (Z.ltb_spec z 0); [lia|]. destruct (dec_str_spec z H) as (A & N & V). unfold int_of. rewrite (digits_strip _ A).
  assert (P : py_sign (dec_str z) = (false, dec_str z)).
  { pose proof (digits_sign_free (dec_str z) [] A N) as SF. rewrite app_nil_r in SF. apply (py_sign_text [] false); [left; auto|exact SF]. }
  rewrite P. pose proof (span_all is_digit (dec_str z) [] A I) as SP. rewrite app_nil_r in SP. rewrite SP.
  destruct (dec_str z) as [|c s] eqn:E; [congruence|]. rewrite nat_text_value, V. reflexivity.
Qed.

(** ** Numbered rings *)
Definition tag_word (int : bool) : str := if int then L "int" else L "ext".
Fixpoint numbered (i : Z) (l : list (bool * ring)) : list (Z * str * (R * R)) :=
  match l with
  | [] => []
  | (int, r) :: rest => map (fun p => (i, tag_word int, p)) r ++ numbered (i + 1) rest
  end.
Definition flagged (s : list ring) : list (bool * ring) :=
  match s with [] => [] | r :: rest => (false, r) :: map (pair true) rest end.
Definition all_rings (shapes : list (list ring)) : list (bool * ring) := flat_map flagged shapes.
Lemma numbered_app i a b : numbered i (a ++ b) = numbered i a ++ numbered (i + Z.of_nat (length a)) b.
Proof.
  revert i. induction a as [|[int r] a IH]; intros i; [cbn [app length numbered]; f_equal; lia|]. cbn [app numbered length].
  rewrite IH, <- app_assoc. do 3 f_equal. lia.
Qed.
Lemma part_numbered : forall rest i, part_vertices i false rest = numbered i (map (pair true) rest).
Proof. induction rest as [|r rest IH]; intros i; [reflexivity|]. cbn [part_vertices map numbered tag_word]. now rewrite IH. Qed.
Lemma shape_numbered shapes : forall i, shape_vertices i shapes = numbered i (all_rings shapes).
Proof.
  induction shapes as [|s shapes IH]; intros i; [reflexivity|]. cbn [shape_vertices all_rings flat_map]. fold (all_rings shapes). rewrite numbered_app, IH.
  assert (E : length (flagged s) = length s) by (destruct s; cbn; [reflexivity|now rewrite map_length]). rewrite E. f_equal.
  destruct s as [|r rest]; [reflexivity|]. cbn [part_vertices flagged numbered tag_word]. now rewrite part_numbered.
Qed.
Lemma numbered_row_word l : forall i, Forall (fun it => row_word (snd (fst it))) (numbered i l).
Proof.
  induction l as [|[int r] l IH]; intros i; [constructor|]. cbn [numbered]. apply Forall_app. split; [|apply IH].
  rewrite Forall_map. apply Forall_forall. intros p _. cbn [fst snd]. destruct int; (split; [discriminate|repeat constructor]).
Qed.
(** numbers and tags *)
Fixpoint zlist (i : Z) (l : list (bool * ring)) : list (Z * bool) :=
  match l with [] => [] | (int, _) :: rest => (i, int) :: zlist (i + 1) rest end.
Lemma zlist_ge l : forall i p, In p (zlist i l) -> (i <= fst p)%Z.
Proof. induction l as [|[int r] l IH]; intros i p []; [subst; cbn; lia|]. apply IH in H. lia. Qed.
Lemma tag_eqb_spec p q : reflect (p = q) (tag_eqb p q).
Proof.
  unfold tag_eqb. destruct p as [a b], q as [c d]. cbn [fst snd]. destruct (Z.eqb_spec a c), (Bool.eqb_spec b d); cbn; constructor; congruence.
Qed.
Lemma unique_same x k rest : ~ In x rest -> unique (repeat x (S k) ++ rest) = x :: unique rest.
Proof.
  intros N. induction k as [|k IH].
  - cbn [repeat app unique]. assert (E : existsb (tag_eqb x) rest = false).
    { destruct (existsb (tag_eqb x) rest) eqn:E; [|reflexivity]. apply existsb_exists in E as (y & I & Q). destruct (tag_eqb_spec x y); [subst; contradiction|discriminate]. }
    now rewrite E.
  - change (repeat x (S (S k)) ++ rest) with (x :: (repeat x (S k) ++ rest)). cbn [unique].
    assert (E : existsb (tag_eqb x) (repeat x (S k) ++ rest) = true).
    { apply existsb_exists. exists x. split; [now left|]. now destruct (tag_eqb_spec x x). }
    rewrite E. exact IH.
Qed.
Lemma tags_unique l : forall i, Forall (fun p => snd p <> []) l ->
  unique (map (fun it => (fst (fst it), seqb (snd (fst it)) (L "int"))) (numbered i l)) = zlist i l.
Proof.
  induction l as [|[int r] l IH]; intros i F; [reflexivity|]. inversion F as [|? ? NR F']; subst. cbn [snd] in NR. cbn [numbered zlist].
  rewrite map_app, map_map. cbn [fst snd].
  assert (E : map (fun x : R * R => (i, seqb (tag_word int) (L "int"))) r = repeat (i, int) (length r)).
  { destruct int; cbn; (clear; induction r; [reflexivity|cbn; now f_equal]). }
  rewrite E. destruct (length r) as [|k] eqn:LR; [destruct r; [congruence|discriminate]|].
  rewrite unique_same; [now rewrite IH|]. intros K. apply in_map_iff in K as ([[j t] p] & Q & I). cbn [fst snd] in Q. injection Q as -> _.
  clear - I. assert (G : forall j' l i', In (j', t, p) (numbered i' l) -> (i' <= j')%Z).
  { clear. intros j' l. induction l as [|[b r] l IH]; intros i' H; [destruct H|]. cbn [numbered] in H. apply in_app_or in H as [H|H].
    - apply in_map_iff in H as (q & E & _). injection E. intros. lia.
    - apply IH in H. lia. }
  apply G in I. lia.
Qed.
Lemma sort_fixed {A} (leb : A -> A -> bool) l : StronglySorted (fun a b => leb a b = true) l -> sort leb l = l.
Proof.
  induction 1 as [|x l S IH F]; [reflexivity|]. cbn [sort]. rewrite IH. destruct l as [|y l]; [reflexivity|]. inversion F; subst. cbn [insert]. now rewrite H1.
Qed.
Lemma zlist_sorted l : forall i, StronglySorted (fun a b => tag_leb a b = true) (zlist i l).
Proof.
  induction l as [|[int r] l IH]; intros i; [constructor|]. cbn [zlist]. constructor; [apply IH|]. apply Forall_forall. intros p I. apply zlist_ge in I.
  unfold tag_leb. cbn [fst]. destruct (Z.ltb_spec i (fst p)); [reflexivity|lia].
Qed.
(** the vertices of one number *)
Lemma numbered_pick l : forall i k int r, nth_error l k = Some (int, r) ->
  filter (fun it => Z.eqb (fst (fst it)) (i + Z.of_nat k)) (numbered i l) = map (fun p => (i + Z.of_nat k, tag_word int, p))%Z r.
Proof.
  assert (N : forall l i j, (j < i)%Z -> filter (fun it : Z * str * (R * R) => Z.eqb (fst (fst it)) j) (numbered i l) = []).
  { clear. intros l. induction l as [|[b r] l IH]; intros i j H; [reflexivity|]. cbn [numbered]. rewrite filter_app, IH by lia. rewrite app_nil_r.
    clear - H. induction r as [|p r IHr]; [reflexivity|]. cbn [map filter fst]. destruct (Z.eqb_spec i j); [lia|exact IHr]. }
  induction l as [|[b r'] l IH]; intros i k int r E; [destruct k; discriminate|]. cbn [numbered]. rewrite filter_app. destruct k as [|k].
  - injection E as -> ->. rewrite N by lia. rewrite app_nil_r. replace (i + Z.of_nat 0)%Z with i by lia.
    clear. induction r as [|p r IHr]; [reflexivity|]. cbn [map filter fst]. rewrite Z.eqb_refl. now f_equal.
  - cbn [nth_error] in E. specialize (IH (i + 1)%Z k int r E). replace (i + 1 + Z.of_nat k)%Z with (i + Z.of_nat (S k))%Z in IH by lia. rewrite IH.
    match goal with |- ?X ++ _ = _ => assert (Z0 : X = []) end.
    { clear. induction r' as [|p r' IHr]; [reflexivity|]. cbn [map filter fst]. destruct (Z.eqb_spec i (i + Z.of_nat (S k))); [lia|exact IHr]. }
    now rewrite Z0.
Qed.
Definition store_ring (r : ring) : ring := drop_repeats (map (fun p => (stored (fst p), stored (snd p))) r).
Lemma filter_map {A B} (f : A -> B) p l : filter p (map f l) = map f (filter (fun x => p (f x)) l).
Proof. induction l as [|x l IH]; [reflexivity|]. cbn [map filter]. destruct (p (f x)); [cbn [map]; now f_equal|exact IH]. Qed.
Lemma combine_maps {A B C} (f : A -> B) (g : A -> C) l : combine (map f l) (map g l) = map (fun x => (f x, g x)) l.
Proof. induction l as [|x l IH]; [reflexivity|]. cbn [map combine]. now f_equal. Qed.
Lemma mapM_ok {A B} (f : A -> res B) (g : A -> B) l : (forall x, In x l -> f x = Ok (g x)) -> mapM f l = Ok (map g l).
Proof.
  induction l as [|x l IH]; intros H; [reflexivity|]. cbn [mapM map]. rewrite (H x) by now left. cbn [bind]. rewrite IH by (intros; apply H; now right). reflexivity.
Qed.
Lemma ring_number_numbered l k int r : nth_error l k = Some (int, r) ->
  ring_number (map (fun it => TStr (fmt_f 15 (fst (snd it)))) (numbered 1 l)) (map (fun it => TStr (fmt_f 15 (snd (snd it)))) (numbered 1 l))
    (map (fun it => fst (fst it)) (numbered 1 l)) (1 + Z.of_nat k) = Ok (store_ring r).
Proof.
  intros E. unfold ring_number. rewrite !combine_maps, filter_map. cbn [snd]. rewrite (numbered_pick l 1 k int r E), !mapM_map. cbn [fst snd].
  rewrite (mapM_ok _ (fun p : R * R => (stored (fst p), stored (snd p)))); [reflexivity|]. intros p _. rewrite !stored_float. reflexivity.
Qed.
(** the polygons made of the rings *)
Fixpoint assembled (within : ring -> ring -> bool) (l : list (bool * ring)) : list (ring * list ring) :=
  match l with
  | [] => []
  | (int, r) :: rest => (if int then [] else [(r, filter (fun q => within q r) (map snd rest))]) ++ assembled within rest
  end.
Definition rings_dict (i : Z) (l : list (bool * ring)) : list (Z * ring) := map (fun p => (fst (fst p), snd (snd p))) (combine (zlist i l) l).
Lemma rings_get l : forall i k int r, nth_error l k = Some (int, r) -> ring_get (rings_dict i l) (i + Z.of_nat k) = Ok r.
Proof.
  unfold ring_get, rings_dict. induction l as [|[b r'] l IH]; intros i k int r E; [destruct k; discriminate|]. cbn [zlist combine map find fst snd]. destruct k as [|k].
  - injection E as -> ->. replace (i + Z.of_nat 0)%Z with i by lia. now rewrite Z.eqb_refl.
  - destruct (Z.eqb_spec i (i + Z.of_nat (S k))); [lia|]. cbn [nth_error] in E. replace (i + Z.of_nat (S k))%Z with (i + 1 + Z.of_nat k)%Z by lia. eapply IH. exact E.
Qed.
Lemma zlist_nth l : forall i k, nth_error (zlist i l) k = match nth_error l k with Some (int, _) => Some ((i + Z.of_nat k)%Z, int) | None => None end.
Proof.
  induction l as [|[b r] l IH]; intros i k; [destruct k; reflexivity|]. destruct k as [|k]; cbn [zlist nth_error].
  - do 2 f_equal. lia.
  - rewrite IH. destruct (nth_error l k) as [[b' r']|]; [|reflexivity]. do 2 f_equal. lia.
Qed.
Lemma zlist_skip l1 l2 i : skipn (length l1) (zlist i (l1 ++ l2)) = zlist (i + Z.of_nat (length l1)) l2.
Proof.
  revert i. induction l1 as [|[b r] l1 IH]; intros i; [cbn; f_equal; lia|]. cbn [length app zlist skipn]. rewrite IH. f_equal. lia.
Qed.
Lemma later_rings d : forall l2 i, (forall k int r, nth_error l2 k = Some (int, r) -> ring_get d (i + Z.of_nat k) = Ok r) ->
  mapM (fun p' : Z * bool => ring_get d (fst p')) (zlist i l2) = Ok (map snd l2).
Proof.
  induction l2 as [|[b r] l2 IH]; intros i H; [reflexivity|]. cbn [zlist mapM map snd fst].
  pose proof (H 0%nat b r eq_refl) as H0. replace (i + Z.of_nat 0)%Z with i in H0 by lia. rewrite H0. cbn [bind].
  rewrite IH; [reflexivity|]. intros k int r' E. replace (i + 1 + Z.of_nat k)%Z with (i + Z.of_nat (S k))%Z by lia. eapply H. cbn. exact E.
Qed.
Lemma polygons_assembled within l : forall l1 l2, l = l1 ++ l2 ->
  mapM (fun p : Z * bool =>
      do! shell <- ring_get (rings_dict 1 l) (fst p);
      do! later <- mapM (fun p' => ring_get (rings_dict 1 l) (fst p')) (skipn (Z.to_nat (fst p)) (zlist 1 l));
      Ok (shell, filter (fun r => within r shell) later))
    (filter (fun p => negb (snd p)) (zlist (1 + Z.of_nat (length l1)) l2)) = Ok (assembled within l2).
Proof.
  intros l1 l2. revert l1. induction l2 as [|[int r] l2 IH]; intros l1 E; [reflexivity|]. cbn [zlist filter snd assembled].
  specialize (IH (l1 ++ [(int, r)])). rewrite <- app_assoc in IH. specialize (IH E). rewrite app_length in IH. cbn [length] in IH.
  replace (1 + Z.of_nat (length l1 + 1))%Z with (1 + Z.of_nat (length l1) + 1)%Z in IH by lia.
  destruct int; cbn [negb]; [exact IH|]. cbn [mapM fst].
  assert (G : ring_get (rings_dict 1 l) (1 + Z.of_nat (length l1)) = Ok r).
  { apply (rings_get l 1 (length l1) false). rewrite E, nth_error_app2, Nat.sub_diag by lia. reflexivity. }
  rewrite G. cbn [bind]. replace (Z.to_nat (1 + Z.of_nat (length l1))) with (length (l1 ++ [(false, r)])) by (rewrite app_length; cbn [length]; lia).
  assert (E' : l = (l1 ++ [(false, r)]) ++ l2) by (rewrite <- app_assoc; exact E). assert (ZS : skipn (length (l1 ++ [(false, r)])) (zlist 1 l) = zlist (1 + Z.of_nat (length (l1 ++ [(false, r)]))) l2) by (rewrite E'; apply zlist_skip).
  rewrite ZS.
  rewrite later_rings; [cbn [bind]; rewrite IH; reflexivity|].
  intros k int r' K. replace (1 + Z.of_nat (length (l1 ++ [(false, r)])) + Z.of_nat k)%Z with (1 + Z.of_nat (length (l1 ++ [(false, r)]) + k))%Z by lia.
  apply (rings_get l 1 _ int). rewrite E', nth_error_app2 by lia. replace (length (l1 ++ [(false, r)]) + k - length (l1 ++ [(false, r)]))%nat with k by lia. exact K.
Qed.
