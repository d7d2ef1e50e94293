From Coq Require Import String Ascii List Arith ZArith Bool Lia.
From Verif Require Import Base NumModel NumLemmas StrModel StrSpec StrProofs StrProofs2 FmtSpec CliModel CliSpec CliProofs CliProofs2.
Import ListNotations.

(** * Overplots *)
Lemma put_same p k v : put p k v k = v.
Proof. unfold put. now rewrite seqb_refl. Qed.
Lemma put_other p k v j : j <> k -> put p k v j = p j.
Proof. intros N. unfold put. destruct (seqb_spec j k); [contradiction|reflexivity]. Qed.
Lemma seqb_false a b : a <> b -> seqb a b = false.
Proof. intros N. now destruct (seqb_spec a b). Qed.
Lemma not_given_cons k0 v d k : not_given ((k0, v) :: d) k <-> ~ names_key k0 k /\ not_given d k.
Proof.
  unfold not_given. split.
  - intros H. split; [apply (H k0 v); now left|]. intros k1 v1 I. apply (H k1 v1). now right.
  - intros (H1 & H2) k1 v1 [I|I]; [injection I as <- <-; exact H1|]. now apply (H2 k1 v1).
Qed.
Lemma given_last_cons k0 w d k v : given_last ((k0, w) :: d) k v <->
  given_last d k v \/ (w = v /\ names_key k0 k /\ not_given d k).
Proof.
  split.
  - intros (d1 & k1 & d2 & E & N & H). destruct d1 as [|p d1]; cbn in E.
    + injection E as <- <- <-. right. auto.
    + injection E as _ ->. left. exists d1, k1, d2. auto.
  - intros [(d1 & k1 & d2 & -> & N & H)|(-> & N & H)].
    + exists ((k0, w) :: d1), k1, d2. auto.
    + exists [], k0, d. auto.
Qed.
Lemma names_key_fun k0 k k' : names_key k0 k -> names_key k0 k' -> k = k'.
Proof. unfold names_key. congruence. Qed.
Lemma plot_items_spec path d : forall p spec p' spec', plot_items path p spec d = Ok (p', spec') ->
  (forall k v, given_last d k v -> plot_value path k v = Ok (p' k)) /\
  (forall k, not_given d k -> p' k = p k) /\
  (spec' = true -> spec = true \/ ~ not_given d (L "source")) /\
  (spec = true -> spec' = true).
Proof.
  induction d as [|[k0 w] d IH]; intros p spec p' spec' H.
  - cbn in H. injection H as <- <-. repeat split; auto.
    intros k v (d1 & k1 & d2 & E & _). destruct d1; discriminate.
  - cbn [plot_items] in H. destruct (decode_name craterplot_keys craterplot_keys k0 true) as [k1|] eqn:E; [|discriminate].
    cbn [bind] in H. destruct (plot_value path k1 w) as [x|] eqn:V; [|discriminate]. cbn [bind] in H.
    destruct (IH _ _ _ _ H) as (H1 & H2 & H3 & H4). fold (names_key k0 k1) in E. repeat split.
    + intros k v G. apply given_last_cons in G. destruct G as [G|(-> & N & NG)]; [now apply H1|].
      rewrite (names_key_fun _ _ _ N E) in *. rewrite (H2 _ NG), put_same. exact V.
    + intros k G. apply not_given_cons in G. destruct G as (G1 & G2). rewrite (H2 _ G2). apply put_other.
      intros ->. contradiction.
    + intros S. destruct (H3 S) as [S'|S'].
      * apply orb_prop in S'. destruct S' as [S'|S']; [now left|]. right. destruct (seqb_spec k1 (L "source")); [subst|discriminate].
        intros NG. apply not_given_cons in NG. tauto.
      * right. intros NG. apply not_given_cons in NG. tauto.
    + intros ->. apply H4. reflexivity.
Qed.
Lemma plot_start_first pres k : plot_start pres None k = documented_default pres k.
Proof.
  unfold plot_start, documented_default. destruct (list_eq_dec ascii_dec k (L "type")) as [->|N].
  - rewrite put_same. destruct (seqb_spec pres (L "sequence")), (list_eq_dec ascii_dec pres (L "sequence")); congruence.
  - now apply put_other.
Qed.
Lemma fold_put q ks : forall p k, (In k ks -> fold_left (fun p k => put p k (q k)) ks p k = q k) /\
  (~ In k ks -> fold_left (fun p k => put p k (q k)) ks p k = p k).
Proof.
  induction ks as [|j ks IH]; intros p k; cbn; [tauto|].
  destruct (IH (put p j (q j)) k) as (I1 & I2). split.
  - intros [->|I]; [|auto]. destruct (in_dec (list_eq_dec ascii_dec) k ks); [auto|].
    rewrite I2 by assumption. apply put_same.
  - intros N. rewrite I2 by tauto. apply put_other. intros ->. tauto.
Qed.
Lemma type_not_carried : ~ In (L "type") carry_over.
Proof. cbn. intros I. decompose [or] I; discriminate || contradiction. Qed.
Lemma plot_start_next pres q k :
  (In k carry_over -> plot_start pres (Some q) k = q k) /\
  (k = L "type" -> plot_start pres (Some q) k = q (L "type")) /\
  (~ In k carry_over -> k <> L "type" -> plot_start pres (Some q) k = documented_default pres k).
Proof.
  unfold plot_start.
  assert (S : put plot_defaults (L "type") (PStr (if seqb pres (L "sequence") then L "poisson" else L "data")) (L "source") = PNone) by reflexivity.
  rewrite S. set (p := put (put _ _ _) _ _). destruct (fold_put q carry_over p k) as (F1 & F2). split; [exact F1|]. split.
  - intros ->. rewrite F2 by apply type_not_carried. unfold p. apply put_same.
  - intros N1 N2. rewrite F2 by assumption. unfold p, documented_default. rewrite !put_other by assumption.
    now destruct (list_eq_dec ascii_dec k (L "type")).
Qed.
Lemma plot_one_spec path pres input load prev spec d p spec' :
  plot_one path pres input load prev spec d = Ok (p, spec') ->
  spec' = true /\ (spec = true \/ ~ not_given d (L "source")) /\
  (forall k v, given_last d k v -> k <> L "source" \/ input = None -> plot_value path k v = Ok (p k)) /\
  (forall k, not_given d k -> k <> L "source" \/ input = None -> p k = plot_start pres prev k) /\
  (exists s, p (L "source") = PStr s /\ load s = Ok tt).
Proof.
  unfold plot_one. destruct (plot_items path (plot_start pres prev) spec d) as [[p1 s1]|] eqn:E; [|discriminate].
  cbn [bind]. destruct s1; [|discriminate]. cbn [negb]. destruct (p1 (L "source")) as [|s| |] eqn:PS; try discriminate.
  destruct (plot_items_spec _ _ _ _ _ _ E) as (H1 & H2 & H3 & H4). intros H.
  assert (G : exists s2, (input = None -> s2 = s) /\ (load s2 = Ok tt) /\ p = put p1 (L "source") (PStr s2) /\ spec' = true).
  { destruct input as [i|].
    - destruct (isabs s).
      + cbn [bind] in H. destruct (load s) as [[]|] eqn:LD; [|discriminate]. cbn [bind] in H. injection H as <- <-. exists s. auto.
      + destruct (filename i (L "p") None None 4) as [dir|]; [|discriminate]. cbn [bind] in H.
        destruct (load (dir ++ s)) as [[]|] eqn:LD; [|discriminate]. cbn [bind] in H. injection H as <- <-.
        exists (dir ++ s). repeat split; auto. discriminate.
    - cbn [bind] in H. destruct (load s) as [[]|] eqn:LD; [|discriminate]. cbn [bind] in H. injection H as <- <-. exists s. auto. }
  destruct G as (s2 & G1 & G2 & -> & ->). split; [reflexivity|]. split; [now apply H3|].
  assert (P : forall k, k <> L "source" \/ input = None -> put p1 (L "source") (PStr s2) k = p1 k).
  { intros k O. destruct (list_eq_dec ascii_dec k (L "source")) as [->|N]; [|now apply put_other].
    destruct O as [O|O]; [congruence|]. rewrite put_same, PS. now rewrite G1. }
  repeat split.
  - intros k v G O. rewrite P by assumption. now apply H1.
  - intros k G O. rewrite P by assumption. now apply H2.
  - exists s2. now rewrite put_same.
Qed.
Theorem plot_dicts_spec path pres input load ds : forall prev spec ps,
  plot_dicts path pres input load prev spec ds = Ok ps ->
  length ps = length ds /\
  forall i d p, nth_error ds i = Some d -> nth_error ps i = Some p ->
    let before := match i with O => prev | S j => nth_error ps j end in
    (forall k v, given_last d k v -> k <> L "source" \/ input = None -> plot_value path k v = Ok (p k)) /\
    (forall k, not_given d k -> k <> L "source" \/ input = None -> p k = plot_start pres before k) /\
    (exists s, p (L "source") = PStr s /\ load s = Ok tt).
Proof.
  induction ds as [|d ds IH]; intros prev spec ps H.
  - cbn in H. injection H as <-. split; [reflexivity|]. intros [|i] ? ? E; discriminate.
  - cbn [plot_dicts] in H. destruct (plot_one path pres input load prev spec d) as [[p s]|] eqn:E; [|discriminate].
    cbn [bind fst snd] in H. destruct (plot_dicts path pres input load (Some p) s ds) as [rest|] eqn:R; [|discriminate].
    cbn [bind] in H. injection H as <-. destruct (IH _ _ _ R) as (L1 & L2). split; [cbn; congruence|].
    intros [|i] d' p' D P.
    + cbn in D, P. injection D as <-. injection P as <-. destruct (plot_one_spec _ _ _ _ _ _ _ _ _ E) as (_ & _ & H1 & H2 & H3).
      repeat split; auto.
    + cbn in D, P. pose proof (L2 i d' p' D P) as X. cbn zeta in X |- *. destruct i; exact X.
Qed.
Lemma plot_one_first path pres input load d p s : plot_one path pres input load None false d = Ok (p, s) -> ~ not_given d (L "source").
Proof. intros E. destruct (plot_one_spec _ _ _ _ _ _ _ _ _ E) as (_ & [H|H] & _); [discriminate|exact H]. Qed.

(** * Values of overplot options *)
Lemma lstrip_none p s : match s with c :: _ => p c = false | [] => True end -> lstrip p s = s.
Proof. destruct s; cbn; [reflexivity|]. now intros ->. Qed.
Lemma strip_brackets w : ~ In (ch "[") w -> ~ In (ch "]") w ->
  strip (fun c => mem c (L "[]")) (L "[" ++ w ++ L "]") = w.
Proof.
  intros N1 N2.
  assert (M : forall c, In c w -> mem c (L "[]") = false).
  { intros c I. destruct (mem c (L "[]")) eqn:E; [|reflexivity]. apply mem_In in E. cbn in E.
    destruct E as [<-|[<-|[]]]; contradiction. }
  assert (E1 : lstrip (fun c => mem c (L "[]")) (L "[" ++ w ++ L "]") = match w with [] => [] | _ => w ++ L "]" end).
  { change (L "[" ++ w ++ L "]") with (ch "[" :: (w ++ L "]")). cbn [lstrip].
    change (mem (ch "[") (L "[]")) with true. cbv iota. destruct w as [|c w]; [reflexivity|].
    apply lstrip_none. cbn. apply M. now left. }
  unfold strip. rewrite E1. destruct w as [|c w]; [reflexivity|]. unfold rstrip. rewrite rev_app_distr.
  change (rev (L "]") ++ rev (c :: w)) with (ch "]" :: rev (c :: w)). cbn [lstrip].
  change (mem (ch "]") (L "[]")) with true. cbv iota. rewrite lstrip_none; [apply rev_involutive|].
  destruct (rev (c :: w)) as [|x r] eqn:E; [exact I|]. apply M. apply in_rev. rewrite E. now left.
Qed.

(** * Settings *)
Section Config.
  Variables (names : str -> list str) (isdir : str -> bool) (normpath : str -> str) (pf_range : sval -> option (sval * sval)).
  Lemma cput_same c k v : cput c k v k = v.
  Proof. unfold cput. now rewrite seqb_refl. Qed.
  Lemma cput_other c k v j : j <> k -> cput c k v j = c j.
  Proof. intros N. unfold cput. now rewrite seqb_false. Qed.
  Lemma config_item_other c k v c' j : config_item names isdir normpath c (k, v) = Ok c' ->
    j <> k -> (j = L "format" -> k <> L "out") -> c' j = c j.
  Proof.
    intros H N O. unfold config_item in H. 
    assert (Q : forall x, cput c k x j = c j) by (intros; now apply cput_other).
    assert (B : forall A (m : res A) f, bind m f = Ok c' -> exists a, m = Ok a /\ f a = Ok c').
    { intros A m f E. destruct m as [a|]; [|discriminate]. now exists a. }
    destruct v; [now injection H as <-| | | |];
      (destruct (existsb (seqb k) plain_options); [injection H as <-; now rewrite ?Q|]);
      (match type of H with (if ?b then _ else _) = _ => destruct b end;
         [first [discriminate | apply B in H; destruct H as (a & _ & H); injection H as <-; now rewrite ?Q]|]);
      (destruct (seqb_spec k (L "out")) as [->|NO];
         [first [discriminate |
          (destruct (isdir s); [injection H as <-; now rewrite ?Q|]);
          apply B in H; destruct H as (a & _ & H); apply B in H; destruct H as (b & _ & H);
          (destruct (lstrip (fun x : ascii => aeqb x (ch ".")) b); [injection H as <-; now rewrite ?Q|]);
          destruct (cput c (L "out") (VText a) (L "format"));
          first [discriminate | injection H as <-; rewrite cput_other by (intros ->; now apply O); now rewrite ?Q]]|]);
      (destruct (substring_of k (L "format")); [first [discriminate | injection H as <-; now rewrite ?Q]|]);
      (destruct (substring_of k (L "measures")); [first [discriminate | injection H as <-; now rewrite ?Q]|]);
      injection H as <-; reflexivity.
  Qed.
  Lemma config_items_other args : forall c c' j, config_items names isdir normpath c args = Ok c' ->
    (forall k v, In (k, v) args -> v <> VNone -> j <> k /\ (j = L "format" -> k <> L "out")) -> c' j = c j.
  Proof.
    induction args as [|[k v] args IH]; intros c c' j H F.
    - now injection H as <-.
    - cbn [config_items] in H. destruct (config_item names isdir normpath c (k, v)) as [c1|] eqn:E; [|discriminate].
      cbn [bind] in H. rewrite (IH _ _ _ H); [|intros; apply (F k0 v0); [now right|assumption]].
      assert (D : v = VNone \/ v <> VNone) by (destruct v; [now left|right|right|right|right]; discriminate).
      destruct D as [->|D].
      + cbn in E. now injection E as <-.
      + destruct (F k v (or_introl eq_refl) D) as (F1 & F2). eapply config_item_other; eassumption.
  Qed.
  Lemma config_items_app a b c c' : config_items names isdir normpath c (a ++ b) = Ok c' ->
    exists c1, config_items names isdir normpath c a = Ok c1 /\ config_items names isdir normpath c1 b = Ok c'.
  Proof.
    revert c. induction a as [|kv a IH]; intros c H; [now exists c|].
    cbn [app config_items] in *. destruct (config_item names isdir normpath c kv) as [c2|]; [|discriminate].
    cbn [bind] in *. now apply IH.
  Qed.

  Variable val : str -> sval.
  Let items := config_items names isdir normpath.
  Let item := config_item names isdir normpath.
  Definition nodup_b (l : list str) : bool :=
    (fix go l := match l with [] => true | x :: r => negb (existsb (seqb x) r) && go r end) l.
  Lemma nodup_b_spec l : nodup_b l = true -> NoDup l.
  Proof.
    induction l as [|x l IH]; cbn; intros H; constructor.
    - apply andb_prop in H. destruct H as (H & _). intros I. apply negb_true_iff in H.
      assert (existsb (seqb x) l = true) by (apply existsb_exists; exists x; split; [exact I|apply seqb_refl]). congruence.
    - apply IH. now apply andb_prop in H.
  Qed.
  Lemma dests_nodup : NoDup parser_dests.
  Proof. apply nodup_b_spec. vm_compute. reflexivity. Qed.
  Lemma cl_split l1 k l2 c0 c1 : parser_dests = l1 ++ k :: l2 -> items c0 (command_line val) = Ok c1 ->
    exists ca cb, items c0 (map (fun k => (k, val k)) l1) = Ok ca /\ item ca (k, val k) = Ok cb /\
                  items cb (map (fun k => (k, val k)) l2) = Ok c1.
  Proof.
    intros E H. unfold command_line in H. rewrite E, map_app in H. apply config_items_app in H.
    destruct H as (ca & H1 & H2). cbn [map config_items] in H2.
    destruct (config_item names isdir normpath ca (k, val k)) as [cb|] eqn:X; [|discriminate]. cbn [bind] in H2.
    exists ca, cb. auto.
  Qed.
  Lemma items_at k c0 c1 : In k parser_dests -> k <> L "format" -> items c0 (command_line val) = Ok c1 ->
    exists ca cb, item ca (k, val k) = Ok cb /\ ca k = c0 k /\ c1 k = cb k.
  Proof.
    intros I N H. apply in_split in I. destruct I as (l1 & l2 & E).
    destruct (cl_split _ _ _ _ _ E H) as (ca & cb & H1 & H2 & H3). exists ca, cb. split; [exact H2|].
    pose proof dests_nodup as ND. rewrite E in ND. apply NoDup_remove_2 in ND. rewrite in_app_iff in ND. split.
    - eapply config_items_other; [exact H1|]. intros j v J _. apply in_map_iff in J. destruct J as (j' & J & J'). injection J as <- <-.
      split; [intros ->; tauto|congruence].
    - eapply config_items_other; [exact H3|]. intros j v J _. apply in_map_iff in J. destruct J as (j' & J & J'). injection J as <- <-.
      split; [intros ->; tauto|congruence].
  Qed.
  Lemma existsb_In k l : existsb (seqb k) l = true <-> In k l.
  Proof.
    rewrite existsb_exists. split.
    - intros (x & I & E). destruct (seqb_spec k x); [now subst|discriminate].
    - intros I. exists k. split; [exact I|apply seqb_refl].
  Qed.
  Lemma items_plain k c0 c1 : In k parser_dests -> In k plain_options -> items c0 (command_line val) = Ok c1 ->
    c1 k = match val k with VNone => c0 k | v => v end.
  Proof.
    intros I P H.
    assert (N : k <> L "format") by (intros ->; apply existsb_In in P; vm_compute in P; discriminate).
    destruct (items_at k c0 c1 I N H) as (ca & cb & H1 & H2 & H3). rewrite H3. unfold item, config_item in H1.
    apply existsb_In in P. destruct (val k) eqn:V; rewrite ?P in H1; injection H1 as <-; try apply cput_same. exact H2.
  Qed.
  Lemma items_inert k c0 c1 : In k parser_dests -> k <> L "format" -> items c0 (command_line val) = Ok c1 ->
    existsb (seqb k) plain_options = false -> existsb (seqb k) (map L ["chronology_system"; "equilibrium"; "epochs"]%string) = false ->
    seqb k (L "out") = false -> substring_of k (L "format") = false -> substring_of k (L "measures") = false -> c1 k = c0 k.
  Proof.
    intros I N H E1 E2 E3 E4 E5. destruct (items_at k c0 c1 I N H) as (ca & cb & H1 & H2 & H3). rewrite H3, <- H2.
    unfold item, config_item in H1. rewrite E1, E2, E3, E4, E5 in H1. destruct (val k); now injection H1 as <-.
  Qed.
  (** -o and -f *)
  Definition pre_out := Eval vm_compute in firstn 9 parser_dests.
  Definition mid_out := Eval vm_compute in firstn 3 (skipn 10 parser_dests).
  Definition post_format := Eval vm_compute in skipn 14 parser_dests.
  Lemma dests_split : parser_dests = pre_out ++ L "out" :: mid_out ++ L "format" :: post_format.
  Proof. reflexivity. Qed.
  Lemma untouched l c0 c1 j : items c0 (map (fun k => (k, val k)) l) = Ok c1 ->
    existsb (seqb j) l = false -> (j = L "format" -> existsb (seqb (L "out")) l = false) -> c1 j = c0 j.
  Proof.
    intros H E1 E2. eapply config_items_other; [exact H|]. intros k v J _. apply in_map_iff in J.
    destruct J as (j' & J & J'). injection J as <- <-. split.
    - intros ->. apply existsb_In in J'. congruence.
    - intros -> ->. specialize (E2 eq_refl). apply existsb_In in J'. congruence.
  Qed.
  Lemma items_cons k l c c' : items c (map (fun k => (k, val k)) (k :: l)) = Ok c' ->
    exists c1, item c (k, val k) = Ok c1 /\ items c1 (map (fun k => (k, val k)) l) = Ok c'.
  Proof.
    cbn [map]. unfold items, item. cbn [config_items]. destruct (config_item names isdir normpath c (k, val k)) as [c1|]; [|discriminate].
    cbn [bind]. intros H. now exists c1.
  Qed.
  Lemma item_out c v : item c (L "out", v) =
    match v with
    | VNone => Ok c
    | VText t =>
        if isdir t then Ok (cput c (L "out") (VText (normpath (t ++ L "/"))))
        else
          do! pn <- filename t (L "pn") None None 4;
          do! e <- filename t (L "e") None None 4;
          match lstrip (fun x => aeqb x (ch ".")) e, c (L "format") with
          | [], _ => Ok (cput c (L "out") (VText pn))
          | ext, VSet l => Ok (cput (cput c (L "out") (VText pn)) (L "format") (VSet (set_add ext l)))
          | _, _ => Err AttributeError
          end
    | _ => Err TypeError
    end.
  Proof.
    unfold item, config_item.
    assert (E1 : existsb (seqb (L "out")) plain_options = false) by (vm_compute; reflexivity).
    assert (E2 : existsb (seqb (L "out")) (map L ["chronology_system"; "equilibrium"; "epochs"]%string) = false) by (vm_compute; reflexivity).
    rewrite E1, E2, seqb_refl. destruct v; try reflexivity. destruct (isdir s); [reflexivity|].
    destruct (filename s (L "pn") None None 4) as [pn|]; [|reflexivity]. cbn [bind].
    destruct (filename s (L "e") None None 4) as [e|]; [|reflexivity]. cbn [bind].
    rewrite cput_other by discriminate. now destruct (lstrip (fun x => aeqb x (ch ".")) e).
  Qed.
  Lemma item_format c v : item c (L "format", v) =
    match v with VNone => Ok c | VSet l => Ok (cput c (L "format") (VSet l)) | _ => Err TypeError end.
  Proof.
    unfold item, config_item.
    assert (E1 : existsb (seqb (L "format")) plain_options = false) by (vm_compute; reflexivity).
    assert (E2 : existsb (seqb (L "format")) (map L ["chronology_system"; "equilibrium"; "epochs"]%string) = false) by (vm_compute; reflexivity).
    assert (E3 : seqb (L "format") (L "out") = false) by (vm_compute; reflexivity).
    assert (E4 : substring_of (L "format") (L "format") = true) by (vm_compute; reflexivity).
    rewrite E1, E2, E3, E4. destruct v; reflexivity.
  Qed.
  Lemma items_format c0 c1 f0 : c0 (L "format") = VSet f0 -> items c0 (command_line val) = Ok c1 ->
    exists f, c1 (L "format") = VSet f /\
    (forall l, val (L "format") = VSet l -> f = l) /\
    (val (L "format") = VNone ->
       (val (L "out") = VNone -> f = f0) /\
       (forall t, val (L "out") = VText t -> isdir t = true -> f = f0) /\
       (forall t e, val (L "out") = VText t -> isdir t = false -> filename t (L "e") None None 4 = Ok e ->
          f = match lstrip (fun x => aeqb x (ch ".")) e with [] => f0 | x => set_add x f0 end)).
  Proof.
    intros F0 H.
    destruct (cl_split pre_out (L "out") (mid_out ++ L "format" :: post_format) c0 c1 dests_split H) as (ca & cb & H1 & H2 & H3).
    rewrite map_app in H3. apply config_items_app in H3. destruct H3 as (cc & H3 & H4).
    apply items_cons in H4. destruct H4 as (cd & H5 & H4). rewrite item_out in H2. rewrite item_format in H5.
    assert (A : ca (L "format") = VSet f0).
    { rewrite <- F0. apply (untouched pre_out); [exact H1|vm_compute; reflexivity|intros _; vm_compute; reflexivity]. }
    assert (C : cc (L "format") = cb (L "format")).
    { apply (untouched mid_out); [exact H3|vm_compute; reflexivity|intros _; vm_compute; reflexivity]. }
    assert (D : c1 (L "format") = cd (L "format")).
    { apply (untouched post_format); [exact H4|vm_compute; reflexivity|intros _; vm_compute; reflexivity]. }
    clear H1 H3 H4 H. rewrite A in H2.
    assert (B : exists f, cb (L "format") = VSet f /\ (val (L "out") = VNone -> f = f0) /\
       (forall t, val (L "out") = VText t -> isdir t = true -> f = f0) /\
       (forall t e, val (L "out") = VText t -> isdir t = false -> filename t (L "e") None None 4 = Ok e ->
          f = match lstrip (fun x => aeqb x (ch ".")) e with [] => f0 | x => set_add x f0 end)).
    { destruct (val (L "out")) as [|t| | |]; try discriminate.
      - injection H2 as <-. exists f0. repeat split; auto; discriminate.
      - destruct (isdir t) eqn:ID.
        + injection H2 as <-. exists f0. rewrite cput_other by discriminate. split; [exact A|]. split; [auto|]. split; [auto|].
          intros t' e E. injection E as <-. congruence.
        + destruct (filename t (L "pn") None None 4) as [pn|]; [|discriminate]. cbn [bind] in H2.
          destruct (filename t (L "e") None None 4) as [e|] eqn:EE; [|discriminate]. cbn [bind] in H2.
          exists (match lstrip (fun x => aeqb x (ch ".")) e with [] => f0 | x => set_add x f0 end).
          split; [|split; [discriminate|split]].
          * destruct (lstrip (fun x => aeqb x (ch ".")) e); injection H2 as <-; [rewrite cput_other by discriminate; exact A|apply cput_same].
          * intros t' E E'. injection E as <-. congruence.
          * intros t' e' E _ EE'. injection E as <-. rewrite EE in EE'. injection EE' as <-. reflexivity. }
    destruct B as (f & B & B1 & B2 & B3).
    destruct (val (L "format")) as [| | | |l]; try discriminate; injection H5 as <-.
    - exists f. rewrite D, C. split; [exact B|]. split; [discriminate|]. auto.
    - exists l. rewrite D, cput_same. split; [reflexivity|]. split; [congruence|]. discriminate.
  Qed.
  Lemma items_out c0 c1 t : items c0 (command_line val) = Ok c1 -> val (L "out") = VText t -> isdir t = false ->
    exists pn, filename t (L "pn") None None 4 = Ok pn /\ c1 (L "out") = VText pn.
  Proof.
    intros H V ID. destruct (items_at (L "out") c0 c1) as (ca & cb & H1 & H2 & H3); [now apply existsb_In|discriminate|exact H|].
    rewrite H3. rewrite item_out, V, ID in H1.
    destruct (filename t (L "pn") None None 4) as [pn|]; [|discriminate]. cbn [bind] in H1.
    destruct (filename t (L "e") None None 4) as [e|]; [|discriminate]. cbn [bind] in H1. exists pn. split; [reflexivity|].
    destruct (lstrip (fun x => aeqb x (ch ".")) e).
    - injection H1 as <-. apply cput_same.
    - destruct (ca (L "format")); try discriminate. injection H1 as <-.
      rewrite cput_other by discriminate. apply cput_same.
  Qed.
  Lemma items_named k c0 c1 t : In k (map L ["chronology_system"; "equilibrium"; "epochs"]%string) ->
    items c0 (command_line val) = Ok c1 -> val k = VText t ->
    exists x, decode_name (names k) (names k) t true = Ok x /\ c1 k = VText x.
  Proof.
    intros I H V.
    assert (P : In k parser_dests /\ k <> L "format" /\ existsb (seqb k) plain_options = false).
    { cbn in I. destruct I as [<-|[<-|[<-|[]]]]; repeat split; try discriminate; now apply existsb_In. }
    destruct P as (P1 & P2 & P3). destruct (items_at k c0 c1 P1 P2 H) as (ca & cb & H1 & H2 & H3). rewrite H3.
    unfold item, config_item in H1. rewrite V, P3 in H1. apply existsb_In in I. rewrite I in H1.
    destruct (decode_name (names k) (names k) t true) as [x|]; [|discriminate]. cbn [bind] in H1. injection H1 as <-.
    exists x. split; [reflexivity|apply cput_same].
  Qed.
  Lemma items_named_none k c0 c1 : In k (map L ["chronology_system"; "equilibrium"; "epochs"]%string) ->
    items c0 (command_line val) = Ok c1 -> val k = VNone -> c1 k = c0 k.
  Proof.
    intros I H V.
    assert (P : In k parser_dests /\ k <> L "format").
    { cbn in I. destruct I as [<-|[<-|[<-|[]]]]; repeat split; try discriminate; now apply existsb_In. }
    destruct P as (P1 & P2). destruct (items_at k c0 c1 P1 P2 H) as (ca & cb & H1 & H2 & H3). rewrite H3, <- H2.
    unfold item, config_item in H1. rewrite V in H1. now injection H1 as <-.
  Qed.
  Lemma items_measure c0 c1 : items c0 (command_line val) = Ok c1 ->
    (forall t, val (L "measure") = VText t -> c1 (L "measure") = VSet (split_chr (ch ",") [] t)) /\
    (val (L "measure") = VNone -> c1 (L "measure") = c0 (L "measure")).
  Proof.
    intros H. destruct (items_at (L "measure") c0 c1) as (ca & cb & H1 & H2 & H3); [now apply existsb_In|discriminate|exact H|].
    rewrite H3. unfold item, config_item in H1. split; [intros t V|intros V]; rewrite V in H1.
    - change (existsb (seqb (L "measure")) plain_options) with false in H1.
      change (existsb (seqb (L "measure")) (map L ["chronology_system"; "equilibrium"; "epochs"]%string)) with false in H1.
      change (seqb (L "measure") (L "out")) with false in H1.
      change (substring_of (L "measure") (L "format")) with false in H1.
      change (substring_of (L "measure") (L "measures")) with true in H1. cbv iota in H1. injection H1 as <-. apply cput_same.
    - now injection H1 as <-.
  Qed.
  Lemma ok_inj {X} (a b : X) : Ok a = Ok b -> a = b.
  Proof. intros H. now injection H. Qed.
  (** the whole of construct_cps_dict *)
  Definition start_config (pres : str) : config :=
    let c := cput set_defaults (L "presentation") (VText pres) in
    let c := if existsb (seqb pres) (map L ["chronology"; "rate"; "sequence"; "uncertainty"]%string)
             then cput (cput c (L "xrange") (default_xrange pres)) (L "yrange") (default_yrange pres) else c in
    if seqb pres (L "sequence") then cput c (L "legend") (VText (L "A")) else c.
  Lemma construct_inv c : construct_cps_dict names isdir normpath pf_range (command_line val) = Ok c ->
    exists pres c1,
      (match val (L "presentation") with VText t => decode_name presentations presentations t false | _ => Ok (L "differential") end) = Ok pres /\
      items (start_config pres) (command_line val) = Ok c1 /\
      (exists n, In n (names (L "chronology_system")) /\ c1 (L "chronology_system") = VText n) /\
      (forall k, k <> L "text_halo" -> (pres = L "Hartmann" -> k <> L "xrange" /\ k <> L "yrange") -> c k = c1 k) /\
      (falsy (c1 (L "text_halo")) = false -> c (L "text_halo") = c1 (L "text_halo")) /\
      (falsy (c1 (L "text_halo")) = true -> c (L "text_halo") = text_halo_default pres).
  Proof.
    intros H. unfold construct_cps_dict in H.
    assert (F : find (fun kv => seqb (fst kv) (L "presentation")) (command_line val) = Some (L "presentation", val (L "presentation"))) by reflexivity.
    rewrite F in H.
    destruct (match val (L "presentation") with VText t => decode_name presentations presentations t false | _ => Ok (L "differential") end) as [pres|] eqn:P;
      [|discriminate]. cbn [bind] in H. fold (start_config pres) in H.
    destruct (config_items names isdir normpath (start_config pres) (command_line val)) as [c1|] eqn:E; [|discriminate]. cbn [bind] in H.
    exists pres, c1. split; [reflexivity|]. split; [exact E|].
    match type of H with bind (if ?b then _ else _) _ = _ => destruct b eqn:X; [|discriminate] end. cbn [bind] in H.
    apply existsb_exists in X. destruct X as (n & X1 & X2). destruct (c1 (L "chronology_system")) as [|t| | |] eqn:CS; try discriminate.
    destruct (seqb_spec n t) as [->|]; [|discriminate]. split; [now exists t|].
    match type of H with Ok (if falsy (?cc _) then _ else _) = _ => set (c2 := cc) in H end.
    assert (Q : forall k, (pres = L "Hartmann" -> k <> L "xrange" /\ k <> L "yrange") -> c2 k = c1 k).
    { intros k O. unfold c2. destruct (seqb_spec pres (L "Hartmann")) as [E'|E']; [|reflexivity].
      destruct (O E') as (O1 & O2).
      match goal with |- context [match ?p with Some _ => _ | None => _ end] => destruct p as [[x y]|] end;
      now rewrite !cput_other by assumption. }
    assert (QT : c2 (L "text_halo") = c1 (L "text_halo")) by (apply Q; split; discriminate).
    rewrite QT in H. clearbody c2. apply ok_inj in H. rewrite <- H. clear H. split; [|split].
    - intros k N O. destruct (falsy (c1 (L "text_halo"))); [rewrite cput_other by assumption|]; now apply Q.
    - intros ->. exact QT.
    - intros ->. apply cput_same.
  Qed.
End Config.

(** * Output files *)
Section Output.
  Variables (pres : str) (measures : list str) (select : option str).
  Definition known_format (f : str) : Prop := In f (map L ["png"; "tif"; "pdf"; "svg"; "csv"]%string).
  Lemma known_cases f : known_format f -> is_image f = true /\ seqb f (L "csv") = false \/ is_image f = false /\ f = L "csv".
  Proof.
    cbn. intros H. destruct H as [<-|[<-|[<-|[<-|[<-|[]]]]]]; vm_compute; auto.
  Qed.
  Lemma plain_outputs fs : forall st, pres <> L "uncertainty" -> Forall known_format fs ->
    o_name (fold_left (output_format pres None measures select) fs st) = o_name st /\
    o_files (fold_left (output_format pres None measures select) fs st) =
      o_files st ++ map (fun f => (o_name st ++ L "." ++ f, if is_image f then Diagram else Table)) fs.
  Proof.
    induction fs as [|f fs IH]; intros st N F; cbn [fold_left map]; [now rewrite app_nil_r|].
    inversion F as [|? ? K F']; subst.
    assert (E : o_name (output_format pres None measures select st f) = o_name st /\
                o_files (output_format pres None measures select st f) =
                o_files st ++ [(o_name st ++ L "." ++ f, if is_image f then Diagram else Table)]).
    { unfold output_format. rewrite (seqb_false _ _ N). cbn [andb negb].
      destruct (known_cases f K) as [(E1 & E2)|(E1 & ->)].
      - rewrite E1, E2. cbn. auto.
      - rewrite E1. cbn. auto. }
    destruct E as (E1 & E2). destruct (IH (output_format pres None measures select st f) N F') as (I1 & I2).
    rewrite I1, I2, E1, E2, <- app_assoc. auto.
  Qed.
End Output.
