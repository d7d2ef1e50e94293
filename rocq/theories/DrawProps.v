(** C116: what a diagram consists of and in which order it is drawn. *)
From Coq Require Import String Ascii List ZArith Reals Lra Lia Bool Arith.
From Verif Require Import Base NumModel StrModel StrProofs LegProofs FmtModel SetModel ProdModel DenModel CliModel CliProofs2 DiagModel DiagProps DrawModel.
Import ListNotations.
Local Open Scope R_scope.

(** ** Vocabulary *)
(** [a] is drawn earlier than [b], so that [b] is on top of it *)
Definition beneath (l : list part) (a b : part) : Prop := exists x y z, l = x ++ a :: y ++ b :: z.
(** the crater diagrams *)
Definition of_craters (v : view) : Prop := exists p, v = Diagram p /\ (p = Cumulative \/ p = Differential \/ p = Rplot \/ p = Hartmann).
(** the diagrams of a chronology *)
Definition of_chronology (v : view) : Prop := v = Diagram Chronology \/ v = Diagram Rate.
(** the crater diagrams that need bins *)
Definition needs_bins (v : view) : Prop := v = Diagram Differential \/ v = Diagram Rplot \/ v = Diagram Hartmann.
(** the functions that there are suffice to draw the diagram *)
Definition drawable (s : draw_set) : Prop := (exists r, ds_ratio s = Ok r) /\ (exists n, ds_pf s = Some n) /\ (exists n, ds_cf s = Some n).

Lemma crater_view_spec v : crater_view v = true <-> of_craters v.
Proof.
  unfold of_craters. destruct v as [p| |]; cbn; [|split; [discriminate|intros (p & E & _); discriminate]..].
  split.
  - intros H. exists p. split; [reflexivity|]. destruct p; cbn in H; try discriminate; tauto.
  - intros (q & E & H). injection E as <-. destruct H as [->|[->|[->| ->]]]; reflexivity.
Qed.
Lemma time_view_spec v : time_view v = true <-> of_chronology v.
Proof. unfold of_chronology. destruct v as [[]| |]; cbn; split; intros H; try discriminate; try reflexivity; try tauto; destruct H; discriminate. Qed.
Lemma binned_view_spec v : binned_view v = true <-> needs_bins v.
Proof. unfold needs_bins. destruct v as [[]| |]; cbn; split; intros H; try discriminate; try reflexivity; try tauto; destruct H as [H|[H|H]]; discriminate. Qed.

(** what [draw] gives, in four groups *)
Lemma draw_ok s : drawable s -> exists names time, draw s = Ok (Space (age_view (ds_view s)) :: names ++ (time ++ crater_parts s ++ sequence_parts s) ++ plot_parts s ++ [Legend]) /\
  time_parts s = Ok time /\ (In (ch "f") (ds_legend s) -> exists t, names = [Functions t]) /\ (~ In (ch "f") (ds_legend s) -> names = []).
Proof.
  intros ((r & ER) & (pf & EP) & (cf & EC)). unfold draw. rewrite ER. cbn [bind].
  assert (T : exists time, time_parts s = Ok time) by (unfold time_parts; destruct (time_view _); [rewrite EC|]; eexists; reflexivity). destruct T as (time & ET).
  destruct (in_dec ascii_dec (ch "f") (ds_legend s)) as [I|N].
  - destruct (C108_functions (ds_legend s) (ds_view s) (ds_ep s) (ds_ef s) pf cf (ds_ref s) I) as (text & place & right & E & _). rewrite EP, EC, E. cbn [bind]. rewrite ET. cbn [bind].
    exists [Functions text], time. split; [cbn [app]; rewrite <- !app_assoc; reflexivity|]. split; [reflexivity|]. split; [intros _; eexists; reflexivity|contradiction].
  - rewrite C108_no_functions by exact N. cbn [bind]. rewrite ET. cbn [bind]. exists [], time. split; [cbn [app]; rewrite <- !app_assoc; reflexivity|]. split; [reflexivity|]. split; [contradiction|reflexivity].
Qed.

Lemma plots_in s i : In (Plot i) (plot_parts s) <-> (of_craters (ds_view s) \/ ds_view s = SequenceView) /\ exists b, nth_error (ds_bins s) i = Some b /\ ~ (needs_bins (ds_view s) /\ b = "none"%string).
Proof.
  unfold plot_parts. destruct (crater_view (ds_view s) || _) eqn:E.
  - assert (V : of_craters (ds_view s) \/ ds_view s = SequenceView). { apply orb_true_iff in E as [E|E]; [left; now apply crater_view_spec|right; destruct (ds_view s); (discriminate || reflexivity)]. }
    split.
    + intros I. split; [exact V|]. apply in_concat in I as (l & IL & I). apply in_map_iff in IL as ([j b] & <- & IJ). apply in_rev in IJ. unfold plot_part in I. cbn [fst snd] in I.
      destruct (binned_view _ && _) eqn:B; [destruct I|]. destruct I as [I|[]]. injection I as ->.
      exists b. split.
      * clear - IJ. destruct (In_nth_error _ _ IJ) as (k & K). assert (k < length (combine (seq 0 (length (ds_bins s))) (ds_bins s)))%nat by (apply nth_error_Some; congruence).
        rewrite combine_length, seq_length, Nat.min_id in H. assert (nth_error (combine (seq 0 (length (ds_bins s))) (ds_bins s)) k = Some (nth k (seq 0 (length (ds_bins s))) O, nth k (ds_bins s) EmptyString)).
        { rewrite <- combine_nth by (now rewrite seq_length). apply nth_error_nth'. now rewrite combine_length, seq_length, Nat.min_id. }
        rewrite K in H0. injection H0 as -> ->. rewrite seq_nth by exact H. cbn. apply nth_error_nth'. exact H.
      * intros (NB & ->). apply binned_view_spec in NB. rewrite NB in B. discriminate.
    + intros (_ & b & N & NB). apply in_concat. exists [Plot i]. split; [|now left]. apply in_map_iff. exists (i, b). split.
      * unfold plot_part. cbn [fst snd]. destruct (binned_view (ds_view s)) eqn:B; [|reflexivity]. destruct (String.eqb_spec b "none") as [->|]; [|reflexivity]. exfalso. apply NB. split; [now apply binned_view_spec|reflexivity].
      * rewrite <- in_rev. assert (i < length (ds_bins s))%nat by (apply nth_error_Some; congruence). apply nth_error_In with (n := i).
        rewrite (nth_error_nth' _ (O, EmptyString)) by (rewrite combine_length, seq_length; lia). rewrite combine_nth by apply seq_length. rewrite seq_nth by assumption. cbn. now rewrite (nth_error_nth _ _ EmptyString N).
  - split; [intros []|]. intros ([V|V] & _); [apply crater_view_spec in V; rewrite V in E; discriminate|rewrite V in E; rewrite orb_true_r in E; discriminate].
Qed.

(** the plots are in decreasing order *)
Lemma plots_order s : exists l, plot_parts s = map Plot (rev l) /\ Sorted.StronglySorted lt l.
Proof.
  unfold plot_parts. destruct (_ || _); [|exists []; split; [reflexivity|constructor]]. set (v := ds_view s).
  assert (G : forall bs k, exists l, concat (map (plot_part v) (rev (combine (seq k (length bs)) bs))) = map Plot (rev l) /\ Sorted.StronglySorted lt l /\ Forall (le k) l).
  { induction bs as [|b bs IH]; intros k; [exists []; split; [reflexivity|split; constructor]|]. cbn [length seq combine rev]. destruct (IH (S k)) as (l & E & SS & F).
    rewrite map_app, concat_app, E. cbn [map concat]. unfold plot_part at 1. cbn [fst snd]. rewrite app_nil_r. destruct (negb _).
    - exists (k :: l). split; [cbn [rev]; rewrite map_app; reflexivity|]. split; [constructor; [exact SS|]|constructor; [lia|]]; (eapply Forall_impl; [|exact F]; cbn; lia).
    - exists l. split; [now rewrite app_nil_r|]. split; [exact SS|]. eapply Forall_impl; [|exact F]. cbn. lia. }
  destruct (G (ds_bins s) 0%nat) as (l & E & SS & _). now exists l.
Qed.

(** ** Which parts there are *)
(** a diagram has: first its axes, of ages for sequence and uncertainty; the names of the functions if asked for; the epochs if there are some, except on the uncertainty plot; the line of the equilibrium function and the isochrons on crater diagrams only;
    the curves on the diagrams of a chronology only; the plots on crater diagrams and the sequence, except for those without bins where bins are needed; and last the legend *)
Theorem C116_parts : forall s, drawable s -> exists l, draw s = Ok l /\
  (exists rest, l = Space (if match ds_view s with SequenceView | UncertaintyView => true | Diagram _ => false end then true else false) :: rest ++ [Legend] /\ ~ In Legend rest /\ (forall a, ~ In (Space a) rest)) /\
  ((exists t, In (Functions t) l) <-> In (ch "f") (ds_legend s)) /\
  (In Epochs l <-> ds_ep s <> None /\ ds_view s <> UncertaintyView) /\
  (In Equilibrium l <-> ds_ef s <> None /\ of_craters (ds_view s)) /\
  (In Isochrons l <-> ds_isochrons s = true /\ of_craters (ds_view s)) /\
  ((exists lb m, In (Curve lb m) l) <-> of_chronology (ds_view s)) /\
  (forall i, In (Plot i) l <-> (of_craters (ds_view s) \/ ds_view s = SequenceView) /\ exists b, nth_error (ds_bins s) i = Some b /\ ~ (needs_bins (ds_view s) /\ b = "none"%string)).
Proof.
  intros s D. destruct (draw_ok s D) as (names & time & E & ET & F1 & F2). eexists. split; [exact E|]. destruct (plots_order s) as (ks & EP & _).
  assert (IN : forall x, In x (Space (age_view (ds_view s)) :: names ++ (time ++ crater_parts s ++ sequence_parts s) ++ plot_parts s ++ [Legend]) <->
                 x = Space (age_view (ds_view s)) \/ In x names \/ In x time \/ In x (crater_parts s) \/ In x (sequence_parts s) \/ In x (plot_parts s) \/ x = Legend).
  { intros x. cbn [In]. rewrite !in_app_iff. cbn [In]. intuition congruence. }
  assert (NM : forall x, In x names -> exists t, x = Functions t). { intros x I. destruct (in_dec ascii_dec (ch "f") (ds_legend s)) as [Q|Q]; [destruct (F1 Q) as (t & ->); destruct I as [<-|[]]; eexists; reflexivity|rewrite (F2 Q) in I; destruct I]. }
  assert (TM : forall x, In x time <-> of_chronology (ds_view s) /\ ((x = Epochs /\ ds_ep s <> None) \/ (ds_ref s <> 1 /\ (x = Curve (Some (L "N(>" ++ fmt_g 6 (ds_ref s) ++ L " km)")) true \/ x = Curve (Some (L "N(>1 km)")) false)) \/ (ds_ref s = 1 /\ x = Curve None true))).
  { intros x. unfold time_parts in ET. destruct (time_view (ds_view s)) eqn:TV.
    - apply time_view_spec in TV. destruct D as (_ & _ & (cf & EC)). rewrite EC in ET. assert (OI : forall a b : list part, Ok a = Ok b -> a = b) by congruence. apply OI in ET. subst time. rewrite in_app_iff. unfold given.
      destruct (ds_ep s), (Reqb_spec (ds_ref s) 1); cbn [negb In]; intuition (try congruence).
    - assert (OI : forall a b : list part, Ok a = Ok b -> a = b) by congruence. apply OI in ET. subst time. split; [intros []|]. intros (Q & _). apply time_view_spec in Q. congruence. }
  assert (CR : forall x, In x (crater_parts s) <-> of_craters (ds_view s) /\ ((x = Epochs /\ ds_ep s <> None) \/ (x = Equilibrium /\ ds_ef s <> None) \/ (x = Isochrons /\ ds_isochrons s = true))).
  { intros x. unfold crater_parts. destruct (crater_view (ds_view s)) eqn:CV.
    - apply crater_view_spec in CV. rewrite !in_app_iff. unfold given. destruct (ds_ep s), (ds_ef s), (ds_isochrons s); cbn [In]; intuition (try congruence).
    - split; [intros []|]. intros (Q & _). apply crater_view_spec in Q. congruence. }
  assert (SQ : forall x, In x (sequence_parts s) <-> ds_view s = SequenceView /\ x = Epochs /\ ds_ep s <> None).
  { intros x. unfold sequence_parts. destruct (ds_view s); [split; [intros []|intros (Q & _); discriminate]| |split; [intros []|intros (Q & _); discriminate]]. unfold given. destruct (ds_ep s); cbn [In]; intuition (try congruence). }
  assert (PL : forall x, In x (plot_parts s) -> exists i, x = Plot i). { intros x I. rewrite EP in I. apply in_map_iff in I as (i & <- & _). eexists; reflexivity. }
  assert (VW : of_chronology (ds_view s) \/ of_craters (ds_view s) \/ ds_view s = SequenceView \/ ds_view s = UncertaintyView).
  { unfold of_chronology. destruct (ds_view s) as [p| |]; [|tauto..]. destruct (is_time p) eqn:T; [left; destruct p; try discriminate; tauto|right; left; apply crater_view_spec; cbn; now rewrite T]. }
  assert (NC : ~ of_craters UncertaintyView) by (intros (p & Q & _); discriminate). assert (NT : ~ of_chronology UncertaintyView) by (intros [Q|Q]; discriminate).
  split; [|split; [|split; [|split; [|split; [|split]]]]].
  - exists (names ++ (time ++ crater_parts s ++ sequence_parts s) ++ plot_parts s). split; [|split].
    + f_equal; [f_equal; unfold age_view; destruct (ds_view s); reflexivity|]. now rewrite <- !app_assoc.
    + rewrite !in_app_iff. intros [I|[[I|[I|I]]|I]]; [apply NM in I as (t & Q); discriminate|apply TM in I|apply CR in I|apply SQ in I|apply PL in I as (i & Q); discriminate]; intuition discriminate.
    + intros a. rewrite !in_app_iff. intros [I|[[I|[I|I]]|I]]; [apply NM in I as (t & Q); discriminate|apply TM in I|apply CR in I|apply SQ in I|apply PL in I as (i & Q); discriminate]; intuition discriminate.
  - split.
    + intros (t & I). apply IN in I. destruct (in_dec ascii_dec (ch "f") (ds_legend s)) as [Q|Q]; [exact Q|]. rewrite (F2 Q) in I.
      destruct I as [I|[I|[I|[I|[I|[I|I]]]]]]; [discriminate|destruct I|apply TM in I|apply CR in I|apply SQ in I|apply PL in I as (i & G); discriminate|discriminate]; intuition discriminate.
    + intros Q. destruct (F1 Q) as (t & EQ). exists t. apply IN. right. left. rewrite EQ. now left.
  - rewrite IN. split.
    + intros [I|[I|[I|[I|[I|[I|I]]]]]]; [discriminate|apply NM in I as (t & Q); discriminate| | | |apply PL in I as (i & G); discriminate|discriminate].
      * apply TM in I as (V & [[_ I]|[(_ & [I|I])|(_ & I)]]); try discriminate. split; [exact I|]. intros Q. rewrite Q in V. contradiction.
      * apply CR in I as (V & [(_ & I)|[(I & _)|(I & _)]]); try discriminate. split; [exact I|]. intros Q. rewrite Q in V. contradiction.
      * apply SQ in I as (V & _ & I). split; [exact I|congruence].
    + intros (I & V). destruct VW as [W|[W|[W|W]]]; [right; right; left; apply TM; tauto|right; right; right; left; apply CR; tauto|right; right; right; right; left; apply SQ; tauto|contradiction].
  - rewrite IN. split.
    + intros [I|[I|[I|[I|[I|[I|I]]]]]]; [discriminate|apply NM in I as (t & Q); discriminate|apply TM in I; intuition discriminate|apply CR in I; intuition discriminate|apply SQ in I; intuition discriminate|apply PL in I as (i & G); discriminate|discriminate].
    + intros (I & V). right; right; right; left. apply CR. tauto.
  - rewrite IN. split.
    + intros [I|[I|[I|[I|[I|[I|I]]]]]]; [discriminate|apply NM in I as (t & Q); discriminate|apply TM in I; intuition discriminate|apply CR in I; intuition discriminate|apply SQ in I; intuition discriminate|apply PL in I as (i & G); discriminate|discriminate].
    + intros (I & V). right; right; right; left. apply CR. tauto.
  - split.
    + intros (lb & m & I). apply IN in I. destruct I as [I|[I|[I|[I|[I|[I|I]]]]]]; [discriminate|apply NM in I as (t & Q); discriminate|now apply TM in I as (I & _)|apply CR in I; intuition discriminate|apply SQ in I; intuition discriminate|apply PL in I as (i & G); discriminate|discriminate].
    + intros V. destruct (Req_dec (ds_ref s) 1) as [Q|Q].
      * exists None, true. apply IN. right; right; left. apply TM. tauto.
      * eexists _, true. apply IN. right; right; left. apply TM. split; [exact V|]. right; left. split; [exact Q|]. left. reflexivity.
  - intros i. rewrite IN. rewrite <- plots_in. split; [|tauto].
    intros [I|[I|[I|[I|[I|[I|I]]]]]]; [discriminate|apply NM in I as (t & Q); discriminate|apply TM in I; intuition discriminate|apply CR in I; intuition discriminate|apply SQ in I; intuition discriminate|exact I|discriminate].
Qed.
Print Assumptions C116_parts.

(** ** Their order *)
Lemma beneath_app l1 l2 a b : In a l1 -> In b l2 -> beneath (l1 ++ l2) a b.
Proof. intros A B. apply in_split in A as (x & y & ->). apply in_split in B as (z & w & ->). exists x, (y ++ z), w. now rewrite <- !app_assoc. Qed.
Lemma beneath_ctx l0 l1 l2 a b : beneath l1 a b -> beneath (l0 ++ l1 ++ l2) a b.
Proof. intros (x & y & z & ->). exists (l0 ++ x), y, (z ++ l2). repeat (rewrite <- app_assoc; cbn [app]). reflexivity. Qed.

(** every plot is on top of the epochs, the equilibrium function and the isochrons, and of the plots given after it; it is drawn once; the curve of the reference diameter is beneath that of 1 km *)
Theorem C116_order : forall s l, drawable s -> draw s = Ok l ->
  (forall i, In (Plot i) l -> exists x y, l = x ++ Plot i :: y /\ ~ In (Plot i) x /\ ~ In (Plot i) y) /\
  (forall i j, (i < j)%nat -> In (Plot i) l -> In (Plot j) l -> beneath l (Plot j) (Plot i)) /\
  (forall i e, In (Plot i) l -> In e l -> e = Epochs \/ e = Equilibrium \/ e = Isochrons -> beneath l e (Plot i)) /\
  (In Epochs l -> In Equilibrium l -> beneath l Epochs Equilibrium) /\ (In Equilibrium l -> In Isochrons l -> beneath l Equilibrium Isochrons) /\ (In Epochs l -> In Isochrons l -> beneath l Epochs Isochrons) /\
  (forall lb m, In Epochs l -> In (Curve lb m) l -> beneath l Epochs (Curve lb m)).
Proof.
  intros s l D E. destruct (draw_ok s D) as (names & time & E' & ET & F1 & F2). rewrite E in E'. assert (OI : forall a b : list part, Ok a = Ok b -> a = b) by congruence. apply OI in E'. clear E.
  destruct (plots_order s) as (ks & EP & SS).
  assert (NM : forall x, In x names -> exists t, x = Functions t). { intros x I. destruct (in_dec ascii_dec (ch "f") (ds_legend s)) as [Q|Q]; [destruct (F1 Q) as (t & ->); destruct I as [<-|[]]; eexists; reflexivity|rewrite (F2 Q) in I; destruct I]. }
  assert (TM : forall x, In x time -> x = Epochs \/ exists lb m, x = Curve lb m).
  { unfold time_parts in ET. intros x I. destruct (time_view _); [|apply OI in ET; subst; destruct I]. destruct (ds_cf s); [|discriminate]. apply OI in ET. subst. apply in_app_iff in I as [I|I]; [destruct (given _); [destruct I as [I|[]]; now left|destruct I]|].
    destruct (negb _); [destruct I as [<-|[<-|[]]]|destruct I as [<-|[]]]; right; eexists _, _; reflexivity. }
  assert (CR : forall x, In x (crater_parts s) -> x = Epochs \/ x = Equilibrium \/ x = Isochrons).
  { unfold crater_parts. intros x I. destruct (crater_view _); [|destruct I]. rewrite !in_app_iff in I. destruct (given (ds_ep s)), (given (ds_ef s)), (ds_isochrons s); cbn [In] in I; intuition congruence. }
  assert (SQ : forall x, In x (sequence_parts s) -> x = Epochs).
  { unfold sequence_parts. intros x I. destruct (ds_view s); try destruct I. destruct (given _); [destruct I as [<-|[]]; reflexivity|destruct I]. }
  assert (PL : forall x, In x (plot_parts s) -> exists i, x = Plot i). { intros x I. rewrite EP in I. apply in_map_iff in I as (i & <- & _). eexists; reflexivity. }
  set (mid := time ++ crater_parts s ++ sequence_parts s) in *.
  assert (MID : forall x, In x mid -> x = Epochs \/ x = Equilibrium \/ x = Isochrons \/ exists lb m, x = Curve lb m).
  { intros x I. unfold mid in I. rewrite !in_app_iff in I. destruct I as [I|[I|I]]; [apply TM in I|apply CR in I|apply SQ in I]; intuition. }
  assert (INP : forall i, In (Plot i) l -> In (Plot i) (plot_parts s)).
  { intros i I. rewrite E' in I. cbn [In] in I. rewrite !in_app_iff in I. cbn [In] in I. destruct I as [I|[I|[I|[I|[I|[]]]]]]; [discriminate|apply NM in I as (t & Q); discriminate|apply MID in I as [I|[I|[I|(lb & m & I)]]]; discriminate|exact I|discriminate]. }
  assert (INM : forall e, In e l -> e = Epochs \/ e = Equilibrium \/ e = Isochrons \/ (exists lb m, e = Curve lb m) -> In e mid).
  { intros e I Q. rewrite E' in I. cbn [In] in I. rewrite !in_app_iff in I. cbn [In] in I. destruct I as [I|[I|[I|[I|[I|[]]]]]]; [|apply NM in I as (t & I)|exact I|apply PL in I as (t & I)|]; exfalso; subst e; destruct Q as [Q|[Q|[Q|(lb & m & Q)]]]; discriminate. }
  assert (EL : l = (Space (age_view (ds_view s)) :: names) ++ mid ++ (plot_parts s ++ [Legend])) by (rewrite E'; reflexivity).
  assert (EL2 : l = (Space (age_view (ds_view s)) :: names ++ mid) ++ plot_parts s ++ [Legend]) by (rewrite E'; cbn [app]; now rewrite <- !app_assoc).
  assert (ND : NoDup ks). { clear - SS. induction SS as [|k ks SS IH F]; constructor; [|exact IH]. intros I. rewrite Forall_forall in F. apply F in I. lia. }
  assert (CP : forall x y, In x l -> In y l -> (exists a b, crater_parts s = a ++ b /\ In x a /\ In y b) -> beneath l x y).
  { intros x y _ _ (a & b & EC & IX & IY). rewrite EL. apply beneath_ctx. unfold mid. apply beneath_ctx. rewrite EC. now apply beneath_app. }
  assert (TC : forall x, In x mid -> x = Equilibrium \/ x = Isochrons -> crater_view (ds_view s) = true /\ In x (crater_parts s)).
  { intros x I Q. unfold mid in I. rewrite !in_app_iff in I. destruct I as [I|[I|I]]; [apply TM in I; exfalso; destruct I as [I|(lb & m & I)]; subst x; intuition discriminate| |apply SQ in I; exfalso; subst x; intuition discriminate].
    split; [|exact I]. unfold crater_parts in I. destruct (crater_view _); [reflexivity|destruct I]. }
  assert (EC : crater_view (ds_view s) = true -> In Epochs mid -> given (ds_ep s) = true).
  { intros CV I. unfold mid in I. rewrite !in_app_iff in I. destruct I as [I|[I|I]].
    - unfold time_parts in ET. destruct (ds_view s) as [p| |]; cbn in CV, ET; try discriminate. destruct (is_time p); [discriminate|]. apply OI in ET. subst. destruct I.
    - unfold crater_parts in I. rewrite CV in I. rewrite !in_app_iff in I. destruct (given (ds_ep s)); [reflexivity|]. exfalso. destruct (given (ds_ef s)), (ds_isochrons s); cbn [In] in I; intuition discriminate.
    - unfold sequence_parts in I. destruct (ds_view s); try destruct I. discriminate CV. }
  split; [|split; [|split; [|split; [|split; [|split]]]]].
  - intros i I. apply INP in I. rewrite EP in I. apply in_map_iff in I as (k & K & I). injection K as ->. apply in_split in I as (a & b & R).
    assert (NR : NoDup (rev ks)) by now apply NoDup_rev. rewrite R in NR. apply NoDup_remove_2 in NR.
    assert (HM : forall x, ~ In i x -> ~ In (Plot i) (map Plot x)) by (intros x N J; apply in_map_iff in J as (k & K & J); injection K as ->; contradiction).
    exists ((Space (age_view (ds_view s)) :: names ++ mid) ++ map Plot a), (map Plot b ++ [Legend]). split; [|split].
    + rewrite EL2, EP, R, map_app. cbn [map]. now rewrite <- !app_assoc.
    + rewrite in_app_iff. cbn [In]. rewrite in_app_iff. intros [[J|[J|J]]|J]; [discriminate|apply NM in J as (t & Q); discriminate|apply MID in J as [J|[J|[J|(lb & m & J)]]]; discriminate|]. revert J. apply HM. rewrite in_app_iff in NR. tauto.
    + rewrite in_app_iff. intros [J|[J|[]]]; [|discriminate]. revert J. apply HM. rewrite in_app_iff in NR. tauto.
  - intros i j IJ I J. apply INP in I, J. rewrite EP in I, J. apply in_map_iff in I as (i' & Q & I). injection Q as ->. apply in_map_iff in J as (j' & Q & J). injection Q as ->. rewrite <- in_rev in I, J.
    rewrite EL2. apply beneath_ctx. rewrite EP. apply in_split in I as (a & b & R). rewrite R in J, SS |- *. rewrite rev_app_distr. cbn [rev]. rewrite <- app_assoc. rewrite map_app. apply beneath_app; [|cbn [app map]; now left].
    apply in_map. rewrite <- in_rev. apply in_app_iff in J as [J|J]; [|destruct J as [J|J]; [lia|exact J]]. exfalso.
    clear - SS J IJ. induction a as [|x a IH]; [destruct J|]. cbn in SS. inversion SS as [|? ? S1 S2]; subst. destruct J as [->|J]; [|now apply IH]. rewrite Forall_forall in S2. assert (In i (a ++ i :: b)) by (apply in_app_iff; right; now left). apply S2 in H. lia.
  - intros i e I J Q. rewrite EL. rewrite app_assoc. apply beneath_app; [apply in_app_iff; right; apply INM; [exact J|tauto]|apply in_app_iff; left; now apply INP].
  - intros I J. apply CP; [exact I|exact J|]. apply INM in I; [|tauto]. apply INM in J; [|tauto]. destruct (TC _ J ltac:(tauto)) as (CV & J'). pose proof (EC CV I) as G. unfold crater_parts in J' |- *. rewrite CV, G in *.
    eexists [Epochs], _. split; [reflexivity|]. split; [now left|]. cbn [app In] in J'. destruct J' as [J'|J']; [discriminate|exact J'].
  - intros I J. apply CP; [exact I|exact J|]. apply INM in I; [|tauto]. apply INM in J; [|tauto]. destruct (TC _ J ltac:(tauto)) as (CV & J'). destruct (TC _ I ltac:(tauto)) as (_ & I'). unfold crater_parts in I', J' |- *. rewrite CV in *.
    exists ((if given (ds_ep s) then [Epochs] else []) ++ (if given (ds_ef s) then [Equilibrium] else [])), (if ds_isochrons s then [Isochrons] else []). split; [now rewrite <- app_assoc|].
    rewrite !in_app_iff in I', J'. destruct (given (ds_ep s)), (given (ds_ef s)), (ds_isochrons s); cbn [In app] in *; intuition discriminate.
  - intros I J. apply CP; [exact I|exact J|]. apply INM in I; [|tauto]. apply INM in J; [|tauto]. destruct (TC _ J ltac:(tauto)) as (CV & J'). pose proof (EC CV I) as G. unfold crater_parts in J' |- *. rewrite CV, G in *.
    eexists [Epochs], _. split; [reflexivity|]. split; [now left|]. cbn [app In] in J'. destruct J' as [J'|J']; [discriminate|exact J'].
  - intros lb m I J. apply INM in I; [|tauto]. assert (J' : In (Curve lb m) mid) by (apply INM; [exact J|right; right; right; eexists _, _; reflexivity]).
    assert (JT : In (Curve lb m) time). { unfold mid in J'. rewrite !in_app_iff in J'. destruct J' as [J'|[J'|J']]; [exact J'|apply CR in J' as [Q|[Q|Q]]; discriminate|apply SQ in J'; discriminate]. }
    rewrite EL. apply beneath_ctx. unfold mid. rewrite <- (app_nil_l (time ++ _)). apply beneath_ctx.
    unfold time_parts in ET. destruct (time_view (ds_view s)) eqn:TV; [|apply OI in ET; subst; destruct JT]. destruct (ds_cf s); [|discriminate]. apply OI in ET. subst time.
    assert (G : given (ds_ep s) = true).
    { unfold mid in I. rewrite !in_app_iff in I. destruct (given (ds_ep s)); [reflexivity|]. exfalso. destruct I as [[I|I]|[I|I]]; [destruct I|destruct (negb _); cbn [In] in I; intuition discriminate| |].
      - unfold crater_parts in I. destruct (ds_view s); cbn in TV, I; try discriminate. rewrite TV in I. destruct I.
      - unfold sequence_parts in I. destruct (ds_view s); try destruct I. discriminate TV. }
    rewrite G in *. apply beneath_app; [now left|]. apply in_app_iff in JT as [[JT|[]]|JT]; [discriminate|exact JT].
Qed.
Print Assumptions C116_order.

(** ** The curves *)
(** at a reference diameter other than 1 km there are two curves with their labels, the main one that of the reference diameter; otherwise one without label *)
Theorem C116_curves : forall s l, drawable s -> draw s = Ok l -> of_chronology (ds_view s) ->
  (ds_ref s <> 1 -> forall lb m, In (Curve lb m) l <-> (lb = Some (L "N(>" ++ fmt_g 6 (ds_ref s) ++ L " km)") /\ m = true) \/ (lb = Some (L "N(>1 km)") /\ m = false)) /\
  (ds_ref s = 1 -> forall lb m, In (Curve lb m) l <-> lb = None /\ m = true).
Proof.
  intros s l D E V. destruct (draw_ok s D) as (names & time & E' & ET & F1 & F2). rewrite E in E'. assert (OI : forall a b : list part, Ok a = Ok b -> a = b) by congruence. apply OI in E'. clear E.
  assert (NM : forall x, In x names -> exists t, x = Functions t). { intros x I. destruct (in_dec ascii_dec (ch "f") (ds_legend s)) as [Q|Q]; [destruct (F1 Q) as (t & ->); destruct I as [<-|[]]; eexists; reflexivity|rewrite (F2 Q) in I; destruct I]. }
  assert (OTH : crater_parts s = [] /\ sequence_parts s = [] /\ plot_parts s = []) by (unfold crater_parts, sequence_parts, plot_parts; destruct V as [-> | ->]; cbn; repeat split). destruct OTH as (O1 & O2 & O3). rewrite O1, O2, O3, !app_nil_r in E'.
  assert (IN : forall lb m, In (Curve lb m) l <-> In (Curve lb m) time).
  { intros lb m. rewrite E'. cbn [In]. rewrite !in_app_iff. cbn [In]. split; [|tauto]. intros [I|[I|[I|[I|[I|[]]]]]]; [discriminate|apply NM in I as (t & Q); discriminate|exact I|destruct I|discriminate]. }
  apply time_view_spec in V. unfold time_parts in ET. rewrite V in ET. destruct D as (_ & _ & (cf & EC)). rewrite EC in ET. apply OI in ET. subst time.
  split; intros R lb m; rewrite IN, in_app_iff; destruct (Reqb_spec (ds_ref s) 1) as [Q|Q]; try contradiction; destruct (given (ds_ep s)); cbn [negb In]; intuition congruence.
Qed.
Print Assumptions C116_curves.

(** a chronology diagram cannot be drawn without a chronology, nor the names of the functions without a production function that they name *)
Theorem C116_missing : forall s, (of_chronology (ds_view s) \/ In (ch "f") (ds_legend s)) -> ds_cf s = None -> forall l, draw s <> Ok l.
Proof.
  intros s H N l E. unfold draw in E. destruct (ds_ratio s); [|discriminate]. cbn [bind] in E. rewrite N in E. destruct H as [H|H].
  - destruct (function_legend _ _ _ _ _ _ _); [|discriminate]. cbn [bind] in E. unfold time_parts in E. apply time_view_spec in H. rewrite H, N in E. discriminate.
  - unfold function_legend in E. rewrite (proj2 (mem_in (ch "f") (ds_legend s)) H) in E. unfold function_text in E. destruct (_ || _); [destruct (ds_pf s)|]; discriminate.
Qed.
Print Assumptions C116_missing.

(** a differential diagram of three plots, the second without bins *)
Example C116_hypotheses_met : let s := mkDs (Diagram Differential) (L "fanr") 1 (Ok 1) (Some (L "Mars")) None (Some (L "pf")) (Some (L "cf")) true ["pseudo-log"; "none"; "decade"]%string in
  drawable s /\ exists t, draw s = Ok [Space false; Functions t; Epochs; Isochrons; Plot 2; Plot 0; Legend].
Proof.
  intros s. assert (D : drawable s) by (repeat split; eexists; reflexivity). split; [exact D|]. destruct (draw_ok s D) as (names & time & E & ET & F1 & _). destruct (F1 ltac:(now left)) as (t & EN). exists t. rewrite E, EN.
  assert (OI : forall a b : list part, Ok a = Ok b -> a = b) by congruence. unfold time_parts in ET. cbn in ET. apply OI in ET. subst time. reflexivity.
Qed.
